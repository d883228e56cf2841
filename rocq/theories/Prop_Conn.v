(** Theorems about the connection manager (C60) and the statistics (C63). *)
From Coq Require Import NArith ZArith List Bool String Ascii Arith Lia Sorted.
From Verif Require Import Uri Conn.
Import ListNotations.

(** ** C60: specification *)

(** The complete entries in the order in which they are met, a file named again
    counting once. *)
Fixpoint entries (seen : list str) (fs : list cfile) : list cdesc :=
  match fs with
  | [] => []
  | f :: t =>
      if in_dec (list_eq_dec ascii_dec) (f_name f) seen then entries seen t
      else match f_body f with
           | None => []
           | Some es => flat_map (fun e => match e_id e, e_uri e, e_table e with
                                           | Some i, Some u, Some tb => [mkDesc i u tb (f_path f)]
                                           | _, _, _ => [] end) es
           end ++ entries (f_name f :: seen) t
  end.

(** Entries with one id agree. *)
Definition agree (l : list cdesc) : Prop :=
  forall a b, In a l -> In b l -> d_id a = d_id b -> d_uri a = d_uri b /\ d_table a = d_table b.

(** The first entry with an id. *)
Fixpoint first_entry (l : list cdesc) (i : str) : option cdesc :=
  match l with [] => None | d :: t => if list_eq_dec ascii_dec (d_id d) i then Some d else first_entry t i end.

(** ** Order of strings *)

Definition lt (a b : str) : Prop := str_ltb a b = true.

Lemma ltb_irrefl : forall a, str_ltb a a = false.
Proof. intros a; induction a as [|x a IH]; [reflexivity|]. cbn [str_ltb]. rewrite N.ltb_irrefl. exact IH. Qed.

Lemma ltb_trans : forall a b c, lt a b -> lt b c -> lt a c.
Proof.
  unfold lt. intros a; induction a as [|x a IH]; intros [|y b] [|z c] H1 H2; cbn [str_ltb] in *; try discriminate; auto.
  destruct (N.ltb_spec (N_of_ascii x) (N_of_ascii y)); destruct (N.ltb_spec (N_of_ascii y) (N_of_ascii z));
    destruct (N.ltb_spec (N_of_ascii x) (N_of_ascii z)); auto; try lia.
  - destruct (N.ltb_spec (N_of_ascii z) (N_of_ascii y)); [discriminate H2|lia].
  - destruct (N.ltb_spec (N_of_ascii y) (N_of_ascii x)); [discriminate H1|lia].
  - destruct (N.ltb_spec (N_of_ascii y) (N_of_ascii x)); [discriminate H1|].
    destruct (N.ltb_spec (N_of_ascii z) (N_of_ascii y)); [discriminate H2|].
    destruct (N.ltb_spec (N_of_ascii z) (N_of_ascii x)); [lia|]. eapply IH; eassumption.
Qed.

Lemma ltb_total : forall a b, str_ltb a b = false -> str_ltb b a = false -> a = b.
Proof.
  intros a; induction a as [|x a IH]; intros [|y b] H1 H2; cbn [str_ltb] in *; try discriminate; [reflexivity|].
  destruct (N.ltb_spec (N_of_ascii x) (N_of_ascii y)); [discriminate H1|].
  destruct (N.ltb_spec (N_of_ascii y) (N_of_ascii x)); [discriminate H2|].
  f_equal; [|apply IH; assumption].
  assert (E : N_of_ascii x = N_of_ascii y) by lia. apply (f_equal ascii_of_N) in E. rewrite !ascii_N_embedding in E. exact E.
Qed.

(** ** The map *)

Definition sorted (m : cmap) : Prop := StronglySorted lt (map fst m).

Lemma sorted_inv : forall j d t, sorted ((j, d) :: t) -> sorted t /\ Forall (fun k => lt j k) (map fst t).
Proof. intros j d t H. apply StronglySorted_inv in H. exact H. Qed.

Lemma find_small : forall m i, Forall (fun k => lt i k) (map fst m) -> map_find m i = None.
Proof. intros [|[j d] t] i H; [reflexivity|]. cbn [map_find]. inversion H as [|? ? H1 H2]; subst. cbn [fst] in H1. unfold lt in H1. rewrite H1. reflexivity. Qed.

Lemma put_keys : forall m i d k, In k (map fst (map_put m i d)) <-> k = i \/ In k (map fst m).
Proof.
  intros m i d k.
  assert (Y : forall a b : str, a = b <-> b = a) by (intros; split; congruence).
  induction m as [|[j e] t IH]; cbn [map_put map fst In]; [rewrite (Y i k); tauto|].
  destruct (str_ltb i j); cbn [map fst In]; [rewrite (Y i k); tauto|]. rewrite IH. tauto.
Qed.

Lemma put_sorted : forall m i d, sorted m -> map_find m i = None -> sorted (map_put m i d).
Proof.
  intros m i d; induction m as [|[j e] t IH]; intros S F; cbn [map_put].
  - constructor; constructor.
  - cbn [map_find] in F. destruct (sorted_inv _ _ _ S) as [S1 S2]. destruct (str_ltb i j) eqn:E1.
    + constructor; [exact S|]. constructor; [exact E1|]. eapply Forall_impl; [|exact S2]. intros k Hk. eapply ltb_trans; [exact E1|exact Hk].
    + destruct (str_ltb j i) eqn:E2; [|discriminate F]. constructor; [apply IH; assumption|].
      apply Forall_forall. intros k Hk. apply put_keys in Hk. destruct Hk as [->|Hk]; [exact E2|].
      rewrite Forall_forall in S2. apply S2. exact Hk.
Qed.

Lemma put_find : forall m i d k, sorted m -> map_find m i = None ->
  map_find (map_put m i d) k = if list_eq_dec ascii_dec i k then Some d else map_find m k.
Proof.
  intros m i d k; induction m as [|[j e] t IH]; intros S F; cbn [map_put map_find].
  - destruct (list_eq_dec ascii_dec i k) as [->|N].
    + rewrite ltb_irrefl. reflexivity.
    + destruct (str_ltb k i) eqn:E1; [reflexivity|]. destruct (str_ltb i k) eqn:E2; [reflexivity|].
      destruct N. symmetry. apply ltb_total; assumption.
  - cbn [map_find] in F. destruct (sorted_inv _ _ _ S) as [S1 S2]. destruct (str_ltb i j) eqn:E1.
    + cbn [map_find]. destruct (list_eq_dec ascii_dec i k) as [->|N].
      * rewrite ltb_irrefl. reflexivity.
      * destruct (str_ltb k i) eqn:E2.
        { assert (lt k j) by (eapply ltb_trans; [exact E2|exact E1]). unfold lt in H. rewrite H. reflexivity. }
        { destruct (str_ltb i k) eqn:E3; [reflexivity|]. destruct N. symmetry. apply ltb_total; assumption. }
    + destruct (str_ltb j i) eqn:E2; [|discriminate F]. cbn [map_find]. rewrite (IH S1 F).
      destruct (list_eq_dec ascii_dec i k) as [->|N]; [|reflexivity]. rewrite E1, E2. reflexivity.
Qed.

Lemma find_keys : forall m k, sorted m -> (map_find m k <> None <-> In k (map fst m)).
Proof.
  intros m k; induction m as [|[j d] t IH]; intros S; cbn [map_find map fst In]; [split; [congruence|tauto]|].
  destruct (sorted_inv _ _ _ S) as [S1 S2]. destruct (str_ltb k j) eqn:E1.
  - split; [congruence|]. intros [->|H]; [rewrite ltb_irrefl in E1; discriminate E1|].
    rewrite Forall_forall in S2. assert (Z : lt k k) by (eapply ltb_trans; [exact E1|apply S2; exact H]).
    unfold lt in Z. rewrite ltb_irrefl in Z. discriminate Z.
  - destruct (str_ltb j k) eqn:E2.
    + rewrite (IH S1). split; [tauto|]. intros [->|H]; [rewrite ltb_irrefl in E2; discriminate E2|exact H].
    + split; [intros _; left; apply ltb_total; assumption|discriminate].
Qed.

(** ** Loading *)

(** The map holds the first entry of each id of [l]. *)
Definition holds (m : cmap) (l : list cdesc) : Prop := sorted m /\ agree l /\ forall k, map_find m k = first_entry l k.

Lemma first_in : forall l k d, first_entry l k = Some d -> In d l /\ d_id d = k.
Proof.
  intros l k d; induction l as [|x t IH]; cbn [first_entry]; [discriminate|].
  destruct (list_eq_dec ascii_dec (d_id x) k) as [E|E]; [intros H; injection H as <-; split; [left; reflexivity|exact E]|].
  intros H. destruct (IH H). split; [right; assumption|assumption].
Qed.

Lemma first_none : forall l k d, first_entry l k = None -> In d l -> d_id d <> k.
Proof.
  intros l k d; induction l as [|x t IH]; cbn [first_entry In]; [tauto|].
  destruct (list_eq_dec ascii_dec (d_id x) k) as [E|E]; [discriminate|]. intros H [->|I]; [exact E|apply IH; assumption].
Qed.

Lemma first_app : forall l l' k, first_entry (l ++ l') k = match first_entry l k with Some d => Some d | None => first_entry l' k end.
Proof. intros l l' k; induction l as [|x t IH]; cbn [first_entry app]; [reflexivity|]. destruct (list_eq_dec _ _ _); [reflexivity|exact IH]. Qed.

Lemma same_desc_spec : forall a b, same_desc a b = true <-> d_id a = d_id b /\ d_uri a = d_uri b /\ d_table a = d_table b.
Proof.
  intros a b. unfold same_desc, str_eqb. destruct (list_eq_dec ascii_dec (d_id a) (d_id b)), (list_eq_dec ascii_dec (d_uri a) (d_uri b)),
    (list_eq_dec ascii_dec (d_table a) (d_table b)); cbn [andb]; intuition (discriminate || congruence).
Qed.

Definition complete (path : str) (es : list centry) : list cdesc :=
  flat_map (fun e => match e_id e, e_uri e, e_table e with Some i, Some u, Some tb => [mkDesc i u tb path] | _, _, _ => [] end) es.

Lemma agree_app_l : forall l l', agree (l ++ l') -> agree l.
Proof. intros l l' H a b Ha Hb. apply H; apply in_or_app; auto. Qed.

Lemma add_entries_spec : forall path es m l, holds m l ->
  match add_entries m path es with
  | Some m' => holds m' (l ++ complete path es)
  | None => ~ agree (l ++ complete path es)
  end.
Proof.
  intros path es; induction es as [|e t IH]; intros m l H; cbn [add_entries].
  - cbn. rewrite app_nil_r. exact H.
  - unfold complete. cbn [flat_map]. fold (complete path t). unfold descriptor.
    destruct (e_id e) as [i|], (e_uri e) as [u|], (e_table e) as [tb|]; cbn [app]; try (apply IH; exact H).
    set (d := mkDesc i u tb path). change (d_id d) with i. change (l ++ d :: complete path t) with (l ++ [d] ++ complete path t). rewrite app_assoc.
    destruct H as (S & A & F). destruct (map_find m i) as [d'|] eqn:Q.
    + destruct (first_in l i d') as [I1 I2]; [rewrite <- F; exact Q|]. destruct (same_desc d' d) eqn:E.
      * apply IH. split; [exact S|]. apply same_desc_spec in E. destruct E as (E1 & E2 & E3). split.
        { intros a b Ha Hb Hab. apply in_app_or in Ha, Hb. cbn [In] in Ha, Hb.
          destruct Ha as [Ha|[<-|[]]]; destruct Hb as [Hb|[<-|[]]]; auto.
          - destruct (A a d' Ha I1); [congruence|]. split; congruence.
          - destruct (A d' b I1 Hb); [congruence|]. split; congruence. }
        { intros k. rewrite F, first_app. cbn [first_entry]. destruct (first_entry l k) as [x|] eqn:Z; [reflexivity|].
          destruct (list_eq_dec ascii_dec (d_id d) k) as [Y|Y]; [|reflexivity]. exfalso. cbn [d_id d] in Y. subst k. rewrite <- F in Z. congruence. }
      * intros AG. apply agree_app_l in AG. specialize (AG d' d). assert (X : same_desc d' d = true); [|congruence].
        apply same_desc_spec. split; [exact I2|]. apply AG; [apply in_or_app; left; exact I1|apply in_or_app; right; left; reflexivity|exact I2].
    + apply IH. split; [apply put_sorted; assumption|]. split.
      * assert (Fn : forall x, In x l -> d_id x <> i) by (intros x Hx; apply (first_none l i x); [rewrite <- F; exact Q|exact Hx]).
        intros a b Ha Hb Hab. apply in_app_or in Ha, Hb. cbn [In] in Ha, Hb.
        destruct Ha as [Ha|[<-|[]]]; destruct Hb as [Hb|[<-|[]]]; auto; cbn [d_id d] in Hab; exfalso; [apply (Fn a Ha); exact Hab|apply (Fn b Hb); congruence].
      * intros k. rewrite put_find by assumption. rewrite first_app, <- F. cbn [first_entry d_id d].
        destruct (list_eq_dec ascii_dec i k) as [->|]; [rewrite Q; reflexivity|]. destruct (map_find m k); reflexivity.
Qed.

Lemma existsb_in : forall p l, existsb (str_eqb p) l = if in_dec (list_eq_dec ascii_dec) p l then true else false.
Proof.
  intros p l. destruct (in_dec (list_eq_dec ascii_dec) p l) as [I|I].
  - apply existsb_exists. exists p. split; [exact I|]. unfold str_eqb. destruct (list_eq_dec ascii_dec p p); congruence.
  - apply not_true_is_false. intros H. apply existsb_exists in H. destruct H as (x & H1 & H2). unfold str_eqb in H2.
    destruct (list_eq_dec ascii_dec p x); [subst; tauto|discriminate H2].
Qed.

Lemma load_spec : forall fs m op l, holds m l ->
  match load_files (m, op) fs with
  | Some y => holds (fst y) (l ++ entries op fs)
  | None => ~ agree (l ++ entries op fs)
  end.
Proof.
  intros fs; induction fs as [|f t IH]; intros m op l H; cbn [load_files entries callback].
  - rewrite app_nil_r. exact H.
  - rewrite existsb_in. destruct (in_dec (list_eq_dec ascii_dec) (f_name f) op) as [I|I]; [apply IH; exact H|].
    destruct (f_body f) as [es|]; [|cbn [app]; apply IH; exact H].
    fold (complete (f_path f) es). pose proof (add_entries_spec (f_path f) es m l H) as Z.
    destruct (add_entries m (f_path f) es) as [m'|].
    + rewrite app_assoc. apply IH. exact Z.
    + intros AG. apply Z. rewrite app_assoc in AG. exact (agree_app_l _ _ AG).
Qed.

(** C60: loading succeeds exactly when entries with one id agree; then every id
    is found as its first entry, getDevices lists each id once in increasing
    order, and nothing else. *)
Theorem C60_manager : forall fs,
  (manager fs <> None <-> agree (entries [] fs)) /\
  forall m, manager fs = Some m ->
    (forall i, get_device m i = first_entry (entries [] fs) i) /\
    StronglySorted lt (get_devices m) /\
    (forall i, In i (get_devices m) <-> exists d, In d (entries [] fs) /\ d_id d = i).
Proof.
  intros fs. pose proof (load_spec fs [] [] []) as Z. unfold manager.
  assert (H0 : holds [] []) by (split; [constructor|split; [intros a b []|reflexivity]]). specialize (Z H0). cbn [app] in Z.
  set (r := load_files ([], []) fs) in *. change (load_files _ fs) with r in Z. clearbody r.
  destruct r as [[m op]|]; cbn [option_map fst] in *.
  - destruct Z as (S & A & F). split; [split; [intros _; exact A|discriminate]|].
    intros m' E. injection E as <-. split.
    { intros i. rewrite <- F. destruct m; reflexivity. }
    split; [exact S|]. intros i. unfold get_devices. rewrite <- (find_keys m i S), F. split.
    + intros N. destruct (first_entry (entries [] fs) i) as [d|] eqn:Q; [|congruence]. exists d. apply first_in. exact Q.
    + intros (d & D1 & D2) N. exact (first_none _ _ _ N D1 D2).
  - split; [split; [congruence|intros A; destruct (Z A)]|]. discriminate.
Qed.

Lemma sorted_nodup : forall l, StronglySorted lt l -> NoDup l.
Proof.
  intros l H; induction H as [|a l H IH F]; constructor; [|exact IH]. intros I. rewrite Forall_forall in F. specialize (F a I).
  unfold lt in F. rewrite ltb_irrefl in F. discriminate F.
Qed.

(** No id is listed twice. *)
Theorem C60_once : forall fs m, manager fs = Some m -> NoDup (get_devices m).
Proof. intros fs m H. apply sorted_nodup. apply (proj2 (C60_manager fs) m H). Qed.

Definition ent (i u t : string) : centry := mkEnt (Some (s_ i)) (Some (s_ u)) (Some (s_ t)).
Definition file1 : cfile := mkFile (s_ "file/a.xml") (s_ "/a.xml")
  (Some [ent "b" "u1" "t1"; mkEnt (Some (s_ "x")) None None; ent "a" "u2" "t2"; ent "b" "u1" "t1"]).
Definition file2 : cfile := mkFile (s_ "file/b.xml") (s_ "/b.xml") (Some [ent "a" "u2" "t2"; ent "a0" "u3" "t3"]).
Example c60_case : match manager [file1; file2; file1; mkFile (s_ "file/c.xml") (s_ "/c.xml") None] with
  | Some m => get_devices m = map s_ ["a"; "a0"; "b"]%string /\
              get_device m (s_ "a") = Some (mkDesc (s_ "a") (s_ "u2") (s_ "t2") (s_ "/a.xml")) /\
              get_device m (s_ "x") = None
  | None => False end /\
  manager [file1; mkFile (s_ "file/d.xml") (s_ "/d.xml") (Some [ent "a" "u2" "other"])] = None.
Proof. vm_compute. auto. Qed.

(** ** C63 *)

Open Scope Z_scope.

(** The statistics after measurements [xs] on a new object; the durations of a
    new object are indeterminate. *)
Definition after (mn mx sm : Z) (xs : list Z) : stats := fold_left add_stat xs (new_stats mn mx sm).

Definition last5 (xs : list Z) : list Z := skipn (List.length xs - 5) xs.

Lemma last5_snoc : forall xs x, last5 (xs ++ [x]) = (let q := last5 xs ++ [x] in if Nat.ltb 5 (List.length q) then tl q else q).
Proof.
  intros xs x. unfold last5. cbv zeta. rewrite !app_length, skipn_length. cbn [List.length].
  destruct (Nat.ltb_spec 5 (List.length xs - (List.length xs - 5) + 1)) as [L|L].
  - assert (E : exists y t, skipn (List.length xs - 5) xs = y :: t).
    { destruct (skipn (List.length xs - 5) xs) as [|y t] eqn:Q; [|eauto].
      apply (f_equal (@List.length Z)) in Q. rewrite skipn_length in Q. cbn in Q. lia. }
    destruct E as (y & t & E). rewrite E. cbn [tl app].
    replace (List.length xs + 1 - 5)%nat with (S (List.length xs - 5)) by lia.
    rewrite skipn_app. replace (S (List.length xs - 5) - List.length xs)%nat with 0%nat by lia. cbn [skipn].
    f_equal. change (S (List.length xs - 5)) with (1 + (List.length xs - 5))%nat.
    assert (G : forall A (l : list A) n y t, skipn n l = y :: t -> skipn (S n) l = t).
    { clear. intros A l; induction l as [|a l IH]; intros [|n] y t H; cbn [skipn] in *; try discriminate; [injection H as _ <-; reflexivity|].
      apply (IH n y t H). }
    exact (G _ _ _ _ _ E).
  - replace (List.length xs + 1 - 5)%nat with 0%nat by lia. replace (List.length xs - 5)%nat with 0%nat by lia. reflexivity.
Qed.

Definition sum (xs : list Z) : Z := fold_right Z.add 0 xs.

Lemma sum_app : forall a b, sum (a ++ b) = sum a + sum b.
Proof. intros a b; unfold sum; induction a as [|x a IH]; cbn [app fold_right]; lia. Qed.

Lemma after_spec : forall mn mx sm xs,
  t_n (after mn mx sm xs) = List.length xs /\ t_latest (after mn mx sm xs) = last5 xs /\ t_sum (after mn mx sm xs) = sm + sum xs /\
  (xs <> [] -> In (t_min (after mn mx sm xs)) xs /\ In (t_max (after mn mx sm xs)) xs /\
               Forall (fun x => t_min (after mn mx sm xs) <= x <= t_max (after mn mx sm xs)) xs).
Proof.
  intros mn mx sm xs. induction xs as [|x xs IH] using rev_ind.
  - cbn. split; [reflexivity|]. split; [reflexivity|]. split; [lia|congruence].
  - unfold after in *. rewrite fold_left_app. cbn [fold_left]. set (s := fold_left add_stat xs (new_stats mn mx sm)) in *.
    destruct IH as (I1 & I2 & I3 & I4). unfold add_stat. cbn [t_n t_latest t_sum t_min t_max].
    split; [rewrite app_length; cbn [List.length]; lia|]. split; [rewrite last5_snoc, I2; reflexivity|].
    split; [rewrite sum_app, I3; cbn; lia|]. intros _.
    destruct xs as [|y xs].
    + rewrite I1. cbn [List.length Nat.eqb orb app In]. split; [auto|]. split; [auto|]. constructor; [lia|constructor].
    + destruct (I4 ltac:(discriminate)) as (A & B & C). rewrite I1. cbn [List.length Nat.eqb orb].
      rewrite Forall_forall in C.
      split; [destruct (x <? t_min s); apply in_or_app; [right; left; reflexivity|left; exact A]|].
      split; [destruct (t_max s <? x); apply in_or_app; [right; left; reflexivity|left; exact B]|].
      apply Forall_forall. intros z Hz. apply in_app_or in Hz. cbn [In] in Hz.
      destruct (Z.ltb_spec x (t_min s)); destruct (Z.ltb_spec (t_max s) x);
        (destruct Hz as [Hz|[<-|[]]]; [specialize (C z Hz); lia|pose proof (C _ A); lia]).
Qed.

(** C63 without the mean: whatever the indeterminate members were, size, minimum,
    maximum and the latest five values are right.  Missing: the mean
    ([C63_mean_refuted]) and clear ([C63_clear_refuted]). *)
Theorem C63_values_partial : forall mn mx sm xs, xs <> [] ->
  let s := after mn mx sm xs in
  t_n s = List.length xs /\ t_latest s = skipn (List.length xs - 5) xs /\
  In (t_min s) xs /\ In (t_max s) xs /\ Forall (fun x => t_min s <= x <= t_max s) xs.
Proof. intros mn mx sm xs H s. destruct (after_spec mn mx sm xs) as (A & B & _ & D). destruct (D H) as (D1 & D2 & D3). auto. Qed.

Lemma sum_bounds : forall xs a b, Forall (fun x => a <= x <= b) xs -> a * Z.of_nat (List.length xs) <= sum xs <= b * Z.of_nat (List.length xs).
Proof. intros xs a b H; induction H as [|x xs Hx H IH]; [cbn; lia|]. unfold sum in *. cbn [fold_right List.length]. lia. Qed.

(** The mean, if mSum was 0 at construction: intervals of a steady clock are not
    negative; their sum fits 63 bits. *)
Theorem C63_mean_partial : forall mn mx xs, xs <> [] -> Forall (fun x => 0 <= x) xs -> sum xs < 2 ^ 63 ->
  let s := after mn mx 0 xs in
  exists v, mean s = Some v /\ t_min s <= v <= t_max s /\ v * Z.of_nat (List.length xs) <= sum xs < (v + 1) * Z.of_nat (List.length xs).
Proof.
  intros mn mx xs H P B s. destruct (after_spec mn mx 0 xs) as (A1 & _ & A3 & A4). destruct (A4 H) as (D1 & D2 & D3). fold s in A1, A3, D1, D2, D3.
  unfold mean. rewrite A1, A3. destruct (List.length xs) as [|n] eqn:L; [destruct xs; [congruence|discriminate L]|].
  pose proof (sum_bounds _ _ _ D3) as SB. rewrite L in SB.
  assert (S0 : 0 <= sum xs). { pose proof D1 as Q. rewrite Forall_forall in P. specialize (P _ Q). nia. }
  change (0 + sum xs) with (sum xs). rewrite Z.mod_small by (change (2 ^ 64) with (2 * 2 ^ 63); lia).
  set (v := sum xs / Z.of_nat (S n)). assert (V : v * Z.of_nat (S n) <= sum xs < (v + 1) * Z.of_nat (S n)).
  { subst v. pose proof (Z.div_mod (sum xs) (Z.of_nat (S n)) ltac:(lia)). pose proof (Z.mod_pos_bound (sum xs) (Z.of_nat (S n)) ltac:(lia)). lia. }
  assert (V2 : v < 2 ^ 63). { assert (v <= sum xs) by (subst v; apply Z.div_le_upper_bound; [lia|nia]). lia. }
  replace (v <? 2 ^ 63) with true by (symmetry; apply Z.ltb_lt; exact V2).
  exists v. split; [reflexivity|]. split; [|exact V]. nia.
Qed.

(** mSum is never initialised: after one measurement the mean can be anything. *)
Theorem C63_mean_refuted : exists mn mx sm xs v, xs <> [] /\ Forall (fun x => 0 <= x) xs /\
  mean (after mn mx sm xs) = Some v /\ ~ t_min (after mn mx sm xs) <= v <= t_max (after mn mx sm xs).
Proof.
  exists 0, 0, 1000, [5], 1005. split; [discriminate|]. split; [repeat constructor; lia|]. split; [reflexivity|].
  cbn [after fold_left add_stat new_stats t_min t_max t_n Nat.eqb orb]. lia.
Qed.

(** After more than five measurements clear() pops an empty queue; after five or
    fewer the queue and the size are reset, the sum is not. *)
Theorem C63_clear_refuted : forall mn mx sm xs, (5 < List.length xs)%nat -> clear_stats (after mn mx sm xs) = None.
Proof.
  intros mn mx sm xs H. destruct (after_spec mn mx sm xs) as (A & B & _). unfold clear_stats. rewrite A, B. unfold last5. rewrite skipn_length.
  destruct (Nat.ltb_spec (List.length xs - (List.length xs - 5)) (List.length xs)); [reflexivity|lia].
Qed.

Theorem C63_clear_partial : forall mn mx sm xs, (List.length xs <= 5)%nat ->
  exists s, clear_stats (after mn mx sm xs) = Some s /\ t_n s = 0%nat /\ t_latest s = [] /\ t_sum s = sm + sum xs.
Proof.
  intros mn mx sm xs H. destruct (after_spec mn mx sm xs) as (A & B & C & _). unfold clear_stats. rewrite A, B. unfold last5. rewrite skipn_length.
  destruct (Nat.ltb_spec (List.length xs - (List.length xs - 5)) (List.length xs)); [lia|].
  eexists. split; [reflexivity|]. cbn [t_n t_latest t_sum]. split; [reflexivity|]. split; [|exact C].
  apply skipn_all2. rewrite skipn_length. lia.
Qed.

(** The mean after clear() counts the old measurements. *)
Theorem C63_mean_after_clear_refuted : exists s, clear_stats (after 0 0 0 [10; 20]) = Some s /\
  mean (add_stat s 6) = Some 36 /\ t_min (add_stat s 6) = 6 /\ t_max (add_stat s 6) = 6.
Proof. eexists. split; [reflexivity|]. vm_compute. auto. Qed.

Example c63_case : let s := after 77 88 0 [5; 9; 2; 7; 4; 6] in
  t_n s = 6%nat /\ t_latest s = [9; 2; 7; 4; 6] /\ t_min s = 2 /\ t_max s = 9 /\ mean s = Some 5 /\ clear_stats s = None.
Proof. vm_compute. repeat split. Qed.

Print Assumptions C60_manager.
Print Assumptions C60_once.
Print Assumptions C63_values_partial.
Print Assumptions C63_mean_partial.
Print Assumptions C63_mean_refuted.
Print Assumptions C63_clear_refuted.
Print Assumptions C63_clear_partial.
Print Assumptions C63_mean_after_clear_refuted.
