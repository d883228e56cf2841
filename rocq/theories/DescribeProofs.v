(** Proofs about [Describe.v]. *)
From Coq Require Import NArith ZArith List Bool String Ascii PeanoNat Sorted Lia ZifyBool ZifyNat ZifyN.
From Verif Require Import Word NodeTree NodeProofs Prop_Node Overlap Describe DescribeSpec.
Import ListNotations.
Open Scope N_scope.

(** ** The nodes at an address *)
Lemma at_pos_get t p n : get t p = Some n -> at_pos t p = n_at n.
Proof. unfold at_pos. intros ->. reflexivity. Qed.

Lemma sorted_filter {A} (R : A -> A -> Prop) (f : A -> bool) l : StronglySorted R l -> StronglySorted R (filter f l).
Proof.
  induction 1 as [|x l H IH F]; cbn [filter]; [constructor|]. destruct (f x); [|exact IH]. constructor; [exact IH|].
  apply Forall_forall. intros y Y. apply filter_In in Y. rewrite Forall_forall in F. apply F. tauto.
Qed.

Lemma hit_covers a x : (a_mode a = INCREMENTAL -> a_addr a + a_size a < 2 ^ 32) -> hit a x = true <-> covers a x.
Proof.
  unfold hit, covers. intros H. destruct (a_mode a); try (split; [discriminate|intros []]).
  - rewrite N.eqb_eq. split; congruence.
  - specialize (H eq_refl). unfold add32, W32. rewrite N.mod_small by exact H. rewrite andb_true_iff, N.leb_le, N.ltb_lt. reflexivity.
  - rewrite N.eqb_eq. split; congruence.
Qed.

Lemma matching_all t x : matching t x = filter (fun p => hit (at_pos t p) x) (preorder t).
Proof. unfold matching. rewrite iterate_all, <- preorder_length, firstn_all. reflexivity. Qed.

Lemma matching_at t x : blocks_inside t -> at_address t x (matching t x).
Proof.
  intros B. rewrite matching_all. split; [apply sorted_filter, preorder_sorted|]. intros p. rewrite filter_In, preorder_in. split.
  - intros ((n & G) & H). exists n. split; [exact G|]. rewrite (at_pos_get _ _ _ G) in H. apply hit_covers; [apply (B p n G)|exact H].
  - intros (n & G & C). split; [eauto|]. rewrite (at_pos_get _ _ _ G). apply hit_covers; [apply (B p n G)|exact C].
Qed.

(** ** Lineages *)
Fixpoint chain (q : list nat) : list (list nat) :=
  match q with [] => [[]] | i :: r => [] :: map (cons i) (chain r) end.

Lemma prefixes_chain : forall q d i, prefixes d (q ++ [i]) = map (app d) (chain q).
Proof.
  induction q as [|j q IH]; intros d i; cbn [prefixes chain app map].
  - rewrite app_nil_r. reflexivity.
  - rewrite app_nil_r. f_equal. rewrite IH, map_map. apply map_ext. intros r. rewrite <- app_assoc. reflexivity.
Qed.

Lemma prefixes_nil q i : prefixes [] (q ++ [i]) = chain q.
Proof. rewrite prefixes_chain. apply map_id. Qed.

Lemma chain_in : forall q r, In r (chain q) -> exists s, q = r ++ s.
Proof.
  induction q as [|i q IH]; intros r I; cbn [chain] in I.
  - destruct I as [<-|[]]. exists []. reflexivity.
  - destruct I as [<-|I]; [eexists; reflexivity|]. apply in_map_iff in I. destruct I as (r' & <- & I). destruct (IH _ I) as (s & ->). exists s. reflexivity.
Qed.

Lemma linked_at : forall p t n, linked_below t -> p <> [] -> get t p = Some n -> a_linked (n_at n) = true.
Proof.
  induction p as [|i p IH]; intros t n L NE G; [congruence|]. cbn [get] in G. destruct (nth_error (n_ch t) i) as [c|] eqn:E; [|discriminate].
  destruct (linked_below_inv _ L) as (L1 & L2). rewrite Forall_forall in L1, L2. apply nth_error_In in E.
  destruct p as [|j p]; [injection G as <-; apply L1, E|]. apply (IH c n (L2 _ E)); [discriminate|exact G].
Qed.

Lemma get_prefix t p q n : get t (p ++ q) = Some n -> exists m, get t p = Some m.
Proof. rewrite get_app. destruct (get t p); [eauto|discriminate]. Qed.

Lemma lineage_root t : lineage t [] = None.
Proof. reflexivity. Qed.

Lemma lineage_chain t q i n : linked_below t -> get t (q ++ [i]) = Some n -> lineage t (q ++ [i]) = Some (chain q).
Proof.
  intros L G. unfold lineage. destruct (q ++ [i]) as [|j r] eqn:E; [destruct q; discriminate|]. rewrite <- E in *. rewrite prefixes_nil.
  replace (forallb _ _) with true; [reflexivity|]. symmetry. apply forallb_forall. intros s I.
  assert (X : s <> [] /\ exists u, q ++ [i] = s ++ u).
  { apply in_app_iff in I. destruct I as [I|[<-|[]]].
    - destruct q as [|k q]; [destruct I|]. cbn [chain tl] in I. split; [intros ->; apply in_map_iff in I; destruct I as (? & ? & _); discriminate|].
      destruct (chain_in (k :: q) s (or_intror I)) as (u & ->). exists (u ++ [i]). rewrite <- app_assoc. reflexivity.
    - split; [rewrite E; discriminate|]. exists []. rewrite app_nil_r. reflexivity. }
  destruct X as (NE & u & X). rewrite X in G. destruct (get_prefix _ _ _ _ G) as (m & M). rewrite (at_pos_get _ _ _ M). exact (linked_at _ _ _ L NE M).
Qed.

(** ** The closest common ancestor *)
Fixpoint lcp (p q : list nat) : list nat :=
  match p, q with
  | i :: p', j :: q' => if Nat.eqb i j then i :: lcp p' q' else []
  | _, _ => []
  end.

Definition pre (q p : list nat) : Prop := exists r, p = q ++ r.

Lemma lcp_pre : forall p q r, pre r (lcp p q) <-> pre r p /\ pre r q.
Proof.
  induction p as [|i p IH]; intros q r; cbn [lcp].
  - split; [intros (s & E); destruct r; [split; eexists; reflexivity|discriminate]|tauto].
  - destruct q as [|j q]; [split; [intros (s & E); destruct r; [split; eexists; reflexivity|discriminate]|tauto]|].
    destruct (Nat.eqb_spec i j) as [->|NE].
    + destruct r as [|k r]; [split; intros; [split|]; eexists; reflexivity|]. specialize (IH q r). split.
      * intros (s & E). injection E as <- E. destruct IH as (IH & _). destruct IH as ((a & A) & (b & B)); [exists s; exact E|]. split; [exists a|exists b]; cbn; congruence.
      * intros ((a & A) & (b & B)). injection A as <- A. injection B as B. destruct IH as (_ & IH). destruct IH as (s & S1); [split; [exists a|exists b]; assumption|]. exists s. cbn. congruence.
    + split.
      * intros (s & E). destruct r; [split; eexists; reflexivity|discriminate].
      * intros ((a & A) & (b & B)). destruct r as [|k r]; [exists []; reflexivity|]. injection A as <- _. injection B as <- _. congruence.
Qed.

Lemma pos_eqb_eq p q : pos_eqb p q = true <-> p = q.
Proof. unfold pos_eqb. destruct (list_eq_dec Nat.eq_dec p q); split; congruence. Qed.

Lemma in_common_cons i : forall l m, in_common (map (cons i) l) (map (cons i) m) = in_common l m.
Proof.
  induction l as [|p l IH]; intros [|q m]; cbn [map in_common]; try reflexivity. rewrite IH.
  assert (X : pos_eqb (i :: p) (i :: q) = pos_eqb p q); [|rewrite X; reflexivity].
  destruct (pos_eqb p q) eqn:E; [apply pos_eqb_eq in E as ->; apply pos_eqb_eq; reflexivity|].
  destruct (pos_eqb (i :: p) (i :: q)) eqn:F; [|reflexivity]. apply pos_eqb_eq in F. injection F as ->. rewrite <- E. symmetry. apply pos_eqb_eq. reflexivity.
Qed.

Lemma chain_common : forall p q,
  in_common (chain p) (chain q) = Datatypes.S (List.length (lcp p q)) /\
  nth_error (chain p) (List.length (lcp p q)) = Some (lcp p q) /\
  firstn (Datatypes.S (List.length (lcp p q))) (chain p) = chain (lcp p q).
Proof.
  assert (Z : forall p l, in_common (map (cons p) l) [] = 0%nat) by (intros p [|? ?]; reflexivity).
  induction p as [|i p IH]; intros q.
  - cbn [chain lcp List.length]. destruct q as [|j q]; (split; [|split; reflexivity]); cbn [chain in_common]; unfold pos_eqb; cbn; reflexivity.
  - destruct q as [|j q].
    + cbn [chain lcp List.length]. split; [|split; reflexivity]. cbn [in_common]. rewrite Z. reflexivity.
    + cbn [lcp]. destruct (Nat.eqb_spec i j) as [->|NE].
      * destruct (IH q) as (A & B & C). cbn [chain List.length]. split; [|split].
        -- cbn [in_common]. rewrite in_common_cons, A. reflexivity.
        -- cbn [nth_error]. rewrite nth_error_map, B. reflexivity.
        -- rewrite firstn_cons, firstn_map, C. reflexivity.
      * cbn [chain List.length]. split; [|split; reflexivity]. cbn [in_common].
        change (pos_eqb [] []) with true. cbv iota. f_equal. destruct p as [|k p]; destruct q as [|k' q]; cbn [chain map in_common];
          (replace (pos_eqb [i] [j]) with false by (unfold pos_eqb; destruct (list_eq_dec Nat.eq_dec [i] [j]); [congruence|reflexivity])); reflexivity.
Qed.

Lemma common_fold t : linked_below t -> forall r anc,
  Forall (fun p => p <> [] /\ exists n, get t p = Some n) r -> r <> [] ->
  forall any, common t any (chain anc) r = inr (fold_left (fun a p => lcp (removelast p) a) r anc).
Proof.
  intros L. induction r as [|p r IH]; intros anc F NE any; [congruence|]. inversion F as [|? ? (P1 & n & P2) F']; subst. cbn [common fold_left].
  rewrite (app_removelast_last 0%nat P1) in P2. assert (E := lineage_chain _ _ _ _ L P2). rewrite <- (app_removelast_last 0%nat P1) in E. rewrite E.
  destruct (chain_common (removelast p) anc) as (A & B & C). rewrite A, B, C. destruct r as [|p' r]; [reflexivity|]. apply IH; [exact F'|discriminate].
Qed.

Lemma fold_pre : forall r anc q, pre q (fold_left (fun a p => lcp (removelast p) a) r anc) <-> pre q anc /\ Forall (fun p => pre q (removelast p)) r.
Proof.
  induction r as [|p r IH]; intros anc q; cbn [fold_left].
  - split; [intros H; split; [exact H|constructor]|tauto].
  - rewrite IH, lcp_pre. split; [intros ((A & B) & C); split; [exact B|constructor; assumption]|].
    intros (A & B). inversion B; subst. tauto.
Qed.

Lemma above_pre q p : p <> [] -> above q p <-> pre q (removelast p).
Proof.
  intros NE. split.
  - intros (r & R & ->). rewrite removelast_app by exact R. eexists; reflexivity.
  - intros (r & E). exists (r ++ [last p 0%nat]). split; [destruct r; discriminate|]. rewrite app_assoc, <- E. apply app_removelast_last. exact NE.
Qed.

Lemma fold_closest p r : Forall (fun p => p <> []) (p :: r) -> closest (fold_left (fun a p => lcp (removelast p) a) r (removelast p)) (p :: r).
Proof.
  intros F. set (anc := fold_left _ _ _).
  assert (K : forall q, pre q anc <-> forall s, In s (p :: r) -> above q s).
  { intros q. unfold anc. rewrite fold_pre. rewrite Forall_forall in F. split.
    - intros (A & B) s S. apply above_pre; [apply F, S|]. rewrite Forall_forall in B. destruct S as [<-|S]; [exact A|apply B, S].
    - intros H. split; [apply above_pre; [apply F; left; reflexivity|apply H; left; reflexivity]|].
      apply Forall_forall. intros s S. apply above_pre; [apply F; right; exact S|apply H; right; exact S]. }
  split; [apply K; exists []; symmetry; apply app_nil_r|]. intros q H NE. apply K in H. destruct H as (u & H). exists u. split; [|exact H].
  intros ->. rewrite app_nil_r in H. congruence.
Qed.

(** ** Names *)
Lemma join_app a b : a <> [] -> b <> [] -> join (a ++ b) = (join a ++ "." ++ join b)%string.
Proof.
  intros NA NB. induction a as [|s a IH]; [congruence|]. destruct a as [|s' a].
  - cbn [app join]. destruct b; [congruence|]. reflexivity.
  - change ((s :: s' :: a) ++ b) with (s :: ((s' :: a) ++ b)). cbn [join]. destruct ((s' :: a) ++ b) eqn:E; [discriminate|]. rewrite IH by discriminate.
    rewrite !append_assoc. reflexivity.
Qed.

Lemma join_ids_cons n l : a_id (n_at n) = EmptyString -> join_ids (n :: l) = join_ids l.
Proof. intros E. unfold join_ids. cbn [fold_left]. rewrite E. reflexivity. Qed.

Lemma ids_nonempty p t n : wf t -> get t p = Some n -> Forall (fun s => s <> EmptyString) (ids_along t p).
Proof. intros W G. destruct (ids_along_ok _ _ _ W G) as (F & _). eapply Forall_impl; [|exact F]. intros s (H & _). exact H. Qed.

Lemma path_full t p n : wf t -> linked_below t -> get t p = Some n -> path_at t p = full_name t p.
Proof.
  intros W L G. destruct (nodes_along_some _ _ _ G) as (l & E & _). unfold path_at, get_path. rewrite (ancestors_linked _ _ _ L E). cbn [option_map].
  destruct (nodes_along_head _ _ _ E) as (r & ->). assert (I := ids_along_nodes _ _ _ E). assert (NE := ids_nonempty _ _ _ W G).
  assert (F : Forall (fun m => a_id (n_at m) <> EmptyString) r). { rewrite I in NE. rewrite Forall_map in NE. exact NE. }
  unfold full_name. destruct (String.eqb_spec (a_id (n_at t)) "") as [Z|NZ].
  - rewrite join_ids_cons by exact Z. rewrite join_ids_spec by exact F. rewrite I. reflexivity.
  - rewrite join_ids_spec by (constructor; assumption). rewrite I. reflexivity.
Qed.

Lemma substr_app a b : substr (String.length a) (a ++ b) = Some b.
Proof. induction a as [|c a IH]; cbn; [destruct b; reflexivity|exact IH]. Qed.

Lemma ids_app : forall p q t n, get t p = Some n -> ids_along t (p ++ q) = ids_along t p ++ ids_along n q.
Proof.
  induction p as [|i p IH]; intros q t n G; cbn [get app ids_along] in *; [injection G as ->; reflexivity|].
  destruct (nth_error (n_ch t) i) as [c|]; [|discriminate]. cbn [app]. f_equal. apply IH. exact G.
Qed.

Lemma name_cut t anc p n : wf t -> linked_below t -> get t p = Some n -> above anc p ->
  substr (if pos_eqb anc [] then 0%nat else (String.length (path_at t anc) + 1)%nat) (path_at t p) = Some (name_below t anc p).
Proof.
  intros W L G (r & NR & ->). rewrite (path_full _ _ _ W L G). destruct anc as [|i anc]; [reflexivity|].
  replace (pos_eqb (i :: anc) []) with false by (unfold pos_eqb; destruct (list_eq_dec Nat.eq_dec (i :: anc) []); [discriminate|reflexivity]).
  remember (i :: anc) as q eqn:Q. destruct (get_prefix _ _ _ _ G) as (m & M). rewrite (path_full _ _ _ W L M).
  rewrite get_app, M in G. destruct (ids_along_ok _ _ _ W M) as (_ & LQ). destruct (ids_along_ok _ _ _ (wf_get _ _ _ W M) G) as (_ & LR).
  assert (NB : name_below t q (q ++ r) = join (ids_along m r)).
  { unfold name_below. rewrite Q at 1. rewrite (ids_app _ _ _ _ M), <- LQ, skipn_app, skipn_all, Nat.sub_diag. reflexivity. }
  rewrite NB. unfold full_name. rewrite (ids_app _ _ _ _ M), app_assoc, (join_app _ (ids_along m r)).
  - set (a := join _). replace (String.length a + 1)%nat with (String.length (a ++ ".")) by (rewrite append_length; reflexivity). rewrite <- append_assoc. apply substr_app.
  - intros X. apply app_eq_nil in X. destruct X as (_ & X). rewrite X, Q in LQ. discriminate.
  - intros X. rewrite X in LR. destruct r; [congruence|discriminate].
Qed.

Lemma quoted_in s : quoted s = in_quotes s.
Proof. reflexivity. Qed.

Lemma others_concat t cut f : forall ms, (forall p, In p ms -> substr cut (path_at t p) = Some (f p)) -> forall p, substr cut (path_at t p) = Some (f p) ->
  exists o, others t cut ms = Some o /\ (quoted (f p) ++ o)%string = String.concat ", " (map (fun p => in_quotes (f p)) (p :: ms)).
Proof.
  induction ms as [|q ms IH]; intros H p P.
  - eexists. split; [reflexivity|]. cbn [map String.concat]. rewrite append_nil_r. reflexivity.
  - destruct (IH (fun p I => H p (or_intror I)) q (H q (or_introl eq_refl))) as (o & O1 & O2). cbn [others]. rewrite (H q (or_introl eq_refl)), O1.
    eexists. split; [reflexivity|]. rewrite O2. reflexivity.
Qed.
