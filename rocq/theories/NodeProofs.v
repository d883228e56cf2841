(** Lemmas about the tree of nodes: lookup, iteration and paths. *)
From Coq Require Import NArith List Bool String Ascii Lia PeanoNat Permutation.
From Verif Require Import Word ValMem Client NodeTree.
Import ListNotations.
Local Open Scope nat_scope.

(** Induction over nodes with the hypothesis for every child. *)
Lemma node_ind2 (P : node -> Prop) :
  (forall a m ch, Forall P ch -> P (Node a m ch)) -> forall t, P t.
Proof.
  intros H. fix IH 1. intros [a m ch]. apply H.
  induction ch as [|c r IHr]; constructor; [apply IH|apply IHr].
Qed.

(** ** Strings *)

(** Specification of the splitting of a path at its dots. *)
Fixpoint split (s : string) : list string :=
  match s with
  | EmptyString => [EmptyString]
  | String c r =>
      if Ascii.eqb c "." then EmptyString :: split r
      else match split r with t :: ts => String c t :: ts | [] => [String c EmptyString] end
  end.

(** Contains no dot. *)
Fixpoint dot_free (s : string) : Prop :=
  match s with EmptyString => True | String c r => c <> "."%char /\ dot_free r end.

(** Paths are ids joined by single dots. *)
Fixpoint join (l : list string) : string :=
  match l with
  | [] => EmptyString
  | [s] => s
  | s :: r => (s ++ "." ++ join r)%string
  end.

Fixpoint drop (n : nat) (s : string) : string :=
  match n, s with
  | S k, String _ r => drop k r
  | _, _ => s
  end.

Lemma append_nil_r s : (s ++ "")%string = s.
Proof. induction s; cbn; congruence. Qed.

Lemma append_assoc a b c : ((a ++ b) ++ c = a ++ (b ++ c))%string.
Proof. induction a; cbn; congruence. Qed.

Lemma append_length a b : String.length (a ++ b) = String.length a + String.length b.
Proof. induction a; cbn; congruence. Qed.

Lemma substring_all s : substring 0 (String.length s) s = s.
Proof. induction s; cbn; congruence. Qed.

Lemma substring_prefix a b : substring 0 (String.length a) (a ++ b) = a.
Proof. induction a; cbn; [destruct b; reflexivity|congruence]. Qed.

Lemma substring_drop : forall n m s, substring n m s = substring 0 m (drop n s).
Proof.
  induction n as [|n IH]; intros m s; [reflexivity|]. destruct s; cbn [substring drop]; [|apply IH].
  destruct m; reflexivity.
Qed.

Lemma drop_length : forall n s, String.length (drop n s) = String.length s - n.
Proof. induction n; intros [|c s]; cbn; trivial. Qed.

Lemma drop_drop : forall a b s, drop a (drop b s) = drop (b + a) s.
Proof.
  intros a b. revert a. induction b as [|b IH]; intros a s; [reflexivity|].
  destruct s; cbn [drop plus]; [destruct a; reflexivity|apply IH].
Qed.

Lemma find_dot_drop : forall n s, find_dot s n = option_map (Nat.add n) (find_dot (drop n s) 0).
Proof.
  induction n as [|n IH]; intros s.
  - cbn [drop]. destruct (find_dot s 0); reflexivity.
  - destruct s as [|c r]; [reflexivity|]. cbn [find_dot drop]. rewrite IH.
    destruct (find_dot (drop n r) 0); reflexivity.
Qed.

Lemma split_nonnil s : split s <> [].
Proof. destruct s as [|c r]; cbn; [discriminate|]. destruct (Ascii.eqb c "."); [discriminate|]. destruct (split r); discriminate. Qed.

Lemma split_none : forall s, find_dot s 0 = None -> split s = [s].
Proof.
  induction s as [|c r IH]; intros H; [reflexivity|]. cbn [find_dot split] in *.
  destruct (Ascii.eqb c "."); [discriminate|]. destruct (find_dot r 0); [discriminate|]. rewrite IH; reflexivity.
Qed.

Lemma split_some : forall s k, find_dot s 0 = Some k ->
  split s = substring 0 k s :: split (drop (k + 1) s) /\ k < String.length s.
Proof.
  induction s as [|c r IH]; intros k H; [discriminate|]. cbn [find_dot split] in *.
  destruct (Ascii.eqb c ".").
  - injection H as <-. cbn. split; [reflexivity|lia].
  - destruct (find_dot r 0) as [j|] eqn:F; [|discriminate]. injection H as <-.
    destruct (IH j eq_refl) as (E & L). rewrite E. cbn [substring plus drop String.length]. split; [reflexivity|lia].
Qed.

Lemma split_app a b : split (a ++ "." ++ b) = split a ++ split b.
Proof.
  induction a as [|c r IH]; [reflexivity|]. cbn [append split]. cbn [append] in IH.
  destruct (Ascii.eqb c "."); [cbn; congruence|]. rewrite IH.
  assert (N := split_nonnil r). destruct (split r); [congruence|reflexivity].
Qed.

Lemma split_dot_free s : dot_free s -> split s = [s].
Proof.
  induction s as [|c r IH]; [reflexivity|]. cbn [dot_free split]. intros (A & B).
  destruct (Ascii.eqb_spec c "."); [contradiction|]. rewrite IH by exact B. reflexivity.
Qed.

Lemma split_join : forall l, l <> [] -> Forall dot_free l -> split (join l) = l.
Proof.
  induction l as [|s r IH]; intros N F; [congruence|]. inversion F; subst.
  destruct r as [|u r]; [apply split_dot_free; assumption|].
  change (join (s :: u :: r)) with (s ++ "." ++ join (u :: r))%string.
  rewrite split_app, IH by (discriminate || assumption). rewrite split_dot_free by assumption. reflexivity.
Qed.

Lemma join_inj l l' : l <> [] -> l' <> [] -> Forall dot_free l -> Forall dot_free l' -> join l = join l' -> l = l'.
Proof. intros. rewrite <- (split_join l), <- (split_join l') by assumption. congruence. Qed.

(** ** Lookup as a walk over the ids of the path *)

Fixpoint walk (t : node) (toks : list string) : lookup :=
  match toks with
  | [] => Found []
  | s :: r =>
      match assoc s (n_map t) with
      | None => NotFound
      | Some x =>
          match child_ix x (n_ch t) with
          | None => Dangling
          | Some i =>
              match nth_error (n_ch t) i with
              | None => Dangling
              | Some c => match walk c r with Found p => Found (i :: p) | r => r end
              end
          end
      end
  end.

Lemma get_loop_walk : forall f s start t, String.length s - start < f -> get_loop f s start t = walk t (split (drop start s)).
Proof.
  induction f as [|f IH]; intros s start t F; [lia|]. cbn [get_loop]. rewrite find_dot_drop.
  destruct (find_dot (drop start s) 0) as [k|] eqn:D; cbn [option_map token].
  - destruct (split_some _ _ D) as (E & L). rewrite E. cbn [walk].
    rewrite substring_drop. replace (start + k - start) with k by lia.
    destruct (assoc (substring 0 k (drop start s)) (n_map t)); [|reflexivity].
    destruct (child_ix n (n_ch t)) as [i|]; [|reflexivity]. destruct (nth_error (n_ch t) i) as [c|]; [|reflexivity].
    rewrite drop_length in L. rewrite IH by lia. rewrite drop_drop. replace (start + k + 1) with (start + (k + 1)) by lia. reflexivity.
  - rewrite (split_none _ D). cbn [walk]. rewrite substring_drop, <- drop_length, substring_all.
    destruct (assoc (drop start s) (n_map t)); [|reflexivity].
    destruct (child_ix n (n_ch t)) as [i|]; [|reflexivity]. destruct (nth_error (n_ch t) i) as [c|]; reflexivity.
Qed.

Lemma has_loop_get : forall f s start t,
  has_loop f s start t = match get_loop f s start t with Found _ => Some true | NotFound => Some false | Dangling => None end.
Proof.
  induction f as [|f IH]; intros s start t; [reflexivity|]. cbn [get_loop has_loop].
  destruct (assoc (token s start (find_dot s start)) (n_map t)); [|reflexivity].
  destruct (child_ix n (n_ch t)) as [i|]; [|reflexivity]. destruct (nth_error (n_ch t) i) as [c|]; [|reflexivity].
  destruct (find_dot s start); [|reflexivity]. rewrite IH. destruct (get_loop f s (n0 + 1) c); reflexivity.
Qed.

Lemma get_node_walk t s : s <> EmptyString -> get_node t s = walk t (split s).
Proof.
  intros N. unfold get_node. destruct (Nat.eqb_spec (String.length s) 0) as [L|L].
  - destruct s; [congruence|discriminate].
  - rewrite get_loop_walk by lia. reflexivity.
Qed.

Lemma walk_found : forall toks t p, walk t toks = Found p -> exists n, get t p = Some n /\ List.length p = List.length toks.
Proof.
  induction toks as [|s r IH]; intros t p H; cbn [walk] in H.
  - injection H as <-. exists t. auto.
  - destruct (assoc s (n_map t)); [|discriminate]. destruct (child_ix n (n_ch t)) as [i|]; [|discriminate].
    destruct (nth_error (n_ch t) i) as [c|] eqn:E; [|discriminate].
    destruct (walk c r) as [q| |] eqn:W; try discriminate. injection H as <-.
    destruct (IH _ _ W) as (n' & G & L). exists n'. cbn [get List.length]. rewrite E. auto.
Qed.

Lemma walk_app : forall l1 l2 t,
  walk t (l1 ++ l2) = match walk t l1 with
                      | Found p => match get t p with
                                   | Some n => match walk n l2 with Found q => Found (p ++ q) | r => r end
                                   | None => Dangling
                                   end
                      | r => r
                      end.
Proof.
  induction l1 as [|s r IH]; intros l2 t; cbn [walk app].
  - cbn [get]. destruct (walk t l2); reflexivity.
  - destruct (assoc s (n_map t)); [|reflexivity]. destruct (child_ix n (n_ch t)) as [i|]; [|reflexivity].
    destruct (nth_error (n_ch t) i) as [c|] eqn:E; [|reflexivity]. rewrite IH.
    destruct (walk c r) as [p| |] eqn:W; try reflexivity. cbn [get]. rewrite E.
    destruct (get c p) as [n'|]; [|reflexivity]. destruct (walk n' l2); reflexivity.
Qed.

(** ** Iteration *)

(** Specification of the depth-first order: positions, a node before its
    children, the children in order. *)
Fixpoint preorder (t : node) : list (list nat) :=
  match t with
  | Node _ _ ch =>
      [] :: (fix go (i : nat) (l : list node) :=
               match l with
               | [] => []
               | c :: r => map (cons i) (preorder c) ++ go (S i) r
               end) O ch
  end.

Fixpoint preorder_from (i : nat) (l : list node) : list (list nat) :=
  match l with
  | [] => []
  | c :: r => map (cons i) (preorder c) ++ preorder_from (S i) r
  end.

Lemma preorder_eq a m ch : preorder (Node a m ch) = [] :: preorder_from 0 ch.
Proof.
  reflexivity.
Qed.

Lemma preorder_length : forall t, List.length (preorder t) = size t.
Proof.
  apply node_ind2. intros a m ch F. rewrite preorder_eq. cbn [List.length size]. f_equal.
  generalize 0. induction F as [|c r H F IH]; intros i; [reflexivity|].
  cbn [preorder_from map list_sum fold_right]. rewrite app_length, map_length, H, IH. reflexivity.
Qed.

Lemma get_app : forall p q t, get t (p ++ q) = match get t p with Some n => get n q | None => None end.
Proof.
  induction p as [|i p IH]; intros q t; [reflexivity|]. cbn [get app].
  destruct (nth_error (n_ch t) i); [apply IH|reflexivity].
Qed.

Lemma preorder_from_in : forall l k i p,
  (forall c, In c l -> forall p, In p (preorder c) <-> exists n, get c p = Some n) ->
  (In (i :: p) (preorder_from k l) <-> exists c n, k <= i /\ nth_error l (i - k) = Some c /\ get c p = Some n).
Proof.
  induction l as [|c r IH]; intros k i p H; cbn [preorder_from].
  - split; [intros []|]. intros (c & n & _ & E & _). destruct (i - k); discriminate.
  - rewrite in_app_iff, (IH (S k)) by (intros c' Hc; apply H; right; exact Hc). split.
    + intros [X|(c' & n & L & E & G)].
      * apply in_map_iff in X. destruct X as (q & Q1 & Q2). injection Q1 as -> ->.
        apply (H c) in Q2; [|left; reflexivity]. destruct Q2 as (n & G). exists c, n.
        replace (i - i) with 0 by lia. auto.
      * exists c', n. split; [lia|]. replace (i - k) with (S (i - S k)) by lia. auto.
    + intros (c' & n & L & E & G). destruct (Nat.eq_dec i k) as [->|N].
      * left. apply in_map_iff. exists p. split; [reflexivity|]. apply (H c); [left; reflexivity|].
        replace (k - k) with 0 in E by lia. injection E as ->. eauto.
      * right. exists c', n. split; [lia|]. replace (i - k) with (S (i - S k)) in E by lia. auto.
Qed.

Lemma preorder_from_nil k l : ~ In [] (preorder_from k l).
Proof.
  revert k. induction l as [|c r IH]; intros k; cbn [preorder_from]; [intros []|].
  rewrite in_app_iff. intros [X|X]; [|exact (IH _ X)]. apply in_map_iff in X. destruct X as (q & Q & _). discriminate.
Qed.

Lemma preorder_in : forall t p, In p (preorder t) <-> exists n, get t p = Some n.
Proof.
  intros t. induction t as [a m ch F] using node_ind2. intros p. rewrite preorder_eq.
  rewrite Forall_forall in F. destruct p as [|i p].
  - split; [intros _; exists (Node a m ch); reflexivity|intros _; left; reflexivity].
  - cbn [In]. split.
    + intros [X|X]; [discriminate|]. apply preorder_from_in in X; [|exact F].
      destruct X as (c & n & _ & E & G). exists n. cbn [get n_ch]. rewrite Nat.sub_0_r in E. rewrite E. exact G.
    + intros (n & G). right. apply preorder_from_in; [exact F|]. cbn [get n_ch] in G.
      destruct (nth_error ch i) as [c|] eqn:E; [|discriminate]. exists c, n.
      rewrite Nat.sub_0_r. split; [lia|]. auto.
Qed.

Lemma preorder_nodup : forall t, NoDup (preorder t).
Proof.
  apply node_ind2. intros a m ch F. rewrite preorder_eq. constructor; [apply preorder_from_nil|].
  generalize 0. induction F as [|c r H F IH]; intros k; cbn [preorder_from]; [constructor|].
  assert (G : forall j l, Forall (fun p => match p with i :: _ => j <= i | [] => False end) (preorder_from j l)).
  { clear. intros j l. revert j. induction l as [|c r IH]; intros j; cbn [preorder_from]; [constructor|].
    apply Forall_app. split.
    - apply Forall_forall. intros p X. apply in_map_iff in X. destruct X as (q & <- & _). lia.
    - eapply Forall_impl; [|apply IH]. intros [|i p]; cbn; [trivial|lia]. }
  specialize (G (S k) r). rewrite Forall_forall in G.
  assert (M : NoDup (map (cons k) (preorder c))).
  { apply FinFun.Injective_map_NoDup; [|exact H]. intros x y E. congruence. }
  clear H. revert M. generalize (preorder c). intros l. induction l as [|x l IHl]; intros M; cbn [map app]; [apply IH|].
  inversion M; subst. constructor; [|apply IHl; assumption]. rewrite in_app_iff. intros [X|X]; [contradiction|].
  apply G in X. lia.
Qed.

(** The iterator, started on a node anywhere in the tree. *)
Lemma iterate_from : forall n t p f, get t p = Some n ->
  iterate (size n + f) t (Some (rev p)) = map (app p) (preorder n) ++ iterate f t (climb t (rev p)).
Proof.
  intros n. induction n as [a m ch F] using node_ind2. intros t p f G.
  rewrite preorder_eq. cbn [size plus map]. cbn [iterate]. rewrite rev_involutive. cbn [app].
  f_equal; [symmetry; apply app_nil_r|]. cbn [next]. rewrite rev_involutive, G. cbn [n_ch].
  assert (K : forall l i f, Forall (fun n0 => forall t p f, get t p = Some n0 ->
               iterate (size n0 + f) t (Some (rev p)) = map (app p) (preorder n0) ++ iterate f t (climb t (rev p))) l ->
             l <> [] -> i + List.length l = List.length ch -> (forall j c, nth_error l j = Some c -> nth_error ch (i + j) = Some c) ->
             iterate (list_sum (map size l) + f) t (Some (i :: rev p)) =
             map (app p) (preorder_from i l) ++ iterate f t (climb t (rev p))).
  { clear F f. induction l as [|c r IH]; intros i f F N L S; [congruence|]. inversion F; subst.
    cbn [map list_sum fold_right preorder_from]. rewrite map_app, <- app_assoc.
    assert (GC : get t (p ++ [i]) = Some c).
    { rewrite get_app, G. cbn [get n_ch]. specialize (S 0 c eq_refl). rewrite Nat.add_0_r in S. rewrite S. reflexivity. }
    replace (i :: rev p) with (rev (p ++ [i])) by (rewrite rev_app_distr; reflexivity).
    rewrite <- Nat.add_assoc, (H1 t _ _ GC). f_equal.
    - rewrite map_map. apply map_ext. intros q. rewrite <- app_assoc. reflexivity.
    - rewrite rev_app_distr. cbn [rev app climb]. rewrite rev_involutive, G. cbn [n_ch].
      cbn [List.length] in L. destruct r as [|c' r].
      + replace (Nat.ltb (Datatypes.S i) (List.length ch)) with false by (symmetry; apply Nat.ltb_ge; cbn in L; lia).
        reflexivity.
      + replace (Nat.ltb (Datatypes.S i) (List.length ch)) with true by (symmetry; apply Nat.ltb_lt; cbn in L; lia).
        fold (list_sum (map size (c' :: r))). rewrite IH; trivial; [discriminate|lia|].
        intros j c0 E. specialize (S (Datatypes.S j) c0 E). rewrite <- Nat.add_succ_comm in S. exact S. }
  destruct ch as [|c r].
  - reflexivity.
  - change (0 <? List.length (c :: r)) with true. cbv iota. apply K; trivial; discriminate.
Qed.

Lemma iterate_none f t : iterate f t None = [].
Proof. destruct f; reflexivity. Qed.

Lemma iterate_firstn : forall f g t it, iterate f t it = firstn f (iterate (f + g) t it).
Proof.
  induction f as [|f IH]; intros g t it; [reflexivity|]. cbn [iterate plus]. destruct it as [st|]; [|reflexivity].
  cbn [firstn]. f_equal. apply IH.
Qed.

Lemma iterate_all f t : iterate f t (Some []) = firstn f (preorder t).
Proof.
  rewrite (iterate_firstn f (size t)). f_equal. rewrite Nat.add_comm.
  assert (E := iterate_from t t [] f eq_refl). cbn [rev climb] in E. rewrite E, iterate_none, app_nil_r.
  rewrite <- (map_id (preorder t)) at 2. apply map_ext. reflexivity.
Qed.

(** ** Paths *)

Lemma nodes_along_some : forall p t n, get t p = Some n -> exists l, nodes_along t p = Some l /\ List.length l = S (List.length p).
Proof.
  induction p as [|i p IH]; intros t n G; cbn [nodes_along get] in *.
  - eexists; split; reflexivity.
  - destruct (nth_error (n_ch t) i) as [c|]; [|discriminate]. destruct (IH _ _ G) as (l & E & L).
    rewrite E. eexists. split; [reflexivity|]. cbn. congruence.
Qed.

(** All nodes below [t] are linked to their parents. *)
Inductive linked_below : node -> Prop :=
| lb a m ch : Forall (fun c => a_linked (n_at c) = true) ch -> Forall linked_below ch -> linked_below (Node a m ch).

Lemma linked_below_inv t : linked_below t ->
  Forall (fun c => a_linked (n_at c) = true) (n_ch t) /\ Forall linked_below (n_ch t).
Proof. intros H. destruct H; auto. Qed.

Lemma nodes_along_linked : forall p t l, linked_below t -> nodes_along t p = Some l ->
  exists r, l = t :: r /\ Forall (fun c => a_linked (n_at c) = true) r.
Proof.
  induction p as [|i p IH]; intros t l K E; cbn [nodes_along] in E.
  - injection E as <-. exists []. auto.
  - destruct (nth_error (n_ch t) i) as [c|] eqn:N; [|discriminate].
    destruct (nodes_along c p) as [l'|] eqn:E'; [|discriminate]. injection E as <-.
    apply nth_error_In in N. destruct (linked_below_inv _ K) as (K1 & K2). rewrite Forall_forall in K1, K2.
    destruct (IH c l' (K2 _ N) E') as (r & -> & R). exists (c :: r). split; [reflexivity|]. constructor; [apply K1; exact N|exact R].
Qed.

Lemma linked_up_all : forall l x, Forall (fun c => a_linked (n_at c) = true) l -> linked_up (l ++ [x]) = l ++ [x].
Proof.
  induction l as [|y l IH]; intros x F.
  - cbn. destruct (a_linked (n_at x)); reflexivity.
  - inversion F; subst. cbn [linked_up app]. rewrite H1, IH by assumption. reflexivity.
Qed.

Lemma ancestors_linked t p l : linked_below t -> nodes_along t p = Some l -> ancestors t p = Some l.
Proof.
  intros K E. unfold ancestors. rewrite E. cbn [option_map]. f_equal.
  destruct (nodes_along_linked _ _ _ K E) as (r & -> & R). cbn [rev].
  rewrite linked_up_all by (apply Forall_rev; exact R). rewrite rev_app_distr, rev_involutive. reflexivity.
Qed.

Lemma nodes_along_app : forall p q t n l, get t p = Some n -> nodes_along n q = Some l ->
  exists l0, nodes_along t (p ++ q) = Some (l0 ++ l) /\ List.length l0 = List.length p.
Proof.
  induction p as [|i p IH]; intros q t n l G E; cbn [nodes_along get app] in *.
  - injection G as <-. exists []. auto.
  - destruct (nth_error (n_ch t) i) as [c|]; [|discriminate]. destruct (IH _ _ _ _ G E) as (l0 & E0 & L0).
    rewrite E0. exists (t :: l0). cbn. auto.
Qed.

(** Ids of the nodes below the top one on the way to a position. *)
Fixpoint ids_along (t : node) (p : list nat) : list string :=
  match p with
  | [] => []
  | i :: q => match nth_error (n_ch t) i with Some c => a_id (n_at c) :: ids_along c q | None => [] end
  end.

Lemma ids_along_nodes : forall p t r, nodes_along t p = Some (t :: r) -> ids_along t p = map (fun n => a_id (n_at n)) r.
Proof.
  induction p as [|i p IH]; intros t r E; cbn [nodes_along ids_along] in *.
  - injection E as <-. reflexivity.
  - destruct (nth_error (n_ch t) i) as [c|]; [|discriminate].
    destruct (nodes_along c p) as [l'|] eqn:E'; [|discriminate]. cbn in E. injection E as <-.
    assert (X : exists r', l' = c :: r').
    { destruct p as [|j p]; cbn [nodes_along] in E'; [injection E' as <-; eexists; reflexivity|].
      destruct (nth_error (n_ch c) j) as [c'|]; [|discriminate]. destruct (nodes_along c' p); [|discriminate].
      injection E' as <-. eexists; reflexivity. }
    destruct X as (r' & ->). cbn [map]. f_equal. apply IH. exact E'.
Qed.

Lemma nodes_along_head t p l : nodes_along t p = Some l -> exists r, l = t :: r.
Proof.
  destruct p as [|j p]; cbn [nodes_along]; intros E; [injection E as <-; eexists; reflexivity|].
  destruct (nth_error (n_ch t) j) as [c'|]; [|discriminate]. destruct (nodes_along c' p); [|discriminate].
  injection E as <-. eexists; reflexivity.
Qed.

Lemma join_ids_spec : forall l, Forall (fun n => a_id (n_at n) <> EmptyString) l ->
  join_ids l = join (map (fun n => a_id (n_at n)) l).
Proof.
  intros l F. unfold join_ids.
  assert (K : forall l s, Forall (fun n => a_id (n_at n) <> EmptyString) l ->
    fold_left (fun s n => if Nat.eqb (String.length (a_id (n_at n))) 0 then s else (s ++ a_id (n_at n) ++ ".")%string) l s =
    (s ++ match l with [] => "" | _ => join (map (fun n => a_id (n_at n)) l) ++ "." end)%string).
  { clear. induction l as [|n r IH]; intros s F; cbn [fold_left].
    - rewrite append_nil_r. reflexivity.
    - inversion F; subst. destruct (a_id (n_at n)) as [|c i] eqn:E; [congruence|]. cbn [String.length Nat.eqb].
      rewrite IH by assumption. destruct r as [|n' r].
      + cbn [map join]. rewrite E, append_nil_r. reflexivity.
      + cbn [map join]. rewrite E. rewrite !append_assoc. reflexivity. }
  rewrite K by exact F. cbn [append]. destruct l as [|n r]; [reflexivity|].
  set (j := join _). rewrite append_length. cbn [String.length].
  replace (Nat.eqb (String.length j + 1) 0) with false by (symmetry; apply Nat.eqb_neq; lia).
  replace (String.length j + 1 - 1) with (String.length j) by lia. apply substring_prefix.
Qed.

(** ** Well-formed trees *)

(** Ids are non-empty and without dots. *)
Definition id_ok (s : string) : Prop := s <> EmptyString /\ dot_free s.

(** mChildrenMap and the object addresses are consistent with mChildren: what a
    map entry points to is a child with that id, and every child's id has an
    entry. *)
Record map_ok (t : node) : Prop := {
  mo_ptr : NoDup (map (fun c => a_ptr (n_at c)) (n_ch t));
  mo_sound : forall k x, assoc k (n_map t) = Some x -> exists c, In c (n_ch t) /\ a_ptr (n_at c) = x /\ a_id (n_at c) = k;
  mo_complete : forall c, In c (n_ch t) -> assoc (a_id (n_at c)) (n_map t) <> None
}.

Inductive wf : node -> Prop :=
| wf_node a m ch : map_ok (Node a m ch) -> Forall (fun c => id_ok (a_id (n_at c))) ch -> Forall wf ch -> wf (Node a m ch).

(** Siblings have different ids. *)
Inductive distinct_ids : node -> Prop :=
| di a m ch : NoDup (map (fun c => a_id (n_at c)) ch) -> Forall distinct_ids ch -> distinct_ids (Node a m ch).

Lemma child_ix_in : forall ch c, NoDup (map (fun c => a_ptr (n_at c)) ch) ->
  forall i, nth_error ch i = Some c -> child_ix (a_ptr (n_at c)) ch = Some i.
Proof.
  induction ch as [|d r IH]; intros c N i E; [destruct i; discriminate|]. cbn [map] in N. inversion N; subst.
  cbn [child_ix]. destruct i as [|i].
  - injection E as ->. rewrite Nat.eqb_refl. reflexivity.
  - cbn [nth_error] in E. destruct (Nat.eqb_spec (a_ptr (n_at d)) (a_ptr (n_at c))) as [Q|Q].
    + exfalso. apply H1. rewrite Q. apply in_map_iff. exists c. split; [reflexivity|]. eapply nth_error_In; eauto.
    + rewrite (IH c H2 i E). reflexivity.
Qed.

Lemma child_ix_some : forall ch x i, child_ix x ch = Some i -> exists c, nth_error ch i = Some c /\ a_ptr (n_at c) = x.
Proof.
  induction ch as [|d r IH]; intros x i E; [discriminate|]. cbn [child_ix] in E.
  destruct (Nat.eqb_spec (a_ptr (n_at d)) x) as [Q|Q].
  - injection E as <-. exists d. auto.
  - destruct (child_ix x r) as [j|] eqn:F; [|discriminate]. injection E as <-. apply (IH x j F).
Qed.

Lemma NoDup_map_eq {A B} (f : A -> B) l x y : NoDup (map f l) -> In x l -> In y l -> f x = f y -> x = y.
Proof.
  induction l as [|z l IH]; cbn; intros N X Y E; [contradiction|]. inversion N; subst.
  destruct X as [->|X]; destruct Y as [->|Y]; trivial.
  - exfalso. apply H1. rewrite E. apply in_map. exact Y.
  - exfalso. apply H1. rewrite <- E. apply in_map. exact X.
  - apply IH; assumption.
Qed.

(** Lookup of a child's id finds the child. *)
Lemma child_lookup t i c : map_ok t -> NoDup (map (fun c => a_id (n_at c)) (n_ch t)) -> nth_error (n_ch t) i = Some c ->
  exists x, assoc (a_id (n_at c)) (n_map t) = Some x /\ child_ix x (n_ch t) = Some i.
Proof.
  intros [P S C] D E. assert (I := nth_error_In _ _ E).
  destruct (assoc (a_id (n_at c)) (n_map t)) as [x|] eqn:A; [|exfalso; exact (C _ I A)].
  exists x. split; [reflexivity|]. destruct (S _ _ A) as (c' & I' & <- & Q).
  assert (c' = c) by (eapply NoDup_map_eq with (f := fun c => a_id (n_at c)); eauto). subst c'.
  apply child_ix_in; assumption.
Qed.

Lemma walk_ids : forall p t n, wf t -> distinct_ids t -> get t p = Some n -> walk t (ids_along t p) = Found p.
Proof.
  induction p as [|i p IH]; intros t n W D G; [reflexivity|]. cbn [get ids_along] in *.
  destruct (nth_error (n_ch t) i) as [c|] eqn:E; [|discriminate]. cbn [walk].
  inversion W as [a m ch M IO WC]; subst. inversion D as [a' m' ch' ND DC]; subst. cbn [n_ch n_map] in *.
  destruct (child_lookup (Node a m ch) i c M ND E) as (x & A & X). cbn [n_ch n_map] in A, X. rewrite A, X, E.
  rewrite Forall_forall in WC, DC. assert (I := nth_error_In _ _ E).
  rewrite (IH c n (WC _ I) (DC _ I) G). reflexivity.
Qed.

Lemma ids_along_ok : forall p t n, wf t -> get t p = Some n -> Forall id_ok (ids_along t p) /\ List.length (ids_along t p) = List.length p.
Proof.
  induction p as [|i p IH]; intros t n W G; cbn [get ids_along] in *; [auto|].
  destruct (nth_error (n_ch t) i) as [c|] eqn:E; [|discriminate].
  inversion W as [a m ch M IO WC]; subst. cbn [n_ch n_map] in *. rewrite Forall_forall in WC, IO. assert (I := nth_error_In _ _ E).
  destruct (IH c n (WC _ I) G) as (X & Y). split; [constructor; auto|cbn; congruence].
Qed.

Lemma id_ok_free l : Forall id_ok l -> Forall dot_free l.
Proof. intros F. eapply Forall_impl; [|exact F]. intros s (A & B). exact B. Qed.

Lemma linked_below_get : forall p t n, linked_below t -> get t p = Some n -> linked_below n.
Proof.
  induction p as [|i p IH]; intros t n K G; cbn [get] in G; [injection G as <-; exact K|].
  destruct (nth_error (n_ch t) i) as [c|] eqn:E; [|discriminate]. apply nth_error_In in E.
  destruct (linked_below_inv _ K) as (_ & K2). rewrite Forall_forall in K2. exact (IH c n (K2 _ E) G).
Qed.

Lemma wf_get : forall p t n, wf t -> get t p = Some n -> wf n.
Proof.
  induction p as [|i p IH]; intros t n K G; cbn [get] in G; [injection G as <-; exact K|].
  destruct (nth_error (n_ch t) i) as [c|] eqn:E; [|discriminate]. apply nth_error_In in E.
  inversion K as [a m ch M IO WC]; subst. rewrite Forall_forall in WC. exact (IH c n (WC _ E) G).
Qed.

Lemma distinct_get : forall p t n, distinct_ids t -> get t p = Some n -> distinct_ids n.
Proof.
  induction p as [|i p IH]; intros t n K G; cbn [get] in G; [injection G as <-; exact K|].
  destruct (nth_error (n_ch t) i) as [c|] eqn:E; [|discriminate]. apply nth_error_In in E.
  inversion K as [a m ch M WC]; subst. rewrite Forall_forall in WC. exact (IH c n (WC _ E) G).
Qed.

(** The relative path is the ids of the nodes in between, joined. *)
Lemma relative_path_spec t p q n m : linked_below t -> wf t -> get t p = Some n -> get n q = Some m ->
  relative_path t p q = Some (join (ids_along n q)).
Proof.
  intros K W G Q. destruct (nodes_along_some _ _ _ Q) as (l & E & L).
  destruct (nodes_along_app _ _ _ _ _ G E) as (l0 & E0 & L0).
  unfold relative_path. rewrite (ancestors_linked _ _ _ K E0).
  rewrite app_length, L, L0. replace (Nat.ltb (List.length q) (List.length p + S (List.length q))) with true
    by (symmetry; apply Nat.ltb_lt; lia).
  replace (List.length p + S (List.length q) - List.length q) with (List.length l0 + 1) by lia.
  rewrite skipn_app, skipn_all2 by lia. replace (List.length l0 + 1 - List.length l0) with 1 by lia. cbn [app].
  destruct (nodes_along_head _ _ _ E) as (r & ->). cbn [skipn]. f_equal.
  rewrite (ids_along_nodes _ _ _ E). apply join_ids_spec.
  assert (X := ids_along_ok q n m (wf_get _ _ _ W G) Q). rewrite (ids_along_nodes _ _ _ E) in X.
  destruct X as (X & _). rewrite Forall_map in X. eapply Forall_impl; [|exact X]. intros c (A & _). exact A.
Qed.
