(** C78, C79: which client the nodes of an HwInterface use, and which tree the
    client describes addresses with. *)
From Coq Require Import NArith ZArith List Bool String Ascii Lia PeanoNat.
From Verif Require Import Word ValMem Client NodeTree NodeProofs NetProofs2 Prop_Node Hw.
Import ListNotations.
Open Scope nat_scope.

(** ** Specification: the history of the HwInterface variables *)

(** A variable now: the client its getClient() returns, the variable whose
    constructor made the tree it holds. *)
Record life := mkLife { l_client : nat; l_home : nat }.

(** The number of variables constructed so far; the address table each was
    constructed with; those that live; the variable last constructed on each client. *)
Record hist := mkHist {
  k_n : nat;
  k_made : nat -> option node;
  k_now : nat -> option life;
  k_last : nat -> option nat
}.

Definition set_at {A} (f : nat -> A) (i : nat) (a : A) : nat -> A := fun j => if Nat.eqb j i then a else f j.

Definition born (k : hist) (c : nat) (t : option node) : hist :=
  mkHist (S (k_n k)) (set_at (k_made k) (k_n k) t) (set_at (k_now k) (k_n k) (Some (mkLife c (k_n k))))
         (set_at (k_last k) c (Some (k_n k))).

Definition after (k : hist) (c : hcmd) : hist :=
  match c with
  | HClient => k
  | HMake c t => born k c (Some t)
  | HCopyOf h => match k_now k h with Some x => born k (l_client x) (k_made k (l_home x)) | None => k end
  | HAssignTo h g => mkHist (k_n k) (k_made k) (set_at (k_now k) h (k_now k g)) (k_last k)
  | HDestroy h => mkHist (k_n k) (k_made k) (set_at (k_now k) h None) (k_last k)
  end.

Definition start : hist := mkHist 0 (fun _ => None) (fun _ => None) (fun _ => None).
Definition history (cs : list hcmd) : hist := fold_left after cs start.

(** The trees given to constructors are those of NodeTreeBuilder. *)
Definition sound_tree (c : hcmd) : Prop := match c with HMake _ t => wf t /\ distinct_ids t | _ => True end.

Definition no_assign (c : hcmd) : Prop := match c with HAssignTo _ _ => False | _ => True end.

(** ** Proof *)

Definition shape (t : node) (o : owners) : Prop := forall p n, get t p = Some n -> owner_at o p <> None.

Lemma shape_child a m ch h oc : List.length oc = List.length ch ->
  (forall i c o, nth_error ch i = Some c -> nth_error oc i = Some o -> shape c o) -> shape (Node a m ch) (Own h oc).
Proof.
  intros L C p n G. destruct p as [|i p]; cbn [owner_at]; [discriminate|]. cbn [get n_ch] in G.
  destruct (nth_error ch i) as [c|] eqn:E; [|discriminate].
  destruct (nth_error oc i) as [o|] eqn:F.
  - exact (C i c o E F p n G).
  - apply nth_error_None in F. assert (i < List.length ch) by (apply nth_error_Some; congruence). lia.
Qed.

Lemma shape_unowned : forall t, shape t (unowned t).
Proof.
  apply (node_ind2 (fun t => shape t (unowned t))). intros a m ch F. cbn [unowned]. apply shape_child; [apply map_length|].
  intros i c o E G. rewrite nth_error_map, E in G. injection G as <-. rewrite Forall_forall in F. apply F. eapply nth_error_In; eauto.
Qed.

Lemma claim_at : forall p h o, owner_at (claim h o) p = option_map (fun _ => Some h) (owner_at o p).
Proof.
  induction p as [|i p IH]; intros h [x ch]; cbn [claim owner_at]; [reflexivity|].
  rewrite nth_error_map. destruct (nth_error ch i) as [c|]; cbn [option_map]; [apply IH|reflexivity].
Qed.

Lemma shape_claim t h o : shape t o -> forall p n, get t p = Some n -> owner_at (claim h o) p = Some (Some h).
Proof.
  intros S p n G. rewrite claim_at. assert (X := S p n G). destruct (owner_at o p); [reflexivity|congruence].
Qed.

(** Tree number [i] answers as the table [t] and belongs to variable [i]. *)
Definition tree_of (s : hws) (i : nat) (t : node) : Prop :=
  exists t' o, nth_error (m_tree s) i = Some (t', o) /\ wf t' /\ distinct_ids t' /\
    (forall x, get_node t' x = get_node t x) /\
    (forall p, get t' p = None <-> get t p = None) /\
    (forall p n, get t' p = Some n -> owner_at o p = Some (Some i)).

Record agrees (k : hist) (s : hws) : Prop := {
  ag_hw : List.length (m_hw s) = k_n k;
  ag_tree : List.length (m_tree s) = k_n k;
  ag_now : forall h, object s h = option_map (fun x => mkHwif (l_client x) (l_home x)) (k_now k h);
  ag_home : forall h x, k_now k h = Some x -> l_home x < k_n k /\ l_client x < List.length (m_weak s);
  ag_made : forall i, i < k_n k -> exists t, k_made k i = Some t /\ wf t /\ distinct_ids t /\ tree_of s i t;
  ag_weak : forall c, c < List.length (m_weak s) -> nth_error (m_weak s) c = Some (k_last k c);
  ag_weak' : forall c, List.length (m_weak s) <= c -> k_last k c = None;
  ag_last : forall c j, k_last k c = Some j -> j < k_n k
}.

Lemma upd_len {A} (l : list A) i f : List.length (upd l i f) = List.length l.
Proof. revert i. induction l as [|x l IH]; intros [|i]; cbn; auto. Qed.

Lemma object_app s w tr wk h :
  object (mkHws (m_hw s ++ [Some w]) tr wk) h = if Nat.eqb h (List.length (m_hw s)) then Some w else object s h.
Proof.
  unfold object. cbn [m_hw]. destruct (Nat.eqb_spec h (List.length (m_hw s))) as [->|N].
  - rewrite nth_error_app2, Nat.sub_diag by lia. reflexivity.
  - destruct (Nat.lt_ge_cases h (List.length (m_hw s))).
    + rewrite nth_error_app1 by lia. reflexivity.
    + rewrite (proj2 (nth_error_None (m_hw s) h)) by lia.
      rewrite (proj2 (nth_error_None (m_hw s ++ [Some w]) h)); [reflexivity|]. rewrite app_length; cbn; lia.
Qed.

Lemma construct_agrees k s c t t0 o : agrees k s -> c < List.length (m_weak s) ->
  wf t0 -> distinct_ids t0 -> wf t -> distinct_ids t -> (forall x, get_node t x = get_node t0 x) ->
  (forall p, get t p = None <-> get t0 p = None) -> shape t o ->
  agrees (born k c (Some t0)) (construct s c t o).
Proof.
  intros A Lc W0 D0 W D E G S. destruct A as [AH AT AN AO AM AW AW' AL]. unfold construct, born.
  constructor; cbn [k_n k_made k_now k_last m_hw m_tree m_weak].
  - rewrite app_length; cbn; lia.
  - rewrite app_length; cbn; lia.
  - intros h. rewrite object_app, AH, AT. unfold set_at. destruct (Nat.eqb h (k_n k)); [reflexivity|apply AN].
  - intros h x H. rewrite upd_len. unfold set_at in H. destruct (Nat.eqb h (k_n k)); [injection H as <-; cbn; lia|].
    destruct (AO h x H). lia.
  - intros i Li. unfold set_at. destruct (Nat.eqb_spec i (k_n k)) as [->|N].
    + exists t0. repeat (split; [assumption || reflexivity|]). unfold tree_of. cbn [m_tree].
      exists t, (claim (List.length (m_hw s)) o). rewrite nth_error_app2, AT, Nat.sub_diag by lia. rewrite AH.
      repeat (split; [assumption || reflexivity|]). apply shape_claim. exact S.
    + assert (Li' : i < k_n k) by lia. destruct (AM i Li') as (t' & M & W' & D' & (u & o' & U & R)).
      exists t'. repeat (split; [assumption|]). exists u, o'. cbn [m_tree]. rewrite nth_error_app1 by lia. split; assumption.
  - intros d Ld. rewrite upd_len in Ld. rewrite nth_upd. unfold set_at. destruct (Nat.eqb d c).
    + rewrite (AW d Ld). cbn [option_map]. rewrite AT. reflexivity.
    + apply AW. exact Ld.
  - intros d Ld. rewrite upd_len in Ld. unfold set_at. destruct (Nat.eqb_spec d c); [lia|]. apply AW'. exact Ld.
  - intros d j H. unfold set_at in H. destruct (Nat.eqb d c); [injection H as <-; lia|]. assert (X := AL d j H). lia.
Qed.

Lemma set_object s h v g : (exists x, object s h = Some x) ->
  object (mkHws (upd (m_hw s) h (fun _ => v)) (m_tree s) (m_weak s)) g = if Nat.eqb g h then v else object s g.
Proof.
  intros (x & X). unfold object in *. cbn [m_hw]. rewrite nth_upd. destruct (Nat.eqb_spec g h) as [->|N]; [|reflexivity].
  destruct (nth_error (m_hw s) h) as [[y|]|]; try discriminate. cbn [option_map]. destruct v; reflexivity.
Qed.

Lemma step_agrees k s c s' : agrees k s -> sound_tree c -> hcmd_step s c = Some s' -> agrees (after k c) s'.
Proof.
  intros A T H. destruct c as [|c t|h|h g|h]; cbn [hcmd_step after] in *.
  - injection H as <-. destruct A as [AH AT AN AO AM AW AW' AL].
    constructor; cbn [m_hw m_tree m_weak]; try assumption.
    + intros h x Q. destruct (AO h x Q). rewrite app_length. split; [assumption|lia].
    + intros c L. rewrite app_length in L. cbn in L. destruct (Nat.eq_dec c (List.length (m_weak s))) as [->|N].
      * rewrite nth_error_app2, Nat.sub_diag by lia. cbn. rewrite AW' by lia. reflexivity.
      * rewrite nth_error_app1 by lia. apply AW. lia.
    + intros c L. rewrite app_length in L. cbn in L. apply AW'. lia.
  - destruct (Nat.ltb_spec c (List.length (m_weak s))) as [Lc|]; [|discriminate]. injection H as <-. destruct T as (W & D).
    apply construct_agrees; auto; try reflexivity. apply shape_unowned.
  - assert (N := ag_now _ _ A h). destruct (object s h) as [w|]; [|discriminate].
    destruct (k_now k h) as [x|] eqn:K; [|discriminate]. cbn [option_map] in N. injection N as ->. cbn [w_tree w_client] in H.
    destruct (ag_home _ _ A h x K) as (Lh & Lc). destruct (ag_made _ _ A _ Lh) as (t & -> & W & D & (t' & o & E & W' & D' & G & P & O)).
    rewrite E in H. injection H as <-. destruct (C33_clone t' W' D') as (CG & CN & _ & CW & CD & _).
    apply construct_agrees; auto.
    + intros y. rewrite CN. apply G.
    + intros p. assert (Y := CG p). rewrite <- P. destruct (get t' p), (get (clone t') p); try contradiction; split; congruence.
    + intros p n Q. assert (Y := CG p). rewrite Q in Y. destruct (get t' p) as [m|] eqn:R; [|contradiction].
      rewrite (O p m R). discriminate.
  - destruct (object s h) as [v|] eqn:OH; [|discriminate]. destruct (object s g) as [w|] eqn:OG; [|discriminate]. injection H as <-.
    assert (SO := set_object s h (Some w)). destruct A as [AH AT AN AO AM AW AW' AL].
    constructor; cbn [m_hw m_tree m_weak k_n k_made k_now k_last]; try assumption.
    + rewrite upd_len. exact AH.
    + intros j. rewrite SO by eauto. unfold set_at. destruct (Nat.eqb j h); [rewrite <- AN; congruence|apply AN].
    + intros j x Q. unfold set_at in Q. destruct (Nat.eqb j h); eapply AO; exact Q.
  - destruct (object s h) as [v|] eqn:OH; [|discriminate]. injection H as <-.
    assert (SO := set_object s h None). destruct A as [AH AT AN AO AM AW AW' AL].
    constructor; cbn [m_hw m_tree m_weak k_n k_made k_now k_last]; try assumption.
    + rewrite upd_len. exact AH.
    + intros j. rewrite SO by eauto. unfold set_at. destruct (Nat.eqb j h); [reflexivity|apply AN].
    + intros j x Q. unfold set_at in Q. destruct (Nat.eqb j h); [discriminate|eapply AO; exact Q].
Qed.

Lemma run_agrees : forall cs k s s', agrees k s -> Forall sound_tree cs -> hcmds s cs = Some s' -> agrees (fold_left after cs k) s'.
Proof.
  induction cs as [|c r IH]; intros k s s' A F H; cbn [hcmds fold_left] in *; [injection H as <-; exact A|].
  inversion F; subst. destruct (hcmd_step s c) as [u|] eqn:E; [|discriminate].
  eapply IH; [eapply step_agrees; eauto|assumption|exact H].
Qed.

Lemma start_agrees : agrees start no_hw.
Proof.
  constructor; cbn; try lia; try discriminate; trivial. intros h. unfold object. cbn. destruct h; reflexivity.
Qed.

Lemma history_agrees cs s : Forall sound_tree cs -> hcmds no_hw cs = Some s -> agrees (history cs) s.
Proof. intros F H. eapply run_agrees; eauto using start_agrees. Qed.

Lemma alive_iff k s j : agrees k s -> tree_alive s j = true <-> exists h x, k_now k h = Some x /\ l_home x = j.
Proof.
  intros A. unfold tree_alive. rewrite existsb_exists. split.
  - intros ([w|] & I & E); [|discriminate]. apply Nat.eqb_eq in E. destruct (In_nth_error _ _ I) as (h & N).
    assert (Q := ag_now _ _ A h). unfold object in Q. rewrite N in Q.
    destruct (k_now k h) as [x|] eqn:K; [|discriminate]. injection Q as ->. exists h, x. auto.
  - intros (h & x & K & E). assert (Q := ag_now _ _ A h). rewrite K in Q. unfold object in Q. cbn [option_map] in Q.
    destruct (nth_error (m_hw s) h) as [[w|]|] eqn:N; try discriminate. injection Q as ->.
    exists (Some (mkHwif (l_client x) (l_home x))). split; [eapply nth_error_In; eauto|]. cbn. apply Nat.eqb_eq. exact E.
Qed.

(** ** C78 *)

(** C78, where accesses go after any sequence of constructions, copies,
    assignments and destructions: getNode through a living variable answers as
    the address table it holds, and an access through the node goes to the
    client of the variable whose constructor made the tree; if that variable has
    been destroyed the access is undefined behaviour. *)
Theorem C78_where : forall cs s h x t aId, Forall sound_tree cs -> hcmds no_hw cs = Some s ->
  k_now (history cs) h = Some x -> k_made (history cs) (l_home x) = Some t ->
  match get_node t aId with
  | Found p => hw_node s h aId = RNode (l_home x) p /\
      node_client s (l_home x) p =
        match k_now (history cs) (l_home x) with Some y => ToClient (l_client y) | None => Undefined end
  | NotFound => hw_node s h aId = RNone
  | Dangling => False
  end.
Proof.
  intros cs s h x t aId F H K M. assert (A := history_agrees cs s F H). set (k := history cs) in *.
  destruct (ag_home _ _ A h x K) as (L & _). destruct (ag_made _ _ A _ L) as (t1 & M1 & W & D & (t' & o & E & W' & D' & G & P & O)).
  rewrite M in M1. injection M1 as <-. assert (Q := ag_now _ _ A h). rewrite K in Q. cbn [option_map] in Q.
  unfold hw_node. rewrite Q. cbn [w_tree]. rewrite E, G.
  destruct (C29_has_node t aId W) as (b & _ & B1 & B2).
  destruct (get_node t aId) as [p| |] eqn:N; [|reflexivity|].
  - split; [reflexivity|]. assert (AL : tree_alive s (l_home x) = true) by (apply (alive_iff k s _ A); eauto).
    unfold node_client. rewrite AL, E. cbn [negb].
    assert (X : exists n, get t p = Some n).
    { destruct b; [destruct (proj1 B1 eq_refl) as (p' & n & X & Y); injection X as <-; eauto|discriminate (proj1 B2 eq_refl)]. }
    destruct X as (n & X). destruct (get t' p) as [m|] eqn:R; [|rewrite (proj1 (P p) R) in X; discriminate].
    rewrite (O p m R), (ag_now _ _ A). destruct (k_now k (l_home x)); reflexivity.
  - destruct b; [destruct (proj1 B1 eq_refl) as (p' & n & X & Y); discriminate|discriminate (proj1 B2 eq_refl)].
Qed.

(** Without assignments every living variable holds the tree it made, and keeps
    its client. *)
Lemma own_home : forall cs k, Forall no_assign cs ->
  (forall h x, k_now k h = Some x -> l_home x = h) ->
  forall h x, k_now (fold_left after cs k) h = Some x -> l_home x = h.
Proof.
  induction cs as [|c r IH]; intros k F B h x K; cbn [fold_left] in K; [exact (B h x K)|].
  inversion F as [|? ? N1 F1]; subst. apply (IH (after k c) F1); [|exact K]. clear -N1 B. intros h x K.
  destruct c as [|c t|g|g j|g]; cbn [after] in K; try contradiction; [exact (B h x K)|..].
  - cbn [born k_now] in K. unfold set_at in K. destruct (Nat.eqb_spec h (k_n k)); [injection K as <-; cbn; congruence|exact (B h x K)].
  - destruct (k_now k g) as [y|]; [|exact (B h x K)]. cbn [born k_now] in K. unfold set_at in K.
    destruct (Nat.eqb_spec h (k_n k)); [injection K as <-; cbn; congruence|exact (B h x K)].
  - cbn [k_now] in K. unfold set_at in K. destruct (Nat.eqb h g); [discriminate|exact (B h x K)].
Qed.

(** A living variable was the same before, if nothing was assigned and it
    existed. *)
Lemma same_before : forall cs k, Forall no_assign cs -> forall h x, h < k_n k ->
  k_now (fold_left after cs k) h = Some x -> k_now k h = Some x.
Proof.
  assert (NB : forall k c t h, h < k_n k -> k_now (born k c t) h = k_now k h).
  { intros k c t h L. cbn [born k_now]. unfold set_at. destruct (Nat.eqb_spec h (k_n k)); [lia|reflexivity]. }
  induction cs as [|c r IH]; intros k F h x L K; cbn [fold_left] in K; [exact K|].
  inversion F as [|? ? N1 F1]; subst.
  assert (Q : k_n k <= k_n (after k c)).
  { destruct c; cbn [after born k_n]; try lia. destruct (k_now k h0); cbn [born k_n]; lia. }
  apply (IH (after k c) F1 h x) in K; [|lia]. destruct c as [|c t|g|g j|g]; cbn [after] in K; try contradiction; [exact K|..].
  - rewrite NB in K by exact L. exact K.
  - destruct (k_now k g); [rewrite NB in K by exact L|]; exact K.
  - cbn [k_now] in K. unfold set_at in K. destruct (Nat.eqb h g); [discriminate|exact K].
Qed.

Lemma hcmds_app : forall cs ds s, hcmds s (cs ++ ds) = match hcmds s cs with Some s' => hcmds s' ds | None => None end.
Proof. induction cs as [|c r IH]; intros ds s; cbn [app hcmds]; [reflexivity|]. destruct (hcmd_step s c); [apply IH|reflexivity]. Qed.

(** C78, without assignment of HwInterface variables: the accesses through
    every node got from a variable, at any time since, go to that variable's own
    client for as long as the variable lives, whatever happens to the others.
    Missing: assignment, for which C78_erase_refuted shows the claim false. *)
Theorem C78_own_client_partial : forall cs ds s s' h x aId j p, Forall sound_tree (cs ++ ds) -> Forall no_assign (cs ++ ds) ->
  hcmds no_hw cs = Some s -> hcmds s ds = Some s' ->
  hw_node s h aId = RNode j p -> k_now (history (cs ++ ds)) h = Some x ->
  node_client s' j p = ToClient (l_client x) /\ hw_node s' h aId = RNode j p /\
  (forall g q bId, hw_node s' g bId = RNode j q -> g = h).
Proof.
  intros cs ds s s' h x aId j p F NA H H' R K.
  assert (Hc : hcmds no_hw (cs ++ ds) = Some s') by (rewrite hcmds_app, H; exact H').
  assert (F1 : Forall sound_tree cs) by (apply Forall_app in F; tauto).
  assert (NA1 : Forall no_assign cs) by (apply Forall_app in NA; tauto).
  assert (NA2 : Forall no_assign ds) by (apply Forall_app in NA; tauto).
  assert (A := history_agrees cs s F1 H). assert (A' := history_agrees _ s' F Hc).
  assert (OW : forall h x, k_now (history (cs ++ ds)) h = Some x -> l_home x = h).
  { unfold history. apply own_home; [exact NA|]. cbn. discriminate. }
  assert (HX := OW h x K).
  assert (KS : exists y, k_now (history cs) h = Some y).
  { assert (Q := ag_now _ _ A h). unfold hw_node in R. destruct (object s h); [|discriminate].
    destruct (k_now (history cs) h) as [y|]; [eauto|discriminate]. }
  destruct KS as (y & KS). assert (L : h < k_n (history cs)).
  { rewrite <- (ag_hw _ _ A). assert (Q := ag_now _ _ A h). rewrite KS in Q. unfold object in Q.
    apply nth_error_Some. destruct (nth_error (m_hw s) h); discriminate. }
  assert (EQ : y = x).
  { assert (Z := same_before ds (history cs) NA2 h x L). rewrite <- fold_left_app in Z || unfold history in Z.
    unfold history in K. rewrite fold_left_app in K. unfold history in KS. specialize (Z K). congruence. }
  subst y.
  assert (T : exists t, k_made (history cs) (l_home x) = Some t).
  { destruct (ag_home _ _ A h x KS) as (L1 & _). destruct (ag_made _ _ A _ L1) as (t & M & _). eauto. }
  destruct T as (t & T).
  assert (T' : k_made (history (cs ++ ds)) (l_home x) = Some t).
  { rewrite HX in *. clear -T L. unfold history in *. rewrite fold_left_app. revert T L.
    generalize (fold_left after cs start). induction ds as [|c r IH]; intros k T L; cbn [fold_left]; [exact T|].
    assert (NB : forall c t', k_made (born k c t') h = Some t).
    { intros c' t'. cbn [born k_made]. unfold set_at. destruct (Nat.eqb_spec h (k_n k)); [lia|exact T]. }
    apply IH.
    - destruct c; cbn [after k_made]; auto. destruct (k_now k h0); auto.
    - destruct c; cbn [after born k_n]; auto. destruct (k_now k h0); cbn [born k_n]; auto. }
  assert (X := C78_where cs s h x t aId F1 H KS T). assert (X' := C78_where _ s' h x t aId F Hc K T').
  destruct (get_node t aId) as [q| |]; [|congruence|contradiction].
  destruct X as (X1 & _). destruct X' as (X2 & X3). rewrite R in X1. injection X1 as -> ->.
  split; [|split; [exact X2|]].
  - rewrite X3, HX, K. reflexivity.
  - intros g q' bId G. unfold hw_node in G. destruct (object s' g) as [w|] eqn:OG; [|discriminate].
    rewrite (ag_now _ _ A') in OG. destruct (k_now (history (cs ++ ds)) g) as [z|] eqn:KG; [|discriminate].
    injection OG as <-. cbn [w_tree] in G. destruct (nth_error (m_tree s') (l_home z)) as [[u o]|]; [|discriminate].
    destruct (get_node u bId); try discriminate. injection G as E _.
    rewrite <- (OW g z KG), E. exact HX.
Qed.

(** C78 fails when variables are assigned.  Erasing the first of three elements
    of a std::vector<HwInterface> assigns the second to the first, the third to
    the second, and destroys the third.  Then the first element's getClient() is
    the second device's client, but the accesses through its nodes go to the
    third device's client, and those through the second element's nodes to a
    destroyed object. *)
Theorem C78_erase_refuted : forall cs s a b c xa xb xc t aId p tc, Forall sound_tree cs -> Forall no_assign cs ->
  hcmds no_hw cs = Some s -> a <> b -> b <> c -> a <> c ->
  k_now (history cs) a = Some xa -> k_now (history cs) b = Some xb -> k_now (history cs) c = Some xc ->
  k_made (history cs) b = Some t -> get_node t aId = Found p ->
  k_made (history cs) c = Some tc -> get_node tc aId = Found p ->
  exists s', hcmds s [HAssignTo a b; HAssignTo b c; HDestroy c] = Some s' /\
    option_map w_client (object s' a) = Some (l_client xb) /\
    hw_node s' a aId = RNode b p /\ node_client s' b p = ToClient (l_client xc) /\
    hw_node s' b aId = RNode c p /\ node_client s' c p = Undefined.
Proof.
  intros cs s a b c xa xb xc t aId p tc F NA H AB BC AC Ka Kb Kc M G Mc Gc.
  assert (A := history_agrees cs s F H).
  assert (OW : forall h x, k_now (history cs) h = Some x -> l_home x = h).
  { unfold history. apply own_home; [exact NA|]. cbn. discriminate. }
  assert (Hb := OW b xb Kb). assert (Hc := OW c xc Kc).
  assert (Oa := ag_now _ _ A a). assert (Ob := ag_now _ _ A b). assert (Oc := ag_now _ _ A c).
  rewrite Ka in Oa. rewrite Kb in Ob. rewrite Kc in Oc. cbn [option_map] in Oa, Ob, Oc.
  set (cs' := cs ++ [HAssignTo a b; HAssignTo b c; HDestroy c]).
  assert (EX : exists s', hcmds s [HAssignTo a b; HAssignTo b c; HDestroy c] = Some s').
  { cbn [hcmds hcmd_step]. rewrite Oa, Ob. set (s1 := mkHws _ _ _).
    assert (O1 : forall g, object s1 g = if Nat.eqb g a then Some (mkHwif (l_client xb) (l_home xb)) else object s g).
    { intros g. apply set_object. eauto. }
    rewrite !O1. rewrite (proj2 (Nat.eqb_neq b a)), (proj2 (Nat.eqb_neq c a)) by congruence. rewrite Ob, Oc.
    set (s2 := mkHws _ _ _).
    assert (O2 : forall g, object s2 g = if Nat.eqb g b then Some (mkHwif (l_client xc) (l_home xc)) else object s1 g).
    { intros g. apply set_object. rewrite O1, (proj2 (Nat.eqb_neq b a)) by congruence. eauto. }
    rewrite O2, (proj2 (Nat.eqb_neq c b)), O1, (proj2 (Nat.eqb_neq c a)), Oc by congruence. eauto. }
  destruct EX as (s' & EX). exists s'. split; [exact EX|].
  assert (R : hcmds no_hw cs' = Some s') by (unfold cs'; rewrite hcmds_app, H; exact EX).
  assert (F' : Forall sound_tree cs').
  { unfold cs'. apply Forall_app. split; [exact F|]. repeat constructor. }
  assert (A' := history_agrees cs' s' F' R).
  assert (N : forall g, k_now (history cs') g = if Nat.eqb g c then None else if Nat.eqb g b then Some xc
                        else if Nat.eqb g a then Some xb else k_now (history cs) g).
  { intros g. unfold history, cs'. rewrite fold_left_app. fold (history cs). cbn [fold_left after k_now]. unfold set_at.
    destruct (Nat.eqb g c); [reflexivity|]. rewrite (proj2 (Nat.eqb_neq c a)) by congruence.
    destruct (Nat.eqb g b); [exact Kc|]. destruct (Nat.eqb g a); [exact Kb|reflexivity]. }
  assert (MK : k_made (history cs') = k_made (history cs)).
  { unfold history, cs'. rewrite fold_left_app. reflexivity. }
  assert (Na : k_now (history cs') a = Some xb).
  { rewrite N, (proj2 (Nat.eqb_neq a c)), (proj2 (Nat.eqb_neq a b)), Nat.eqb_refl by congruence. reflexivity. }
  assert (Nb : k_now (history cs') b = Some xc).
  { rewrite N, (proj2 (Nat.eqb_neq b c)), Nat.eqb_refl by congruence. reflexivity. }
  assert (Nc : k_now (history cs') c = None) by (rewrite N, Nat.eqb_refl; reflexivity).
  assert (Q1 := C78_where cs' s' a xb t aId F' R Na). rewrite Hb, MK, G, Nb in Q1. specialize (Q1 M).
  assert (Q2 := C78_where cs' s' b xc tc aId F' R Nb). rewrite Hc, MK, Gc, Nc in Q2. specialize (Q2 Mc).
  split; [rewrite (ag_now _ _ A'), Na; reflexivity|]. tauto.
Qed.

(** ** C79 *)

(** C79, exactly: after any sequence the client describes addresses with the
    table of the variable last constructed on it, as long as some variable still
    holds that tree, and with none after that. *)
Theorem C79_described : forall cs s c, Forall sound_tree cs -> hcmds no_hw cs = Some s ->
  match k_last (history cs) c with
  | None => described_by s c = None
  | Some j =>
      ((exists h x, k_now (history cs) h = Some x /\ l_home x = j) ->
         exists t t', k_made (history cs) j = Some t /\ described_by s c = Some t' /\
           (forall aId, get_node t' aId = get_node t aId)) /\
      (~ (exists h x, k_now (history cs) h = Some x /\ l_home x = j) -> described_by s c = None)
  end.
Proof.
  intros cs s c F H. assert (A := history_agrees cs s F H). set (k := history cs) in *. unfold described_by.
  destruct (Nat.lt_ge_cases c (List.length (m_weak s))) as [L|L].
  - rewrite (ag_weak _ _ A c L). destruct (k_last k c) as [j|] eqn:K; [|reflexivity]. split.
    + intros X. apply (alive_iff k s j A) in X. rewrite X.
      destruct (ag_made _ _ A j (ag_last _ _ A c j K)) as (t & M & _ & _ & (t' & o & E & _ & _ & G & _)).
      rewrite E. exists t, t'. auto.
    + intros X. destruct (tree_alive s j) eqn:T; [|reflexivity]. exfalso. apply X. apply (alive_iff k s j A). exact T.
  - rewrite (ag_weak' _ _ A c L), (proj2 (nth_error_None _ _)) by lia. reflexivity.
Qed.

(** C79 fails: making a copy of a variable and destroying the copy (as passing
    an HwInterface to a function by value does) leaves the client without a
    table, although the variable lives and still uses it. *)
Theorem C79_copy_refuted : forall cs s h x, Forall sound_tree cs -> hcmds no_hw cs = Some s ->
  k_now (history cs) h = Some x ->
  exists s', hcmds s [HCopyOf h; HDestroy (k_n (history cs))] = Some s' /\
    object s' h = object s h /\ described_by s' (l_client x) = None.
Proof.
  intros cs s h x F H K. assert (A := history_agrees cs s F H). set (n := k_n (history cs)).
  assert (O := ag_now _ _ A h). rewrite K in O. cbn [option_map] in O.
  destruct (ag_home _ _ A h x K) as (L & Lc). destruct (ag_made _ _ A _ L) as (t & M & W & D & (t' & o & E & _)).
  set (s1 := construct s (l_client x) (clone t') o).
  assert (E1 : hcmd_step s (HCopyOf h) = Some s1).
  { cbn [hcmd_step]. rewrite O. cbn [w_tree w_client]. rewrite E. reflexivity. }
  assert (O1 : forall g, object s1 g = if Nat.eqb g n then Some (mkHwif (l_client x) (List.length (m_tree s))) else object s g).
  { intros g. unfold s1, construct. rewrite object_app, (ag_hw _ _ A). reflexivity. }
  set (s' := mkHws (upd (m_hw s1) n (fun _ => None)) (m_tree s1) (m_weak s1)).
  assert (EX : hcmds s [HCopyOf h; HDestroy n] = Some s').
  { cbn [hcmds]. rewrite E1. cbn [hcmd_step]. rewrite O1, Nat.eqb_refl. reflexivity. }
  exists s'. split; [exact EX|].
  assert (Ln : h <> n).
  { assert (Y : h < List.length (m_hw s)).
    { apply nth_error_Some. unfold object in O. destruct (nth_error (m_hw s) h); discriminate. }
    rewrite (ag_hw _ _ A) in Y. unfold n. lia. }
  split.
  - unfold s'. rewrite set_object by (rewrite O1, Nat.eqb_refl; eauto). rewrite O1.
    destruct (Nat.eqb_spec h n); [contradiction|reflexivity].
  - set (cs' := cs ++ [HCopyOf h; HDestroy n]).
    assert (R : hcmds no_hw cs' = Some s') by (unfold cs'; rewrite hcmds_app, H; exact EX).
    assert (F' : Forall sound_tree cs').
    { unfold cs'. apply Forall_app. split; [exact F|]. repeat constructor. }
    assert (Q := C79_described cs' s' (l_client x) F' R).
    assert (HI : history cs' = mkHist (S n) (set_at (k_made (history cs)) n (k_made (history cs) (l_home x)))
                   (set_at (set_at (k_now (history cs)) n (Some (mkLife (l_client x) n))) n None)
                   (set_at (k_last (history cs)) (l_client x) (Some n))).
    { unfold history, cs'. rewrite fold_left_app. fold (history cs). cbn [fold_left after]. rewrite K. reflexivity. }
    rewrite HI in Q. cbn [k_last k_now] in Q. unfold set_at at 1 in Q. rewrite Nat.eqb_refl in Q.
    apply (proj2 Q). intros (g & y & G & HY). unfold set_at in G. destruct (Nat.eqb_spec g n) as [->|Ng]; [discriminate|].
    assert (Z := ag_home _ _ A g y G). fold n in Z. lia.
Qed.

(** ** Cases *)

Definition ex_prog : list hcmd :=
  [HClient; HMake 0 ex_tree; HClient; HMake 1 ex_tree; HCopyOf 0; HClient; HMake 2 ex_tree; HDestroy 0].

Example ex_prog_sound : Forall sound_tree ex_prog /\ Forall no_assign ex_prog /\
  Forall sound_tree (ex_prog ++ [HCopyOf 2; HDestroy 2]) /\ Forall no_assign (ex_prog ++ [HCopyOf 2; HDestroy 2]).
Proof.
  destruct ex_wf as (W & D & _). split; [|split; [|split]]; unfold ex_prog; cbn [app]; repeat (apply Forall_cons; [cbn; auto|]); apply Forall_nil.
Qed.

(** Where things stand after a program: the node found and the client reached. *)
Definition reach (cs : list hcmd) (h : nat) (aId : string) : option (node_ref * option target) :=
  option_map (fun s => match hw_node s h aId with RNode j p => (RNode j p, Some (node_client s j p)) | r => (r, None) end)
             (hcmds no_hw cs).

Example C78_where_case :
  option_map l_client (k_now (history ex_prog) 2) = Some 0 /\ option_map l_home (k_now (history ex_prog) 2) = Some 2 /\
  k_made (history ex_prog) 2 = Some ex_tree /\
  reach ex_prog 2 "sub.status" = Some (RNode 2 [0; 1], Some (ToClient 0)) /\
  reach ex_prog 1 "sub.status" = Some (RNode 1 [0; 1], Some (ToClient 1)) /\
  reach ex_prog 1 "nowhere" = Some (RNone, None).
Proof. repeat (split; [vm_compute; reflexivity|]). vm_compute; reflexivity. Qed.

(** The copy keeps its client although the original and a later copy are gone. *)
Example C78_own_client_case :
  reach (ex_prog ++ [HCopyOf 2; HDestroy 2]) 4 "sub.status" = Some (RNode 4 [0; 1], Some (ToClient 0)) /\
  reach (ex_prog ++ [HCopyOf 2; HDestroy 2]) 2 "sub.status" = Some (RUndefined, None).
Proof. split; vm_compute; reflexivity. Qed.

(** Three devices in a vector, the first erased: the first element names device
    1 and its nodes write to device 2. *)
Definition ex_vector : list hcmd :=
  [HClient; HMake 0 ex_tree; HClient; HMake 1 ex_tree; HClient; HMake 2 ex_tree].

Example C78_erase_case :
  Forall sound_tree ex_vector /\ Forall no_assign ex_vector /\
  option_map l_client (k_now (history ex_vector) 0) = Some 0 /\
  option_map l_client (k_now (history ex_vector) 1) = Some 1 /\
  option_map l_client (k_now (history ex_vector) 2) = Some 2 /\
  k_made (history ex_vector) 1 = Some ex_tree /\ k_made (history ex_vector) 2 = Some ex_tree /\
  get_node ex_tree "sub.status" = Found [0; 1] /\
  reach (ex_vector ++ [HAssignTo 0 1; HAssignTo 1 2; HDestroy 2]) 0 "sub.status" = Some (RNode 1 [0; 1], Some (ToClient 2)) /\
  reach (ex_vector ++ [HAssignTo 0 1; HAssignTo 1 2; HDestroy 2]) 1 "sub.status" = Some (RNode 2 [0; 1], Some Undefined).
Proof.
  destruct ex_wf as (W & D & _). unfold ex_vector.
  split; [repeat (apply Forall_cons; [cbn; auto|]); apply Forall_nil|]. split; [repeat constructor|].
  repeat (split; [vm_compute; reflexivity|]). vm_compute; reflexivity.
Qed.

Example C79_described_case :
  k_last (history ex_prog) 0 = Some 2 /\ option_map l_home (k_now (history ex_prog) 2) = Some 2 /\
  option_map (fun s => option_map (fun t => get_node t "sub.status") (described_by s 0)) (hcmds no_hw ex_prog)
    = Some (Some (Found [0; 1])) /\
  option_map (fun s => described_by s 0) (hcmds no_hw (ex_prog ++ [HDestroy 2])) = Some None.
Proof. repeat (split; [vm_compute; reflexivity|]). vm_compute; reflexivity. Qed.

Example C79_copy_case :
  option_map l_client (k_now (history ex_vector) 1) = Some 1 /\ k_n (history ex_vector) = 3 /\
  option_map (fun s => described_by s 1) (hcmds no_hw (ex_vector ++ [HCopyOf 1; HDestroy 3])) = Some None /\
  option_map (fun s => object s 1) (hcmds no_hw (ex_vector ++ [HCopyOf 1; HDestroy 3])) = Some (Some (mkHwif 1 1)).
Proof. repeat (split; [vm_compute; reflexivity|]). vm_compute; reflexivity. Qed.

Print Assumptions C78_where.
Print Assumptions C78_own_client_partial.
Print Assumptions C78_erase_refuted.
Print Assumptions C79_described.
Print Assumptions C79_copy_refuted.
