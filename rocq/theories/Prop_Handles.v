(** C26: immutability of validated values, sharing between copies. *)
From Verif Require Import Word Bits ValMem Handles NetProofs2.
From Coq Require Import NArith PeanoNat List Bool Lia.
Import ListNotations.
Open Scope N_scope.

(** The calls that check the validity flag, and those that modify nothing. *)
Definition checked (c : hcall) : Prop :=
  match c with HAssign _ _ | HMask _ _ | HClear _ | HValid _ _ => False | _ => True end.

(** The calls that modify nothing. *)
Definition harmless (c : hcall) : Prop :=
  match c with HCopy _ | HBind _ _ => True | _ => False end.

(** The call makes variable [v] refer to something else. *)
Definition rebinds (v : nat) (c : hcall) : Prop :=
  match c with HBind x _ => x = v | _ => False end.

Lemma hstep_vars s c v i : ~ rebinds v c -> nth_error (h_vars s) v = Some i ->
  nth_error (h_vars (fst (hstep s c))) v = Some i.
Proof.
  intros R E. unfold hstep. destruct (nth_error (h_vars s) (hvar c)); [|exact E].
  destruct (nth_error (h_heap s) n); [|exact E]. destruct (hmod c c0); [|exact E].
  destruct c; cbn [fst h_vars rebinds] in *; trivial.
  - rewrite nth_error_app1; [exact E|]. apply nth_error_Some. congruence.
  - destruct (nth_error (h_vars s) w); [|exact E]. rewrite nth_upd.
    destruct (Nat.eqb_spec v v0); [congruence|exact E].
Qed.

(** C26, the part that holds: once a value or block is valid, value(x),
    push_back, value(v) and assign on any copy of it raise and no sequence of
    such calls changes what any copy shows (unless the variable itself is made to
    refer to something else).  Missing: operator=, mask(m), clear() and
    valid(false) do not check the flag ([C26_assign_refuted],
    [C26_mask_refuted], [C26_clear_refuted], [C26_unset_refuted]). *)
Theorem C26_immutable_partial : forall s v i k cs,
  nth_error (h_vars s) v = Some i -> nth_error (h_heap s) i = Some k -> cell_valid k = true ->
  Forall checked cs ->
  (Forall (fun c => ~ rebinds v c) cs -> shows (hrun s cs) v = shows s v) /\
  (forall w, nth_error (h_vars (hrun s cs)) w = Some i -> shows (hrun s cs) w = shows s v) /\
  (forall c, checked c -> nth_error (h_vars (hrun s cs)) (hvar c) = Some i ->
     ~ harmless c -> hstep (hrun s cs) c = (hrun s cs, true)).
Proof.
  intros s v i k cs V H K F.
  assert (X : forall cs s, nth_error (h_heap s) i = Some k -> Forall checked cs ->
     nth_error (h_heap (hrun s cs)) i = Some k).
  { clear s cs V H F. induction cs as [|c t IH]; intros s H F; [auto|].
    inversion F; subst. cbn [hrun]. apply IH; [|assumption].
    unfold hstep. destruct (nth_error (h_vars s) (hvar c)) as [j|]; [|exact H].
    destruct (nth_error (h_heap s) j) as [x|] eqn:J; [|exact H]. destruct (hmod c x) as [x'|] eqn:M; [|exact H].
    cbn [fst h_heap]. rewrite nth_upd. destruct (Nat.eqb_spec i j) as [->|]; [|exact H].
    rewrite H in J |- *. injection J as ->. cbn [option_map]. f_equal.
    destruct c; cbn in *; try contradiction; try congruence; destruct x; cbn in K; subst; discriminate. }
  assert (Y : forall cs s, nth_error (h_vars s) v = Some i -> Forall (fun c => ~ rebinds v c) cs ->
     nth_error (h_vars (hrun s cs)) v = Some i).
  { clear. induction cs as [|c t IH]; intros s H F; [auto|]. inversion F; subst. cbn [hrun].
    apply IH; [apply hstep_vars; assumption|assumption]. }
  assert (H' := X cs s H F). split; [|split].
  - intros NB. unfold shows. rewrite (Y cs s V NB), H', V, H. reflexivity.
  - intros w W. unfold shows. rewrite W, H', V, H. reflexivity.
  - intros c C E NH. unfold hstep. rewrite E, H'.
    destruct c; cbn in *; try contradiction; try (destruct NH; exact I);
      destruct k; cbn in K; subst; reflexivity.
Qed.

Lemma shared_run i : forall cs s w, nth_error (h_vars s) w = Some i -> nth_error (h_heap s) i <> None ->
  Forall (fun c => ~ rebinds w c) cs ->
  nth_error (h_vars (hrun s cs)) w = Some i /\ nth_error (h_heap (hrun s cs)) i <> None.
Proof.
  induction cs as [|c t IH]; intros s w W H F; [auto|]. inversion F; subst. cbn [hrun].
  apply IH; [apply hstep_vars; assumption| |assumption].
  unfold hstep. destruct (nth_error (h_vars s) (hvar c)) as [j|]; [|exact H].
  destruct (nth_error (h_heap s) j) as [x|] eqn:J; [|exact H]. destruct (hmod c x) as [x'|] eqn:M; [|exact H].
  cbn [fst h_heap]. rewrite nth_upd. destruct (Nat.eqb i j); [|exact H].
  destruct (nth_error (h_heap s) i); [discriminate|exact H].
Qed.

(** C26, sharing: a copy shows what the original shows, for ever after, whatever
    is called on either of them, as long as neither is made to refer to something
    else. *)
Theorem C26_copies_share : forall s v s1 cs, hstep s (HCopy v) = (s1, false) ->
  Forall (fun c => ~ rebinds v c /\ ~ rebinds (length (h_vars s)) c) cs ->
  shows (hrun s1 cs) (length (h_vars s)) = shows (hrun s1 cs) v /\ shows s1 v = shows s v /\
  shows (hrun s1 cs) v <> None.
Proof.
  intros s v s1 cs E NB. unfold hstep in E. cbn [hvar hmod] in E.
  destruct (nth_error (h_vars s) v) as [i|] eqn:V; [|discriminate].
  destruct (nth_error (h_heap s) i) as [k|] eqn:H; [|discriminate]. injection E as <-.
  set (s1 := mkHst (h_vars s ++ [i]) (upd (h_heap s) i (fun _ => k))).
  assert (V1 : nth_error (h_vars s1) v = Some i).
  { cbn. rewrite nth_error_app1; [exact V|]. apply nth_error_Some. congruence. }
  assert (V2 : nth_error (h_vars s1) (length (h_vars s)) = Some i).
  { cbn. rewrite nth_error_app2, Nat.sub_diag by lia. reflexivity. }
  assert (H1 : nth_error (h_heap s1) i = Some k) by (cbn; rewrite nth_upd, Nat.eqb_refl, H; reflexivity).
  assert (HN : nth_error (h_heap s1) i <> None) by congruence.
  destruct (shared_run i cs s1 v V1 HN) as (A & B).
  { eapply Forall_impl; [|exact NB]. intros c C. apply C. }
  destruct (shared_run i cs s1 _ V2 HN) as (C & _).
  { eapply Forall_impl; [|exact NB]. intros c D. apply D. }
  unfold shows. rewrite A, C, V1, V, H, H1. split; [reflexivity|]. split; [reflexivity|].
  destruct (nth_error (h_heap (hrun s1 cs)) i); [discriminate|congruence].
Qed.

(** C26, assignment between handles: the same, from the assignment on; nothing
    that other variables show is changed by it. *)
Theorem C26_assigned_share : forall s v w s1 cs x,
  hstep s (HBind v w) = (s1, false) -> nth_error (h_vars s) w = Some x -> nth_error (h_heap s) x <> None ->
  Forall (fun c => ~ rebinds v c /\ ~ rebinds w c) cs ->
  shows (hrun s1 cs) v = shows (hrun s1 cs) w /\ shows s1 v = shows s w /\ shows (hrun s1 cs) v <> None /\
  forall u, u <> v -> shows s1 u = shows s u.
Proof.
  intros s v w s1 cs x E W HX NB. unfold hstep in E. cbn [hvar hmod] in E.
  destruct (nth_error (h_vars s) v) as [i|] eqn:V; [|discriminate].
  destruct (nth_error (h_heap s) i) as [k|] eqn:H; [|discriminate]. rewrite W in E. injection E as <-.
  assert (HU : forall j, nth_error (upd (h_heap s) i (fun _ => k)) j = nth_error (h_heap s) j).
  { intros j. rewrite nth_upd. destruct (Nat.eqb_spec j i) as [->|]; [rewrite H|]; reflexivity. }
  set (s1 := mkHst (upd (h_vars s) v (fun _ => x)) (upd (h_heap s) i (fun _ => k))).
  assert (V1 : nth_error (h_vars s1) v = Some x) by (cbn; rewrite nth_upd, Nat.eqb_refl, V; reflexivity).
  assert (V2 : nth_error (h_vars s1) w = Some x).
  { cbn. rewrite nth_upd. destruct (Nat.eqb_spec w v) as [->|]; [rewrite V; reflexivity|exact W]. }
  assert (HN : nth_error (h_heap s1) x <> None) by (cbn; rewrite HU; exact HX).
  destruct (shared_run x cs s1 v V1 HN) as (A & B).
  { eapply Forall_impl; [|exact NB]. intros c C. apply C. }
  destruct (shared_run x cs s1 w V2 HN) as (C & _).
  { eapply Forall_impl; [|exact NB]. intros c D. apply D. }
  split; [unfold shows; rewrite A, C; reflexivity|].
  split; [unfold shows; rewrite V1, W; cbn [h_heap s1]; rewrite HU; reflexivity|].
  split; [unfold shows; rewrite A; destruct (nth_error (h_heap (hrun s1 cs)) x); [discriminate|congruence]|].
  intros u U. unfold shows. cbn [h_vars h_heap s1]. rewrite nth_upd.
  destruct (Nat.eqb_spec u v); [congruence|]. destruct (nth_error (h_vars s) u) as [j|]; [|reflexivity].
  rewrite HU. reflexivity.
Qed.

(** What a variable refers to: validity flag and words, whatever kind it is. *)
Definition flag (k : cell) : bool := match k with CHdr b | CWord b _ _ | CVec b _ => b end.
Definition words (k : cell) : list N := match k with CHdr _ => [] | CWord _ x m => [x; m] | CVec _ l => l end.
Definition refers (s : hst) (v : nat) : option cell :=
  match nth_error (h_vars s) v with Some i => nth_error (h_heap s) i | None => None end.

(** C26, what valid(b) does: it never raises; every variable that refers to the
    same thing has the flag [b] and the words of before, nothing else is changed. *)
Theorem C26_flag : forall s v b i k, nth_error (h_vars s) v = Some i -> nth_error (h_heap s) i = Some k ->
  exists s', hstep s (HValid v b) = (s', false) /\ h_vars s' = h_vars s /\
  (forall w, nth_error (h_vars s) w = Some i -> exists k', refers s' w = Some k' /\ flag k' = b /\ words k' = words k) /\
  (forall w, nth_error (h_vars s) w <> Some i -> refers s' w = refers s w).
Proof.
  intros s v b i k V H. unfold hstep. cbn [hvar hmod]. rewrite V, H. eexists. split; [reflexivity|]. split; [reflexivity|].
  split; intros w W; unfold refers; cbn [h_vars h_heap].
  - rewrite W, nth_upd, Nat.eqb_refl, H. cbn [option_map]. eexists. split; [reflexivity|]. destruct k; auto.
  - destruct (nth_error (h_vars s) w) as [j|]; [|reflexivity]. rewrite nth_upd. destruct (Nat.eqb_spec j i); [congruence|reflexivity].
Qed.

(** C26 is false for operator=, mask(m) and clear(): a validated value changes. *)
Theorem C26_assign_refuted : exists s v x, (exists a, shows s v = Some (Some a, None, true)) /\
  exists s', hstep s (HAssign v x) = (s', false) /\ shows s' v <> shows s v /\ exists b, shows s' v = Some (Some b, None, true).
Proof.
  exists (mkHst [0%nat] [CWord true 5 0xFF]), 0%nat, 9. split; [eexists; vm_compute; reflexivity|].
  eexists. split; [reflexivity|]. split; [vm_compute; discriminate|eexists; vm_compute; reflexivity].
Qed.
Theorem C26_mask_refuted : exists s v m, (exists a, shows s v = Some (Some a, None, true)) /\
  exists s', hstep s (HMask v m) = (s', false) /\ shows s' v <> shows s v /\ exists b, shows s' v = Some (Some b, None, true).
Proof.
  exists (mkHst [0%nat] [CWord true 0x1234 0xFF]), 0%nat, 0xFF00. split; [eexists; vm_compute; reflexivity|].
  eexists. split; [reflexivity|]. split; [vm_compute; discriminate|eexists; vm_compute; reflexivity].
Qed.
Theorem C26_clear_refuted : exists s v, (exists l, shows s v = Some (None, Some l, true)) /\
  exists s', hstep s (HClear v) = (s', false) /\ shows s' v = Some (None, None, false).
Proof.
  exists (mkHst [0%nat] [CVec true [1; 2]]), 0%nat. split; [eexists; vm_compute; reflexivity|].
  eexists. split; reflexivity.
Qed.

(** ... and for valid(false), which is public: afterwards the value can be set,
    and valid(true) makes the new value readable. *)
Theorem C26_unset_refuted : exists s v x, (exists a, shows s v = Some (Some a, None, true)) /\
  let s' := hrun s [HValid v false; HValue v x; HValid v true] in
  shows s' v <> shows s v /\ exists b, shows s' v = Some (Some b, None, true).
Proof.
  exists (mkHst [0%nat] [CWord true 5 0xFF]), 0%nat, 9. split; [eexists; vm_compute; reflexivity|].
  split; [vm_compute; discriminate|eexists; vm_compute; reflexivity].
Qed.

(** Cases. *)
Definition h_case : hst := mkHst [0; 1; 2]%nat [CWord true 0xABCD 0xFF00; CVec true [1; 2]; CVec false [3]].
Definition h_calls : list hcall :=
  [HCopy 0; HValue 3 7; HPush 1 4; HSet 1 [5]; HPush 2 9; HCopy 2; HSet 4 [6; 7]; HBind 2 1; HPush 2 8].
Example C26_case : Forall checked h_calls /\
  map (shows (hrun h_case h_calls)) [0; 1; 2; 3; 4]%nat =
  [Some (Some 0xAB, None, true); Some (None, Some [1; 2], true); Some (None, Some [1; 2], true);
   Some (Some 0xAB, None, true); Some (None, None, false)] /\
  nth_error (h_heap (hrun h_case h_calls)) 2 = Some (CVec false [6; 7]).
Proof. split; [repeat constructor|]. split; vm_compute; reflexivity. Qed.
Example C26_flag_case : let s := mkHst [0; 0; 1]%nat [CVec true [3; 4]; CWord true 5 0xFF] in
  map (shows (fst (hstep s (HValid 1 false)))) [0; 1; 2]%nat =
  [Some (None, None, false); Some (None, None, false); Some (Some 5, None, true)].
Proof. vm_compute. reflexivity. Qed.
Example C26_assigned_case : exists s1, hstep h_case (HBind 2 1) = (s1, false) /\
  nth_error (h_vars h_case) 1 = Some 1%nat /\ nth_error (h_heap h_case) 1 <> None /\
  Forall (fun c => ~ rebinds 2 c /\ ~ rebinds 1 c) [HClear 2; HPush 1 7; HBind 0 2] /\
  shows (hrun s1 [HClear 2; HPush 1 7; HValid 1 true]) 2 = Some (None, Some [7], true).
Proof.
  eexists. split; [vm_compute; reflexivity|]. split; [reflexivity|]. split; [discriminate|].
  split; [repeat constructor; cbn; lia|]. vm_compute. reflexivity.
Qed.

Print Assumptions C26_immutable_partial.
Print Assumptions C26_copies_share.
Print Assumptions C26_assigned_share.
Print Assumptions C26_flag.
Print Assumptions C26_unset_refuted.
Print Assumptions C26_assign_refuted.
Print Assumptions C26_mask_refuted.
Print Assumptions C26_clear_refuted.
