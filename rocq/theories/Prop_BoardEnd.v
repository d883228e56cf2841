(** C95: dispatch() returns.  Clients that share a board through PCIe or mmap wait for
    one another, and for the hardware, but never for ever: whatever steps they and the
    hardware make, there are not many, and when none is left every dispatch() has
    returned. *)
From Verif Require Import Word Bits Header ValMem Client Validate Target Spec AtomicSpec System TargetRm Tx E2E Devices.
From Verif Require Import Shared SharedSpec E2ECor Prop_E2E Prop_Shared FullSim.
From Verif Require Import Ring RingSpec RingProofs RingProofs2 Board BoardSpec BoardProofs BoardProgress Prop_Board.
From Coq Require Import NArith ZArith List Lia Bool PeanoNat ZifyBool ZifyNat ZifyN.
Import ListNotations.
Open Scope N_scope.
Ltac Zify.zify_post_hook ::= idtac.

Lemma init_J D r k n a rep req page d0 st : J D r n k st (init_board D (init_ring k n a rep) req page d0).
Proof.
  split; [apply linv_init|]. split; [intros X; contradiction X; reflexivity|]. intros p. unfold al1. cbn. repeat split; auto; discriminate.
Qed.
Lemma busy_inside ps l : busy ps l -> inside1 ps l.
Proof. destruct l as [| |p|x]; cbn [busy inside1]; auto. destruct x; cbn [who]; auto. contradiction. Qed.
Lemma inside_busy ps l : inside1 ps l -> (forall p, l <> BRing (LFail p)) -> busy ps l.
Proof. intros H NF. destruct l as [| |p|x]; cbn [busy inside1] in *; auto. destruct x; cbn [who] in *; auto. exact (NF p eq_refl). Qed.

(** [ps]: clients that wait in dispatch(); if a client has the lock it is one of them.
    [n] bounds the number of steps; as long as one of [ps] waits a step can be made. *)
Theorem C95_progress_partial : forall D rd wr cf r g k c a rep req page d0 ls B ps,
  0 < r_pages r -> r_pages r < 2 ^ 32 -> (forall p, r_intr r p = false) ->
  (forall p, board_client (g p)) -> NoDup ps ->
  brun D rd wr cf r g (init_board D (init_ring k c a rep) req page d0) ls = Some B ->
  (forall p, In p ps -> bc_wait (bo_c D B p) = true) ->
  (forall q, y_owner (bo_ring D B) = Some q -> In q ps) ->
  exists n, forall ls' B', Forall (busy ps) ls' ->
    tidy (fun _ => false) (ring_of (ls ++ ls')) -> nstarts (ring_of (ls ++ ls')) < 2 ^ 64 ->
    brun D rd wr cf r g B ls' = Some B' ->
    (length ls' <= n)%nat /\
    ((forall p, In p ps -> bc_wait (bo_c D B' p) = false) \/
     exists l B'', busy ps l /\ bstep D rd wr cf r g B' l = Some B'').
Proof.
  intros D rd wr cf r g k c a rep req page d0 ls B ps Hn Hb HI G ND R WA OW.
  exists (work D B ps). intros ls' B' F T NS R'.
  assert (RO : ring_of (ls ++ ls') = ring_of ls ++ ring_of ls') by (unfold ring_of; apply flat_map_app).
  assert (T1 : tidy (fun _ => false) (ring_of ls)).
  { rewrite RO in T. clear - T. revert T. generalize (fun _ : nat => false). induction (ring_of ls) as [|x t IH]; intros st T; [exact Logic.I|]. cbn [app tidy] in *. destruct T as (T1 & T2). split; [exact T1|]. exact (IH _ T2). }
  assert (NA : forall x y, nstarts (x ++ y) = nstarts x + nstarts y).
  { induction x as [|z x IHx]; intros y; [reflexivity|]. cbn [app]. rewrite (nstarts_cons z), (nstarts_cons z x), IHx. lia. }
  rewrite RO, NA in NS.
  destruct (J_run D rd wr cf r g G Hn Hb HI c k ls _ _ B (init_J D r k c a rep req page d0 (fun _ => false)) R T1) as (st & JB & TB & CB).
  { cbn [init_board bo_ring init_ring y_count]. lia. }
  cbn [init_board bo_ring init_ring y_count] in CB.
  assert (KB : K D ps B). { split; [intros p IP; left; exact (WA p IP)|]. intros q OQ. split; [exact (OW q OQ)|]. apply WA, OW, OQ. }
  assert (F' : Forall (inside1 ps) ls') by (eapply Forall_impl; [|exact F]; apply busy_inside).
  destruct (bounded D rd wr cf r g G Hn Hb HI ps c k ND ls' st B B' JB KB F' R' (TB ls' T)) as (KB' & WK); [lia|].
  split; [lia|].
  destruct (J_run D rd wr cf r g G Hn Hb HI c k ls' st B B' JB R' (TB ls' T)) as (st' & JB' & _); [lia|].
  destruct (existsb (fun p => bc_wait (bo_c D B' p)) ps) eqn:EX.
  - right. apply existsb_exists in EX. destruct EX as (p & IP & WP). destruct (enabled D rd wr cf r g G Hn Hb HI ps c k st' B' p JB' KB' IP WP) as (l & B'' & IL & SL).
    exists l, B''. split; [|exact SL]. apply inside_busy; [exact IL|]. intros q ->. cbn [bstep] in SL. destruct (rstep _ _ _); discriminate.
  - left. intros p IP. destruct (bc_wait (bo_c D B' p)) eqn:E; [|reflexivity]. assert (X : existsb (fun p => bc_wait (bo_c D B' p)) ps = true) by (apply existsb_exists; eauto). congruence.
Qed.

(** In the run of [C94_case] both clients wait after 33 steps, client 0 with the lock
    and three pages' worth of packets in a ring of two; the rest of it are steps of
    theirs and of the hardware, and both dispatches return. *)
Example C95_case :
  option_map (fun B => (map (fun p => bc_wait (bo_c mem B p)) [0; 1]%nat, y_owner (bo_ring mem B)))
    (brun mem mem_rd mem_wr mem_cf ring2 bcfg (init_board mem (init_ring 7 5 false (fun _ => None)) (fun _ => [3; 4]) (fun _ => [1; 2]) (fun a => 1000 + a)) (firstn 33 bday)) = Some ([true; true], Some 0%nat) /\
  Forall (busy [0; 1]%nat) (skipn 33 bday) /\ length (skipn 33 bday) = 25%nat /\
  option_map (fun B => map (fun p => bc_wait (bo_c mem B p)) [0; 1]%nat) bday_end = Some [false; false].
Proof.
  split; [vm_compute; reflexivity|]. split; [repeat (constructor; [cbn; auto; fail|]); constructor|]. split; vm_compute; reflexivity.
Qed.

(** Without the condition on the lock it is false: a client that has filled a packet,
    and whose user does not call dispatch(), keeps all others waiting. *)
Definition bhold : list blabel :=
  [BOp 0 (OWriteBlock 200 [1; 2; 3; 4; 5; 6; 7; 8; 9; 10; 11; 12; 13; 14; 15; 16; 17] true)] ++
  rl ([LConn 0] ++ begins 0) ++ [BOp 1 (ORmwSum 7 100); BDispatch 1] ++ rl [LConn 1; LDispatch 1 0; LGo 1].
Lemma held D rd wr cf r g ps (p q : nat) : ~ In q ps -> In p ps -> forall ls B B', Forall (busy ps) ls -> brun D rd wr cf r g B ls = Some B' ->
  (forall x, In x ps -> x = p) -> y_owner (bo_ring D B) = Some q -> (exists b, c_pc (y_cl (bo_ring D B) p) = PLock b) -> bc_wait (bo_c D B p) = true -> bc_wait (bo_c D B' p) = true.
Proof.
  intros NQ IP. induction ls as [|l ls IH]; intros B B' F R ON OW (b & P) W; [cbn in R; injection R as <-; exact W|].
  inversion F as [|? ? F1 F2]; subst. cbn [brun] in R. destruct (bstep D rd wr cf r g B l) as [B1|] eqn:S; [|discriminate].
  destruct l as [x o|x|x|x]; try contradiction F1; cbn [bstep busy] in S, F1.
  - apply ON in F1. subst x. unfold outside in S. rewrite P, W in S. discriminate.
  - destruct (rstep r (bo_ring D B) x) as [y'|] eqn:RS; [|discriminate]. destruct x as [u|u v|u|u|u|u|u|u|u|u|u|u|]; try contradiction F1; try (apply ON in F1; subst u; cbn [rstep] in RS; cbv zeta in RS; rewrite P, ?OW in RS; discriminate).
    cbn [rstep] in RS. cbv zeta in RS. destruct (h_wait _); [discriminate|]. injection RS as <-. cbn [ring_step] in S. destruct (target_ipbus _ _ _ _ _ _ _) as ((d, w), ok). injection S as <-.
    apply (IH _ _ F2 R ON); cbn [bo_ring bo_c set_hw y_owner y_cl]; eauto.
Qed.
Theorem C95_holder_refuted : exists D rd wr cf r g k c a rep req page d0 ls B,
  0 < r_pages r /\ r_pages r < 2 ^ 32 /\ (forall p, r_intr r p = false) /\
  (forall p, board_client (g p)) /\ (forall p, Forall op_ok (calls (board_user p ls))) /\
  tidy (fun _ => false) (ring_of ls) /\ nstarts (ring_of ls) < 2 ^ 64 /\
  brun D rd wr cf r g (init_board D (init_ring k c a rep) req page d0) ls = Some B /\
  bc_wait (bo_c D B 0%nat) = false /\ bc_wait (bo_c D B 1%nat) = true /\
  forall ls' B', Forall (busy [1]%nat) ls' -> brun D rd wr cf r g B ls' = Some B' -> bc_wait (bo_c D B' 1%nat) = true.
Proof.
  exists mem, mem_rd, mem_wr, mem_cf, ring2, bcfg, 0, 0, false, (fun _ => None), (fun _ => []), (fun _ => []), mem0, bhold.
  assert (X : option_map (fun B => (bc_wait (bo_c mem B 0%nat), bc_wait (bo_c mem B 1%nat), y_owner (bo_ring mem B), c_pc (y_cl (bo_ring mem B) 1%nat))) (brun mem mem_rd mem_wr mem_cf ring2 bcfg (init_board mem (init_ring 0 0 false (fun _ => None)) (fun _ => []) (fun _ => []) mem0) bhold) = Some (false, true, Some 0%nat, PLock 0%nat)) by (vm_compute; reflexivity).
  destruct (brun _ _ _ _ _ _ _ bhold) as [B|]; [|discriminate]. exists B. injection X as X0 X1 X2 X3.
  split; [reflexivity|]. split; [reflexivity|]. split; [reflexivity|]. split; [apply C94_case_hyps|].
  split; [intros [|[|p]]; repeat constructor; cbn; lia|]. split; [vm_compute; tauto|]. split; [reflexivity|]. split; [reflexivity|]. split; [exact X0|]. split; [exact X1|].
  intros ls' B' F R. apply (held mem mem_rd mem_wr mem_cf ring2 bcfg [1%nat] 1 0) with (ls := ls') (B := B); eauto.
  - intros [Z|[]]. discriminate.
  - left. reflexivity.
  - intros x [<-|[]]. reflexivity.
Qed.

Print Assumptions C95_progress_partial.
Print Assumptions C95_holder_refuted.
