(** C69: a flush of a PCIe or mmap client ends.  Model: [Ring.v]; specification:
    [RingSpec.v] and below. *)
From Coq Require Import NArith ZArith Lia List Bool Arith ZifyBool ZifyNat ZifyN.
From Verif Require Import Ring RingSpec RingProofs RingProofs2 Prop_Ring.
Import ListNotations.
Open Scope N_scope.
Ltac Zify.zify_post_hook ::= idtac.

(** * Specification *)

(** The steps client [p] makes in Flush. *)
Definition own_step (p : nat) (l : rlab) : Prop := l = LPoll p \/ l = LRead p \/ l = LUnlock p \/ l = LEnd p.
Definition own_stepb (p : nat) (l : rlab) : bool :=
  match l with LPoll q | LRead q | LUnlock q | LEnd q => Nat.eqb q p | _ => false end.
Definition own_steps (p : nat) (ls : list rlab) : nat := List.length (filter (own_stepb p) ls).

(** * Proofs *)

(** Steps of [p] still to be made before the last. *)
Definition todo (c : cst) : nat :=
  match c_pc c with
  | PWait KFlush => 2 * List.length (c_queue c) + 2
  | PRead KFlush => 2 * List.length (c_queue c) + 1
  | PUnlock => 1
  | _ => 0
  end.
Definition flushing (c : cst) : Prop :=
  match c_pc c with PWait KFlush | PRead KFlush | PUnlock | PEnd => True | _ => False end.

Lemma by_other g y l y' q p : rstep g y l = Some y' -> q <> p ->
  l = LPub \/ l = LConn q \/ (exists b, l = LDispatch q b) \/ l = LGo q \/ l = LLock q \/ l = LStart q \/ l = LWrite q \/
  l = LFlush q \/ l = LPoll q \/ l = LRead q \/ l = LUnlock q \/ l = LEnd q \/ l = LFail q ->
  y_cl y' p = y_cl y p.
Proof.
  intros S N H. assert (p <> q) by congruence.
  destruct H as [->|[->|[(b & ->)|[->|[->|[->|[->|[->|[->|[->|[->|[->| ->]]]]]]]]]]]];
    cbn [rstep] in S; cbv zeta in S;
    repeat match type of S with
    | match ?x with _ => _ end = Some _ => destruct x; try discriminate S
    | (if ?x then _ else _) = Some _ => destruct x; try discriminate S
    end; injection S as <-; yred; rewrite ?upd_other by assumption; try reflexivity.
Qed.

Lemma flush_step g y l y' p : rstep g y l = Some y' -> flushing (y_cl y p) ->
  l <> LFail p -> l <> LEnd p ->
  flushing (y_cl y' p) /\ (todo (y_cl y' p) + (if own_stepb p l then 1 else 0) <= todo (y_cl y p))%nat.
Proof.
  intros R F N1 N2.
  assert (O : forall q, q <> p -> own_stepb p l = false -> y_cl y' p = y_cl y p ->
    flushing (y_cl y' p) /\ (todo (y_cl y' p) + (if own_stepb p l then 1 else 0) <= todo (y_cl y p))%nat).
  { intros q _ E ->. rewrite E. split; [exact F|lia]. }
  destruct l as [q|q b|q|q|q|q|q|q|q|q|q|q|].
  13: { apply (O (S p)); [lia|reflexivity|]. eapply by_other with (q := S p); [exact R|lia|auto]. }
  all: destruct (Nat.eq_dec q p) as [->|NE];
    [|apply (O q); [exact NE|cbn; try reflexivity; destruct (Nat.eqb_spec q p); congruence|
        eapply by_other with (q := q); [exact R|exact NE|eauto 20]]].
  all: clear O; try congruence; unfold flushing, todo in *; cbn [rstep] in R; cbv zeta in R; cbn [own_stepb]; rewrite ?Nat.eqb_refl;
    destruct (c_pc (y_cl y p)) as [|? |? |? |? |k|k| |] eqn:P; try contradiction F; try discriminate R; try (destruct k; try contradiction F).
  - destruct (r_intr g p); [destruct (h_irq (y_hw y)); [|discriminate R]|destruct (eq32 _ _); [discriminate R|]];
      injection R as <-; yred; rewrite upd_same; yred; split; trivial; lia.
  - destruct (c_queue (y_cl y p)) as [|b t]; [discriminate R|]. injection R as <-. yred. rewrite upd_same.
    unfold enter_flush, enter_read. yred. cbn [List.length]. destruct t as [|b2 t]; yred; cbn [List.length]; [split; trivial; lia|].
    destruct (eq32 _ _); yred; cbn [List.length]; split; trivial; lia.
  - injection R as <-. yred. rewrite upd_same. yred. split; trivial.
Qed.

Lemma flush_run g p : forall ls y y', rrun g y ls = Some y' -> flushing (y_cl y p) ->
  ~ In (LFail p) ls -> ~ In (LEnd p) ls ->
  flushing (y_cl y' p) /\ (todo (y_cl y' p) + own_steps p ls <= todo (y_cl y p))%nat.
Proof.
  induction ls as [|l ls IH]; intros y y' R F N1 N2; cbn [rrun] in R.
  - injection R as <-. split; [exact F|]. cbn. lia.
  - destruct (rstep g y l) as [y1|] eqn:S; [|discriminate].
    destruct (flush_step g y l y1 p S F) as (F1 & T1); [intros ->; apply N1; now left|intros ->; apply N2; now left|].
    destruct (IH y1 y' R F1) as (F2 & T2); [intros H; apply N1; now right|intros H; apply N2; now right|].
    split; [exact F2|]. unfold own_steps in *. cbn [filter]. destruct (own_stepb p l); cbn [List.length] in *; lia.
Qed.

(** Whatever the other clients do, before and during the flush: the client makes
    at most two steps for each request in flight, and two more, before the last
    one; until then it can always make a step, at once or after the next reply of
    the hardware; and after the last step every reply has been read, and the
    session is over. *)
Theorem C69_inevitable_partial : forall g ls k n a r y p ls' y', 0 < r_pages g -> r_pages g < 2 ^ 32 ->
  (forall p, r_intr g p = false) ->
  rrun g (init_ring k n a r) ls = Some y ->
  c_pc (y_cl y p) = PIdle -> c_queue (y_cl y p) <> [] ->
  tidy (fun _ => false) (ls ++ LFlush p :: ls') -> calm g (init_ring k n a r) (ls ++ LFlush p :: ls') ->
  nstarts (ls ++ LFlush p :: ls') < 2 ^ 64 ->
  rrun g y (LFlush p :: ls') = Some y' -> ~ In (LFail p) ls' -> ~ In (LEnd p) ls' ->
  (own_steps p ls' <= 2 * List.length (c_queue (y_cl y p)) + 2)%nat /\
  ((exists l y2, own_step p l /\ rstep g y' l = Some y2) \/
   (exists y1 l y2, rstep g y' LPub = Some y1 /\ own_step p l /\ rstep g y1 l = Some y2)) /\
  (forall y2, rstep g y' (LEnd p) = Some y2 ->
     c_pc (y_cl y2 p) = PIdle /\ pend (y_tr y2) p = [] /\ y_active y2 = false /\ y_owner y2 <> Some p /\ pub_ok (y_tr y2)).
Proof.
  intros g ls k n a r y p ls' y' Hn Hb HI R P Q HT HC HS R' N1 N2.
  assert (RR : rrun g (init_ring k n a r) (ls ++ LFlush p :: ls') = Some y') by (rewrite (rrun_app g ls _ _ y R); exact R').
  destruct (run_linv g n k _ (fun _ => false) (init_ring k n a r) y' Hn Hb HI (linv_init g k n a r _) HT HC) as [L C]; auto.
  { cbn [init_ring y_count]. lia. }
  set (st := stale_after (fun _ => false) (ls ++ LFlush p :: ls')) in L. clearbody st. clear HT HC HS RR.
  cbn [rrun] in R'. destruct (rstep g y (LFlush p)) as [y0|] eqn:S0; [|discriminate].
  assert (F0 : flushing (y_cl y0 p) /\ (todo (y_cl y0 p) <= 2 * List.length (c_queue (y_cl y p)) + 2)%nat).
  { cbn [rstep] in S0. cbv zeta in S0. rewrite P in S0. destruct (c_queue (y_cl y p)) as [|b t] eqn:E; [contradiction|].
    injection S0 as <-. unfold flushing, todo, enter_flush, enter_read. yred. rewrite upd_same, E.
    destruct (eq32 _ _); yred; rewrite ?E; split; trivial; cbn [List.length]; lia. }
  destruct F0 as (F0 & T0). destruct (flush_run g p ls' y0 y' R' F0 N1 N2) as (F1 & T1).
  split; [lia|]. split.
  - unfold flushing in F1. pose proof L as [LR LE LX]. pose proof (ci_pc _ _ _ (LR p)) as Z. unfold cpc in Z.
    destruct (c_pc (y_cl y' p)) as [|? |? |? |? |kk|kk| |] eqn:P1; try contradiction F1; try (destruct kk; try contradiction F1).
    + destruct (N.lt_ge_cases (c_read (y_cl y' p)) (h_pub (y_hw y'))) as [Hlt|Hge].
      * left. destruct (poll_enabled g n k st y' p KFlush Hb Hn HI L P1 Hlt) as (y2 & S2 & _).
        exists (LPoll p), y2. split; [left; reflexivity|exact S2].
      * right.
        assert (Hs : insess (y_cl y' p) = true) by (eapply linv_insess_wait; eauto).
        destruct (x_in _ _ LX p Hs) as [X1 X2 X3 X4 X5].
        replace (N.to_nat (h_pub (y_hw y') - c_read (y_cl y' p))) with O in X3 by lia. cbn [skipn] in X3.
        destruct (c_queue (y_cl y' p)) as [|b q] eqn:Eq; [contradiction (Z eq_refl)|].
        assert (S1 : exists y1, rstep g y' LPub = Some y1 /\ c_pc (y_cl y1 p) = PWait KFlush /\
                     c_read (y_cl y1 p) < h_pub (y_hw y1)).
        { cbn [rstep]. cbv zeta. rewrite X3. eexists; split; [reflexivity|]. yred. repeat split; auto. lia. }
        destruct S1 as (y1 & S1 & A1 & A2).
        pose proof (linv_step g n k st y' LPub y1 Hn Hb HI L Logic.I Logic.I C S1) as L1. cbn [stale_next] in L1.
        destruct (poll_enabled g n k st y1 p KFlush Hb Hn HI L1 A1 A2) as (y2 & S2 & _).
        exists y1, (LPoll p), y2. split; [exact S1|]. split; [left; reflexivity|exact S2].
    + left. destruct (c_queue (y_cl y' p)) as [|b q] eqn:Eq; [contradiction (Z eq_refl)|].
      exists (LRead p). cbn [rstep]. cbv zeta. rewrite P1, Eq. eexists. split; [unfold own_step; tauto|reflexivity].
    + left. exists (LUnlock p). cbn [rstep]. cbv zeta. rewrite P1. eexists. split; [unfold own_step; tauto|reflexivity].
    + left. exists (LEnd p). cbn [rstep]. cbv zeta. rewrite P1. eexists. split; [unfold own_step; tauto|reflexivity].
  - intros y2 S2. cbn [rstep] in S2. cbv zeta in S2. destruct (c_pc (y_cl y' p)) eqn:P1; try discriminate S2.
    injection S2 as <-. yred. rewrite upd_same. yred. pose proof L as [LR LE LX].
    pose proof (ci_pc _ _ _ (LR p)) as Z. unfold cpc in Z. rewrite P1 in Z.
    split; [reflexivity|]. split.
    { rewrite (ci_pend _ _ _ (LR p)). apply qpages_nil.
      destruct (c_queue (y_cl y' p)) eqn:E; [reflexivity|]. exfalso.
      assert (c_lock (y_cl y' p) = true) by (apply (ci_q _ _ _ (LR p)); rewrite E; discriminate). congruence. }
    split; [reflexivity|]. split; [|apply (x_ok _ _ LX)].
    intros E. apply (ci_own _ _ _ (LR p)) in E. congruence.
Qed.

(** Two requests of client 0 in flight; client 1 comes and waits for the lock
    while client 0 is in Flush and has read the first reply. *)
Definition flush_before : list rlab := [LConn 0; LConn 1] ++ open_session 0 10 ++ more 0 11.
Definition flush_during : list rlab := [LDispatch 1 20; LPub; LPoll 0; LGo 1; LRead 0].

Example C69_case :
  match rrun (ring3 RPCIe true false 0) start3 flush_before with
  | Some y =>
      c_pc (y_cl y 0%nat) = PIdle /\ c_queue (y_cl y 0%nat) = [10%nat; 11%nat] /\
      tidy (fun _ => false) (flush_before ++ LFlush 0 :: flush_during) /\
      calm (ring3 RPCIe true false 0) start3 (flush_before ++ LFlush 0 :: flush_during) /\
      own_steps 0 flush_during = 2%nat /\
      option_map (fun z => (c_pc (y_cl z 0%nat), c_pc (y_cl z 1%nat), c_queue (y_cl z 0%nat)))
        (rrun (ring3 RPCIe true false 0) y (LFlush 0 :: flush_during)) =
        Some (PWait KFlush, PLock 20, [11%nat]) /\
      option_map (fun z => (c_pc (y_cl z 0%nat), c_queue (y_cl z 0%nat), y_owner z))
        (rrun (ring3 RPCIe true false 0) y
           (LFlush 0 :: flush_during ++ [LPub; LPoll 0; LRead 0; LUnlock 0; LEnd 0])) =
        Some (PIdle, [], None)
  | None => False
  end.
Proof. vm_compute. repeat (split; [reflexivity || exact I|]); auto 30. Qed.

Print Assumptions C69_inevitable_partial.
