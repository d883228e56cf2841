(** C83 and C84: a client together with its transport. *)
From Coq Require Import NArith ZArith List Bool Lia PeanoNat ZifyBool ZifyNat ZifyN.
From Verif Require Import Word Bits Header ValMem Client Validate Target Spec System Net.
From Verif Require Udp UdpProofs Tcp TcpProofs TcpProofs2 StackUdp StackTcp Prop_Udp Prop_Tcp.
From Verif Require Import Stack Prop_Valid StackProofs StackRun StackWire Prop_E2E.
Import ListNotations.
Open Scope N_scope.

(** The words of the specification, from [StackRun.v] and [StackProofs.v]:
    [passed] what passed between client and transport in an execution, [throws]
    the number of exceptions raised, [schecks] the packets checked with what was
    found in their reply buffers, [ends] the last event of an execution, [served]
    replies that come from a device taking the packets in this order. *)

(** ** UDP *)
Definition uexec max zero g := srun _ _ (Udp.ustep max zero) udp_passes udp_away Udp.u_exc g.
Definition upassed max zero g := passed _ _ (Udp.ustep max zero) udp_passes udp_away Udp.u_exc g.
Definition uchecks max zero g := schecks _ _ (Udp.ustep max zero) udp_passes udp_away Udp.u_exc g.
Definition uends max zero g := ends _ _ (Udp.ustep max zero) udp_passes udp_away Udp.u_exc g.
Definition ustart : stack Udp.ust := mkStack init_half Udp.init_udp.
(** Callbacks outstanding at an exception run before the handler clears it. *)
Definition uquiet max zero (ls : list (slab Udp.ulabel)) : Prop := UdpProofs.quiet_handlers max zero Udp.init_udp (trans_of ls).

(** ** TCP *)
Definition texec bytes room nr max zero g := srun _ _ (Tcp.kstep bytes room nr max zero) tcp_passes tcp_away Tcp.k_exc g.
Definition tpassed bytes room nr max zero g := passed _ _ (Tcp.kstep bytes room nr max zero) tcp_passes tcp_away Tcp.k_exc g.
Definition tchecked bytes room nr max zero g := schecks _ _ (Tcp.kstep bytes room nr max zero) tcp_passes tcp_away Tcp.k_exc g.
Definition tends bytes room nr max zero g := ends _ _ (Tcp.kstep bytes room nr max zero) tcp_passes tcp_away Tcp.k_exc g.
Definition tstart : stack Tcp.tcp := mkStack init_half Tcp.init_tcp.
(** ... and mReplyQueue is empty then. *)
Definition tquiet bytes room nr max zero (ls : list (slab Tcp.tlab)) : Prop :=
  TcpProofs.clean_handlers bytes room nr max zero Tcp.init_tcp (trans_of ls).

(** ** The hypotheses of [StackRun.v] *)
Section Udp.
Variables (max : N) (zero : bool).
Hypothesis M1 : 1 <= max.
Hypothesis M2 : max < W32.
Definition uJ (s : Udp.ust) (d : dst) : Prop := UdpProofs.uinv max s (UdpProofs.since_throw (Udp.u_tr s)) /\ StackUdp.urel s d.
Lemma uJ_step t l t' d : uJ t d -> Udp.ustep max zero t l = Some t' -> calm t l ->
  exists d', drun d (udp_passes t l t') = Some d' /\ uJ t' d'.
Proof using M1 M2.
  intros (W & R) ST Q. destruct (StackUdp.urel_step max zero t l t' d M1 W R ST Q) as (d' & D & R'). exists d'. split; [exact D|].
  split; [|exact R']. apply (UdpProofs.step_inv max zero t l t' M1 M2 W ST Q).
Qed.
Lemma uJ_fail t d : uJ t d -> udp_away t = true -> Udp.u_exc t = d_fail d.
Proof using. intros (_ & [F _ _]) A. unfold udp_away in A. destruct (Udp.u_user t); try discriminate. symmetry. apply F. reflexivity. Qed.
Lemma uJ_init : uJ Udp.init_udp init_d.
Proof using M1. split; [apply UdpProofs.init_inv, M1|apply StackUdp.urel_init]. Qed.
End Udp.

Section Tcp.
Variables (bytes : Udp.pkt -> list N) (room : Udp.pkt -> N) (nr : nat) (max : N) (zero : bool).
Hypothesis LM : Prop_Tcp.limits nr max.
Definition tJ (s : Tcp.tcp) (d : dst) : Prop := TcpProofs2.tinv nr max s (TcpProofs.tsince (Tcp.k_tr s)) /\ StackTcp.trel s d.
Lemma tJ_step t l t' d : tJ t d -> Tcp.kstep bytes room nr max zero t l = Some t' -> tcalm t l ->
  exists d', drun d (tcp_passes t l t') = Some d' /\ tJ t' d'.
Proof using LM.
  destruct LM as (L1 & L2 & L3 & L4).
  intros (W & R) ST Q. destruct (StackTcp.trel_step bytes room nr max zero L1 L2 t l t' d W R ST Q) as (d' & D & R'). exists d'. split; [exact D|].
  split; [|exact R']. eapply TcpProofs2.step_tinv; eassumption.
Qed.
Lemma tJ_fail t d : tJ t d -> tcp_away t = true -> Tcp.k_exc t = d_fail d.
Proof using. intros (_ & [F _ _]) A. unfold tcp_away in A. destruct (Tcp.k_user t); try discriminate. symmetry. apply F. reflexivity. Qed.
Lemma tJ_init : tJ Tcp.init_tcp init_d.
Proof using LM bytes room. destruct LM as (L1 & L2 & L3 & L4). split; [apply TcpProofs2.init_tinv; assumption|apply StackTcp.trel_init]. Qed.
End Tcp.

Lemma ugood max zero g ls k : uexec max zero g ustart ls = Some k -> uquiet max zero ls ->
  sgood _ _ (Udp.ustep max zero) udp_passes udp_away Udp.u_exc g calm ustart ls.
Proof. intros R Q. apply (proj2 (udp_calm max zero g ls ustart k R)). exact Q. Qed.
Lemma tgood bytes room nr max zero g ls k : texec bytes room nr max zero g tstart ls = Some k -> tquiet bytes room nr max zero ls ->
  sgood _ _ (Tcp.kstep bytes room nr max zero) tcp_passes tcp_away Tcp.k_exc g tcalm tstart ls.
Proof. intros R Q. apply (proj2 (tcp_calm bytes room nr max zero g ls tstart k R)). exact Q. Qed.

Lemma uexec_app max zero g a k b : uexec max zero g k (a ++ b) = match uexec max zero g k a with Some z => uexec max zero g z b | None => None end.
Proof. apply srun_app. Qed.
Lemma texec_app bytes room nr max zero g a k b : texec bytes room nr max zero g k (a ++ b) =
  match texec bytes room nr max zero g k a with Some z => texec bytes room nr max zero g z b | None => None end.
Proof. apply srun_app. Qed.

(** ** C83 *)

(** Every execution of a client over UDP is an execution over the abstract network
    of [Net.v] with the same calls, the same packets checked against the same
    replies, the same handles, and - outside calls - the same state of the client
    and number of exceptions.  Hence all theorems about [Net.v] apply.
    Partial: quiet handlers only, see [C84_stale_refuted]. *)
Theorem C83_udp_partial : forall max zero g ls k, 1 <= max -> max < W32 ->
  uexec max zero g ustart ls = Some k -> uquiet max zero ls ->
  exists nls y, nrun g init_net nls = Some y /\ ncalls nls = scalls ls /\ nreplies g init_net nls = uchecks max zero g ustart ls /\
    n_bad y = a_bad (k_half k) /\ s_heap (n_c y) = s_heap (a_c (k_half k)) /\
    (outside (k_half k) = true ->
       s_ctr (n_c y) = s_ctr (a_c (k_half k)) /\ s_cur (n_c y) = s_cur (a_c (k_half k)) /\
       n_wait y = false /\ n_exc y = throws (upassed max zero g ustart ls)).
Proof.
  intros max zero g ls k M1 M2 R Q.
  destruct (stack_net _ _ (Udp.ustep max zero) udp_passes udp_away Udp.u_exc g calm (uJ max) (uJ_step max zero M1 M2) (uJ_fail max) Udp.init_udp (uJ_init max M1) ls k R (ugood _ _ _ _ _ R Q))
    as (nls & y & A & B & C & D & E & F).
  exists nls, y. repeat (split; [assumption|]). intros O. destruct (F O) as ((S1 & S2 & _) & W & X). auto.
Qed.
(** The same over TCP. *)
Theorem C83_tcp_partial : forall bytes room nr max zero g ls k, Prop_Tcp.limits nr max ->
  texec bytes room nr max zero g tstart ls = Some k -> tquiet bytes room nr max zero ls ->
  exists nls y, nrun g init_net nls = Some y /\ ncalls nls = scalls ls /\ nreplies g init_net nls = tchecked bytes room nr max zero g tstart ls /\
    n_bad y = a_bad (k_half k) /\ s_heap (n_c y) = s_heap (a_c (k_half k)) /\
    (outside (k_half k) = true ->
       s_ctr (n_c y) = s_ctr (a_c (k_half k)) /\ s_cur (n_c y) = s_cur (a_c (k_half k)) /\
       n_wait y = false /\ n_exc y = throws (tpassed bytes room nr max zero g tstart ls)).
Proof.
  intros bytes room nr max zero g ls k LM R Q.
  destruct (stack_net _ _ (Tcp.kstep bytes room nr max zero) tcp_passes tcp_away Tcp.k_exc g tcalm (tJ nr max) (tJ_step bytes room nr max zero LM) (tJ_fail nr max) Tcp.init_tcp (tJ_init bytes room nr max LM) ls k R (tgood _ _ _ _ _ _ _ _ R Q))
    as (nls & y & A & B & C & D & E & F).
  exists nls, y. repeat (split; [assumption|]). intros O. destruct (F O) as ((S1 & S2 & _) & W & X). auto.
Qed.

(** Hence nothing undefined happens in the client, whatever arrives. *)
Theorem C83_udp_safe_partial : forall max zero g ls k, 1 <= max -> max < W32 -> cfg_ok g -> (forall o, In o (scalls ls) -> op_ok o) ->
  uexec max zero g ustart ls = Some k -> uquiet max zero ls -> a_bad (k_half k) = false.
Proof.
  intros max zero g ls k M1 M2 G OK R Q. destruct (C83_udp_partial max zero g ls k M1 M2 R Q) as (nls & y & A & B & _ & D & _).
  rewrite <- D. rewrite <- B in OK. exact (proj1 (C22_packets_in_flight g nls y G OK A)).
Qed.
Theorem C83_tcp_safe_partial : forall bytes room nr max zero g ls k, Prop_Tcp.limits nr max -> cfg_ok g -> (forall o, In o (scalls ls) -> op_ok o) ->
  texec bytes room nr max zero g tstart ls = Some k -> tquiet bytes room nr max zero ls -> a_bad (k_half k) = false.
Proof.
  intros bytes room nr max zero g ls k LM G OK R Q. destruct (C83_tcp_partial bytes room nr max zero g ls k LM R Q) as (nls & y & A & B & _ & D & _).
  rewrite <- D. rewrite <- B in OK. exact (proj1 (C22_packets_in_flight g nls y G OK A)).
Qed.

(** When dispatch() returns normally, all handles obtained since the last exception
    (those from [k1] on, if there was no exception after [k1]; all, if there was
    none at all) are valid, and keep their contents whatever happens later. *)
Theorem C83_udp_return_partial : forall max zero g ls1 k1 ls2 k2 c, 1 <= max -> max < W32 ->
  uexec max zero g ustart ls1 = Some k1 -> uexec max zero g k1 ls2 = Some k2 -> uquiet max zero (ls1 ++ ls2) ->
  throws (upassed max zero g k1 ls2) = 0%nat -> uends max zero g k1 ls2 VReturn ->
  (throws (upassed max zero g ustart ls1) = 0 \/ length (s_heap (a_c (k_half k1))) <= c)%nat ->
  (c < length (s_heap (a_c (k_half k2))))%nat ->
  exists x, nth_error (s_heap (a_c (k_half k2))) c = Some x /\ cell_valid x = true /\
    forall ls3 k3, uexec max zero g k2 ls3 = Some k3 -> uquiet max zero (ls1 ++ ls2 ++ ls3) ->
      nth_error (s_heap (a_c (k_half k3))) c = Some x.
Proof.
  intros max zero g ls1 k1 ls2 k2 c M1 M2 R1 R2 Q TH EN B LT.
  assert (R12 : uexec max zero g ustart (ls1 ++ ls2) = Some k2) by (rewrite uexec_app, R1; exact R2).
  destruct (stack_return _ _ (Udp.ustep max zero) udp_passes udp_away Udp.u_exc g calm (uJ max) (uJ_step max zero M1 M2) (uJ_fail max) Udp.init_udp (uJ_init max M1)
    ls1 k1 ls2 k2 c R1 R2 (ugood _ _ _ _ _ R12 Q) TH EN B LT) as (x & X1 & X2 & X3).
  exists x. split; [exact X1|]. split; [exact X2|]. intros ls3 k3 R3 Q3. apply (X3 ls3 k3 R3).
  assert (R123 : uexec max zero g ustart ((ls1 ++ ls2) ++ ls3) = Some k3) by (rewrite uexec_app, R12; exact R3).
  rewrite app_assoc in Q3. assert (GG := ugood _ _ _ _ _ R123 Q3). apply sgood_app in GG. unfold uexec in R12. rewrite R12 in GG. apply GG.
Qed.
Theorem C83_tcp_return_partial : forall bytes room nr max zero g ls1 k1 ls2 k2 c, Prop_Tcp.limits nr max ->
  texec bytes room nr max zero g tstart ls1 = Some k1 -> texec bytes room nr max zero g k1 ls2 = Some k2 -> tquiet bytes room nr max zero (ls1 ++ ls2) ->
  throws (tpassed bytes room nr max zero g k1 ls2) = 0%nat -> tends bytes room nr max zero g k1 ls2 VReturn ->
  (throws (tpassed bytes room nr max zero g tstart ls1) = 0 \/ length (s_heap (a_c (k_half k1))) <= c)%nat ->
  (c < length (s_heap (a_c (k_half k2))))%nat ->
  exists x, nth_error (s_heap (a_c (k_half k2))) c = Some x /\ cell_valid x = true /\
    forall ls3 k3, texec bytes room nr max zero g k2 ls3 = Some k3 -> tquiet bytes room nr max zero (ls1 ++ ls2 ++ ls3) ->
      nth_error (s_heap (a_c (k_half k3))) c = Some x.
Proof.
  intros bytes room nr max zero g ls1 k1 ls2 k2 c LM R1 R2 Q TH EN B LT.
  assert (R12 : texec bytes room nr max zero g tstart (ls1 ++ ls2) = Some k2) by (rewrite texec_app, R1; exact R2).
  destruct (stack_return _ _ (Tcp.kstep bytes room nr max zero) tcp_passes tcp_away Tcp.k_exc g tcalm (tJ nr max) (tJ_step bytes room nr max zero LM) (tJ_fail nr max) Tcp.init_tcp (tJ_init bytes room nr max LM)
    ls1 k1 ls2 k2 c R1 R2 (tgood _ _ _ _ _ _ _ _ R12 Q) TH EN B LT) as (x & X1 & X2 & X3).
  exists x. split; [exact X1|]. split; [exact X2|]. intros ls3 k3 R3 Q3. apply (X3 ls3 k3 R3).
  assert (R123 : texec bytes room nr max zero g tstart ((ls1 ++ ls2) ++ ls3) = Some k3) by (rewrite texec_app, R12; exact R3).
  rewrite app_assoc in Q3. assert (GG := tgood _ _ _ _ _ _ _ _ R123 Q3). apply sgood_app in GG. unfold texec in R12. rewrite R12 in GG. apply GG.
Qed.

(** ** C84 *)

(** From the beginning, or from an exception, up to a normal return of dispatch(): if
    the replies found in the buffers are those of a device that takes the packets
    one after the other, the device ends up in the state, and the new handles hold
    the values, that the calls would give one by one.  The packets checked are the
    packets sent since the exception, in the order they were sent.
    Partial: quiet handlers only, see [C84_stale_refuted]. *)
Theorem C84_udp_partial : forall max zero g D rd wr cf (d d' : D) ls1 k1 ls2 k2, 1 <= max -> max < W32 ->
  cfg_ok g -> Forall op_ok (scalls ls2) ->
  uexec max zero g ustart ls1 = Some k1 -> uexec max zero g k1 ls2 = Some k2 -> uquiet max zero (ls1 ++ ls2) ->
  ls1 = [] \/ uends max zero g ustart ls1 VThrow ->
  throws (upassed max zero g k1 ls2) = 0%nat -> uends max zero g k1 ls2 VReturn ->
  served D rd wr cf g d (uchecks max zero g k1 ls2) d' ->
  d' = fst (direct D rd wr cf (g_ver g) d (scalls ls2)) /\
  s_heap (a_c (k_half k2)) = s_heap (a_c (k_half k1)) ++ snd (direct D rd wr cf (g_ver g) d (scalls ls2)) /\
  map (nth_error (a_bufs (k_half k2))) (UdpProofs.sents (UdpProofs.since_throw (Udp.u_tr (k_trans k2)))) =
  map (fun c => Some (fst c)) (uchecks max zero g k1 ls2).
Proof.
  intros max zero g D rd wr cf d d' ls1 k1 ls2 k2 M1 M2 G OK R1 R2 Q ST TH EN SV.
  assert (R12 : uexec max zero g ustart (ls1 ++ ls2) = Some k2) by (rewrite uexec_app, R1; exact R2).
  destruct (stack_device _ _ (Udp.ustep max zero) udp_passes udp_away Udp.u_exc g calm (uJ max) (uJ_step max zero M1 M2) (uJ_fail max) Udp.init_udp (uJ_init max M1)
    D rd wr cf d d' ls1 k1 ls2 k2 G OK R1 R2 (ugood _ _ _ _ _ R12 Q) ST TH EN SV) as (A & B).
  split; [exact A|]. split; [exact B|]. clear A B SV OK G.
  unfold uchecks. rewrite (run_checks _ _ _ _ _ _ _ _ _ _ R2). f_equal.
  assert (FLS : forall l : Udp.ulabel, match l with Udp.LFlush => [VFlush] | _ => [] end = [] \/ match l with Udp.LFlush => [VFlush] | _ => [] end = [VFlush]) by (intros []; auto).
  assert (GR : forall t l t', Udp.ustep max zero t l = Some t' -> exists new, Udp.u_tr t' = Udp.u_tr t ++ new)
    by (intros t l t' H; destruct (utr_grows _ _ _ _ _ H) as (n & N & _); eauto).
  destruct (run_trace _ _ (Udp.ustep max zero) udp_passes udp_away Udp.u_exc g _ Udp.u_tr udp_event _ (fun t l t' => eq_refl) FLS GR ls2 k1 k2 R2) as (new & NW & CH & NT).
  fold (upassed max zero g k1 ls2) in CH, NT. rewrite TH in NT. unfold upassed in CH. rewrite CH, pchecks_udp.
  (* nothing since the exception before *)
  assert (S1 : UdpProofs.since_throw (Udp.u_tr (k_trans k1)) = []).
  { destruct ST as [->|(ms & l & ws & vs & z & -> & RZ & LV)]; [injection R1 as <-; reflexivity|].
    rewrite uexec_app in R1. unfold uexec in R1. rewrite RZ in R1. cbn [Stack.srun] in R1. cbn [Stack.passed] in LV.
    destruct (sstep _ _ _ _ _ _ g z (STrans l ws)) as [z'|] eqn:SS; [|discriminate]. injection R1 as ->. rewrite app_nil_r in LV.
    cbn [Stack.sstep] in SS. destruct (Udp.ustep max zero (k_trans z) l) as [t|] eqn:TS; [|discriminate]. destruct (aevents _ _ _ _); [|discriminate]. injection SS as <-.
    cbn [k_trans] in *. destruct (utr_grows _ _ _ _ _ TS) as (n1 & N1 & N2 & _).
    assert (I : In VThrow (udp_passes (k_trans z) l t)) by (rewrite LV; apply in_or_app; right; left; reflexivity).
    unfold udp_passes in I. rewrite N1 in I. replace (skipn (length (Udp.u_tr (k_trans z))) (Udp.u_tr (k_trans z) ++ n1)) with n1 in I by (symmetry; clear; induction (Udp.u_tr (k_trans z)); cbn; auto).
    apply in_app_or in I. destruct I as [I|I]; [destruct l; cbn in I; intuition discriminate|].
    apply in_flat_map in I. destruct I as (o & I1 & I2). assert (o = Udp.OThrow) as -> by (destruct o; cbn in I2; intuition discriminate).
    rewrite N1, (N2 I1). rewrite UdpProofs.since_snoc. reflexivity. }
  rewrite NW, since_more by (symmetry; exact NT). rewrite S1. cbn [app].
  (* the return *)
  destruct EN as (ms & l & ws & vs & z & E & RZ & LV). subst ls2. unfold uexec in R2. rewrite (srun_app _ _ _ _ _ _ _ _ _ _), RZ in R2. cbn [Stack.srun] in R2. cbn [Stack.passed] in LV.
  destruct (sstep _ _ _ _ _ _ g z (STrans l ws)) as [z'|] eqn:SS; [|discriminate]. injection R2 as ->. rewrite app_nil_r in LV.
  cbn [Stack.sstep] in SS. destruct (Udp.ustep max zero (k_trans z) l) as [t|] eqn:TS; [|discriminate]. destruct (aevents _ _ _ _); [|discriminate]. injection SS as <-.
  cbn [k_trans] in *. destruct (utr_grows _ _ _ _ _ TS) as (n1 & N1 & _ & N3).
  assert (I : In VReturn (udp_passes (k_trans z) l t)) by (rewrite LV; apply in_or_app; right; left; reflexivity).
  unfold udp_passes in I. rewrite N1 in I. replace (skipn (length (Udp.u_tr (k_trans z))) (Udp.u_tr (k_trans z) ++ n1)) with n1 in I by (symmetry; clear; induction (Udp.u_tr (k_trans z)); cbn; auto).
  apply in_app_or in I. destruct I as [I|I]; [destruct l; cbn in I; intuition discriminate|].
  apply in_flat_map in I. destruct I as (o & I1 & I2). assert (o = Udp.OReturn) as -> by (destruct o; cbn in I2; intuition discriminate).
  destruct (N3 I1) as (-> & ->).
  assert (RE : Prop_Udp.reached max zero (k_trans z)).
  { assert (RT : uexec max zero g ustart (ls1 ++ ms) = Some z) by (rewrite uexec_app, R1; exact RZ).
    exists (trans_of (ls1 ++ ms)). split; [apply (udp_trans max zero g _ _ _ RT)|].
    unfold uquiet in Q. clear - Q. unfold trans_of in *. rewrite app_assoc, flat_map_app in Q. revert Q. generalize (flat_map (fun l : slab Udp.ulabel => match l with SCall _ _ => [] | STrans l0 _ => [l0] end) (ls1 ++ ms)) Udp.init_udp.
    intros l. induction l as [|x l IH]; intros s Q; cbn [app UdpProofs.quiet_handlers] in *; [exact I|]. destruct Q as (Q1 & Q2). split; [exact Q1|].
    destruct (Udp.ustep max zero s x); [apply IH, Q2|exact I]. }
  destruct (Prop_Udp.C44_return_partial max zero _ _ M1 M2 RE TS N1) as (C1 & C2 & _).
  assert (NE : UdpProofs.since_throw (Udp.u_tr t) = new) by (rewrite NW, since_more, S1 by (symmetry; exact NT); reflexivity).
  rewrite N1, UdpProofs.since_snoc in NE. rewrite <- NE.
  unfold UdpProofs.sents, UdpProofs.checks in *. rewrite !flat_map_app. cbn. rewrite !app_nil_r. congruence.
Qed.
(** The same over TCP. *)
Theorem C84_tcp_partial : forall bytes room nr max zero g D rd wr cf (d d' : D) ls1 k1 ls2 k2, Prop_Tcp.limits nr max ->
  cfg_ok g -> Forall op_ok (scalls ls2) ->
  texec bytes room nr max zero g tstart ls1 = Some k1 -> texec bytes room nr max zero g k1 ls2 = Some k2 -> tquiet bytes room nr max zero (ls1 ++ ls2) ->
  ls1 = [] \/ tends bytes room nr max zero g tstart ls1 VThrow ->
  throws (tpassed bytes room nr max zero g k1 ls2) = 0%nat -> tends bytes room nr max zero g k1 ls2 VReturn ->
  served D rd wr cf g d (tchecked bytes room nr max zero g k1 ls2) d' ->
  d' = fst (direct D rd wr cf (g_ver g) d (scalls ls2)) /\
  s_heap (a_c (k_half k2)) = s_heap (a_c (k_half k1)) ++ snd (direct D rd wr cf (g_ver g) d (scalls ls2)) /\
  map (nth_error (a_bufs (k_half k2))) (concat (TcpProofs.chunks (TcpProofs.tsince (Tcp.k_tr (k_trans k2))))) =
  map (fun c => Some (fst c)) (tchecked bytes room nr max zero g k1 ls2).
Proof.
  intros bytes room nr max zero g D rd wr cf d d' ls1 k1 ls2 k2 LM G OK R1 R2 Q ST TH EN SV.
  assert (R12 : texec bytes room nr max zero g tstart (ls1 ++ ls2) = Some k2) by (rewrite texec_app, R1; exact R2).
  destruct (stack_device _ _ (Tcp.kstep bytes room nr max zero) tcp_passes tcp_away Tcp.k_exc g tcalm (tJ nr max) (tJ_step bytes room nr max zero LM) (tJ_fail nr max) Tcp.init_tcp (tJ_init bytes room nr max LM)
    D rd wr cf d d' ls1 k1 ls2 k2 G OK R1 R2 (tgood _ _ _ _ _ _ _ _ R12 Q) ST TH EN SV) as (A & B).
  split; [exact A|]. split; [exact B|]. clear A B SV OK G.
  unfold tchecked. rewrite (run_checks _ _ _ _ _ _ _ _ _ _ R2). f_equal.
  assert (FLS : forall l : Tcp.tlab, match l with Tcp.KFlush => [VFlush] | _ => [] end = [] \/ match l with Tcp.KFlush => [VFlush] | _ => [] end = [VFlush]) by (intros []; auto).
  assert (GR : forall t l t', Tcp.kstep bytes room nr max zero t l = Some t' -> exists new, Tcp.k_tr t' = Tcp.k_tr t ++ new)
    by (intros t l t' H; destruct (ktr_grows _ _ _ _ _ _ _ _ H) as (n & N & _); eauto).
  destruct (run_trace _ _ (Tcp.kstep bytes room nr max zero) tcp_passes tcp_away Tcp.k_exc g _ Tcp.k_tr tcp_event _ (fun t l t' => eq_refl) FLS GR ls2 k1 k2 R2) as (new & NW & CH & NT).
  fold (tpassed bytes room nr max zero g k1 ls2) in CH, NT. rewrite TH in NT. unfold tpassed in CH. rewrite CH, pchecks_tcp.
  (* nothing since the exception before *)
  assert (S1 : TcpProofs.tsince (Tcp.k_tr (k_trans k1)) = []).
  { destruct ST as [->|(ms & l & ws & vs & z & -> & RZ & LV)]; [injection R1 as <-; reflexivity|].
    rewrite texec_app in R1. unfold texec in R1. rewrite RZ in R1. cbn [Stack.srun] in R1. cbn [Stack.passed] in LV.
    destruct (sstep _ _ _ _ _ _ g z (STrans l ws)) as [z'|] eqn:SS; [|discriminate]. injection R1 as ->. rewrite app_nil_r in LV.
    cbn [Stack.sstep] in SS. destruct (Tcp.kstep bytes room nr max zero (k_trans z) l) as [t|] eqn:TS; [|discriminate]. destruct (aevents _ _ _ _); [|discriminate]. injection SS as <-.
    cbn [k_trans] in *. destruct (ktr_grows _ _ _ _ _ _ _ _ TS) as (n1 & N1 & N2 & _).
    assert (I : In VThrow (tcp_passes (k_trans z) l t)) by (rewrite LV; apply in_or_app; right; left; reflexivity).
    unfold tcp_passes in I. rewrite N1 in I. replace (skipn (length (Tcp.k_tr (k_trans z))) (Tcp.k_tr (k_trans z) ++ n1)) with n1 in I by (symmetry; clear; induction (Tcp.k_tr (k_trans z)); cbn; auto).
    apply in_app_or in I. destruct I as [I|I]; [destruct l; cbn in I; intuition discriminate|].
    apply in_flat_map in I. destruct I as (o & I1 & I2). assert (o = Tcp.TThrow) as -> by (destruct o; cbn in I2; intuition discriminate).
    rewrite N1, (N2 I1). rewrite TcpProofs.tsince_snoc. reflexivity. }
  rewrite NW, tsince_more by (symmetry; exact NT). rewrite S1. cbn [app].
  (* the return *)
  destruct EN as (ms & l & ws & vs & z & E & RZ & LV). subst ls2. unfold texec in R2. rewrite (srun_app _ _ _ _ _ _ _ _ _ _), RZ in R2. cbn [Stack.srun] in R2. cbn [Stack.passed] in LV.
  destruct (sstep _ _ _ _ _ _ g z (STrans l ws)) as [z'|] eqn:SS; [|discriminate]. injection R2 as ->. rewrite app_nil_r in LV.
  cbn [Stack.sstep] in SS. destruct (Tcp.kstep bytes room nr max zero (k_trans z) l) as [t|] eqn:TS; [|discriminate]. destruct (aevents _ _ _ _); [|discriminate]. injection SS as <-.
  cbn [k_trans] in *. destruct (ktr_grows _ _ _ _ _ _ _ _ TS) as (n1 & N1 & _ & N3).
  assert (I : In VReturn (tcp_passes (k_trans z) l t)) by (rewrite LV; apply in_or_app; right; left; reflexivity).
  unfold tcp_passes in I. rewrite N1 in I. replace (skipn (length (Tcp.k_tr (k_trans z))) (Tcp.k_tr (k_trans z) ++ n1)) with n1 in I by (symmetry; clear; induction (Tcp.k_tr (k_trans z)); cbn; auto).
  apply in_app_or in I. destruct I as [I|I]; [destruct l; cbn in I; intuition discriminate|].
  apply in_flat_map in I. destruct I as (o & I1 & I2). assert (o = Tcp.TReturn) as -> by (destruct o; cbn in I2; intuition discriminate).
  destruct (N3 I1) as (-> & ->).
  assert (RE : Prop_Tcp.treached bytes room nr max zero (k_trans z)).
  { assert (RT : texec bytes room nr max zero g tstart (ls1 ++ ms) = Some z) by (rewrite texec_app, R1; exact RZ).
    exists (trans_of (ls1 ++ ms)). split; [apply (tcp_trans bytes room nr max zero g _ _ _ RT)|].
    unfold tquiet in Q. clear - Q. unfold trans_of in *. rewrite app_assoc, flat_map_app in Q. revert Q. generalize (flat_map (fun l : slab Tcp.tlab => match l with SCall _ _ => [] | STrans l0 _ => [l0] end) (ls1 ++ ms)) Tcp.init_tcp.
    intros l. induction l as [|x l IH]; intros s Q; cbn [app TcpProofs.clean_handlers] in *; [exact I|]. destruct Q as (Q1 & Q2). split; [exact Q1|].
    destruct (Tcp.kstep bytes room nr max zero s x); [apply IH, Q2|exact I]. }
  destruct (Prop_Tcp.C65_return_partial bytes room nr max zero _ _ LM RE TS N1) as (C1 & _ & C2 & _).
  assert (NE : TcpProofs.tsince (Tcp.k_tr t) = new) by (rewrite NW, tsince_more, S1 by (symmetry; exact NT); reflexivity).
  rewrite N1, TcpProofs.tsince_snoc in NE. rewrite <- NE.
  unfold TcpProofs.chunks, TcpProofs.tchecks in *. rewrite !flat_map_app. cbn. rewrite !app_nil_r. congruence.
Qed.

(** In general a callback left over from before an exception hands the reply to an
    old packet to a new one.  The transaction counter starts again from 0 after an
    exception, so the old reply passes all checks: here reads of registers 100,
    101, 102 and 103 are dispatched (two packets) and the second send fails; then
    reads of registers 200, 201 and 202 are dispatched, dispatch() returns
    normally, and the handles hold the contents of registers 100, 101 and 102. *)
Definition mem_rd (d : unit) (a : N) : unit * N := (tt, 1000 + a).
Definition mem_wr (d : unit) (a x : N) : unit := tt.
Definition old_reply : list N := [0x200000F0; 0x20000100; 1100; 0x20010100; 1101; 0x20020100; 1102].
Definition stale_stack : list (slab Udp.ulabel) :=
  [SCall (Some (ORead 100 0xFFFFFFFF)) None; SCall (Some (ORead 101 0xFFFFFFFF)) None; SCall (Some (ORead 102 0xFFFFFFFF)) None;
   SCall (Some (ORead 103 0xFFFFFFFF)) None; STrans (Udp.LDispatch 0%nat) []; STrans (Udp.LSent true) []; STrans (Udp.LCallback 0) [];
   SCall None None; STrans (Udp.LDispatch 1%nat) []; STrans (Udp.LDatagram old_reply) []; STrans (Udp.LSent false) []; STrans (Udp.LCallback 1) [];
   STrans Udp.LFlush []; STrans Udp.LWaited []; STrans Udp.LFlushed []; STrans Udp.LHandler []; STrans Udp.LHandler []; STrans Udp.LHandler []; STrans Udp.LHandler [];
   SCall (Some (ORead 200 0xFFFFFFFF)) None; SCall (Some (ORead 201 0xFFFFFFFF)) None; SCall (Some (ORead 202 0xFFFFFFFF)) None;
   SCall None None; STrans (Udp.LDispatch 2%nat) []; STrans (Udp.LSent true) []; STrans (Udp.LCallback 1) []; STrans (Udp.LCallback 0) [];
   STrans (Udp.LMiddle true) old_reply; STrans Udp.LEnd []; STrans Udp.LFlush []; STrans Udp.LWaited []; STrans Udp.LFlushed []].
Theorem C84_stale_refuted : exists k b,
  uexec 16 false case_cfg ustart stale_stack = Some k /\
  nth_error (a_bufs (k_half k)) 0%nat = Some b /\ snd (fst (target_packet unit mem_rd mem_wr mem_rd case_cfg tt (b_send b))) = old_reply /\
  upassed 16 false case_cfg ustart stale_stack =
    [VHanded 0%nat; VHanded 1%nat; VFail; VFlush; VThrow; VHanded 2%nat; VCheck 2%nat true; VFlush; VReturn] /\
  skipn 4 (s_heap (a_c (k_half k))) = [CWord true 1100 0xFFFFFFFF; CWord true 1101 0xFFFFFFFF; CWord true 1102 0xFFFFFFFF].
Proof. eexists. eexists. split; [vm_compute; reflexivity|]. split; [vm_compute; reflexivity|]. vm_compute. repeat split. Qed.

(** Over TCP dispatch() can return although the last packets have not been answered
    (see [C65_return_refuted]): reads of registers 100 to 103 (two packets) fail;
    then reads of registers 200 to 203 are dispatched, dispatch() returns normally,
    and the handle of the last read holds nothing, so that value() raises. *)
Definition two_bytes (p : nat) : list N := repeat 0 (if Nat.even p then 28%nat else 12%nat).
Definition early_stack : list (slab Tcp.tlab) :=
  map (fun a => SCall (Some (ORead a 0xFFFFFFFF)) None) [100; 101; 102; 103] ++
  map (fun l => STrans l []) [Tcp.KDispatch 0; Tcp.KSentBytes false 32; Tcp.KCallback 0]%nat ++ [SCall None None] ++
  map (fun l => STrans l []) [Tcp.KDispatch 1; Tcp.KSentBytes false 16; Tcp.KCallback 0; Tcp.KFlush; Tcp.KHeader true 0 0; Tcp.KCallback 0; Tcp.KMiddle; Tcp.KWaited; Tcp.KFlushed;
    Tcp.KHandler; Tcp.KHandler; Tcp.KHandler; Tcp.KHandler]%nat ++
  map (fun a => SCall (Some (ORead a 0xFFFFFFFF)) None) [200; 201; 202; 203] ++
  map (fun l => STrans l []) [Tcp.KDispatch 2; Tcp.KSentBytes false 32; Tcp.KCallback 0]%nat ++ [SCall None None] ++
  map (fun l => STrans l []) [Tcp.KDispatch 3; Tcp.KSentBytes false 16; Tcp.KCallback 0; Tcp.KFlush; Tcp.KHeader false 4 0x1C000000; Tcp.KCallback 0; Tcp.KMiddle; Tcp.KBody false 28]%nat ++
  [STrans (Tcp.KValidate true) [0x200000F0; 0x20000100; 1200; 0x20010100; 1201; 0x20020100; 1202]; STrans Tcp.KLast []; STrans Tcp.KWaited []; STrans Tcp.KFlushed []].
Theorem C83_tcp_return_refuted : exists k, texec two_bytes (fun _ => 28) 1 16 false case_cfg tstart early_stack = Some k /\
  tpassed two_bytes (fun _ => 28) 1 16 false case_cfg tstart early_stack =
    [VHanded 0%nat; VHanded 1%nat; VFlush; VFail; VThrow; VHanded 2%nat; VHanded 3%nat; VFlush; VCheck 2%nat true; VReturn] /\
  map (fun b => length (two_bytes b)) [2; 3]%nat = map (fun b => 4 * length (b_send b))%nat (skipn 2 (a_bufs (k_half k))) /\
  skipn 4 (s_heap (a_c (k_half k))) = [CWord true 1200 0xFFFFFFFF; CWord true 1201 0xFFFFFFFF; CWord true 1202 0xFFFFFFFF; CWord false 0 0xFFFFFFFF].
Proof. eexists. split; [vm_compute; reflexivity|]. vm_compute. repeat split. Qed.

(** *** Examples *)

(** IPbus 2.0 over UDP with 32-byte packets: a read and a write are dispatched, the
    reply is lost, the exception reaches the user. *)
Definition lost_part : list (slab Udp.ulabel) :=
  [SCall (Some (ORead 100 0xFFFFFFFF)) None; SCall (Some (OWrite 7 8)) None; SCall None None; STrans (Udp.LDispatch 0%nat) []; STrans Udp.LFlush [];
   STrans (Udp.LSent true) []; STrans (Udp.LCallback 0) []; STrans Udp.LDeadline []; STrans (Udp.LCallback 0) []; STrans Udp.LWaited []; STrans Udp.LFlushed [];
   STrans Udp.LHandler []; STrans Udp.LHandler []; STrans Udp.LHandler []; STrans Udp.LHandler []].
(** Then a block read and an increment, in two packets; the reply to the first
    arrives while the second is made. *)
Definition good_part : list (slab Udp.ulabel) :=
  [SCall (Some (OReadBlock 100 6 false)) None; SCall (Some (ORmwSum 5 6)) None; STrans (Udp.LDispatch 1%nat) []; STrans (Udp.LSent true) []; STrans (Udp.LCallback 0) [];
   STrans (Udp.LDatagram [1]) []; STrans (Udp.LCallback 0) []; STrans (Udp.LMiddle true) [0x200000F0; 0x20000620; 5100; 6100; 7100; 8100; 9100; 10100]; STrans Udp.LEnd [];
   SCall None None; STrans (Udp.LDispatch 2%nat) []; STrans Udp.LFlush []; STrans (Udp.LSent true) []; STrans (Udp.LCallback 0) [];
   STrans (Udp.LDatagram [2]) []; STrans (Udp.LCallback 0) []; STrans (Udp.LMiddle true) [0x200000F0; 0x20010150; 11005]; STrans Udp.LEnd [];
   STrans Udp.LWaited []; STrans Udp.LFlushed []].
Example C84_udp_case : exists k1 k2,
  cfg_ok case_cfg /\ Forall op_ok (scalls good_part) /\
  uexec 16 false case_cfg ustart lost_part = Some k1 /\ uexec 16 false case_cfg k1 good_part = Some k2 /\ uquiet 16 false (lost_part ++ good_part) /\
  uends 16 false case_cfg ustart lost_part VThrow /\ throws (upassed 16 false case_cfg k1 good_part) = 0%nat /\ uends 16 false case_cfg k1 good_part VReturn /\
  served _ fifo_rd fifo_wr fifo_cf case_cfg (5, 9) (uchecks 16 false case_cfg k1 good_part) (12, 11020) /\
  s_heap (a_c (k_half k2)) =
    [CWord false 0 0xFFFFFFFF; CHdr false; CVec true [5100; 6100; 7100; 8100; 9100; 10100]; CWord true 11005 0xFFFFFFFF].
Proof.
  eexists. eexists. split; [unfold cfg_ok; cbn; repeat split; try lia; discriminate|]. split; [repeat constructor; cbn; lia|].
  split; [vm_compute; reflexivity|]. split; [vm_compute; reflexivity|].
  split; [vm_compute; repeat split; try discriminate; intros; repeat split; discriminate|].
  split; [exists (firstn 14 lost_part), Udp.LHandler, [], []; eexists; split; [reflexivity|]; split; [vm_compute; reflexivity|vm_compute; reflexivity]|].
  split; [vm_compute; reflexivity|].
  split; [exists (firstn 19 good_part), Udp.LFlushed, [], []; eexists; split; [reflexivity|]; split; [vm_compute; reflexivity|vm_compute; reflexivity]|].
  split; [|vm_compute; reflexivity].
  vm_compute. eexists. eexists. split; [reflexivity|]. eexists. eexists. split; reflexivity.
Qed.

(** Any words at all may be found in the reply buffers. *)
Definition garbage_part : list (slab Udp.ulabel) :=
  firstn 7 lost_part ++ [STrans (Udp.LDatagram [1]) []; STrans (Udp.LCallback 0) []; STrans (Udp.LMiddle false) [1; 2; 3]; STrans Udp.LEnd []; STrans Udp.LWaited []].
Example C83_udp_case : exists k, cfg_ok case_cfg /\ (forall o, In o (scalls garbage_part) -> op_ok o) /\
  uexec 16 false case_cfg ustart garbage_part = Some k /\ uquiet 16 false garbage_part /\
  upassed 16 false case_cfg ustart garbage_part = [VHanded 0%nat; VFlush; VCheck 0%nat false; VFail] /\ outside (k_half k) = false /\
  s_heap (a_c (k_half k)) = [CWord false 3 0xFFFFFFFF; CHdr false].
Proof.
  eexists. split; [unfold cfg_ok; cbn; repeat split; try lia; discriminate|].
  split; [apply Forall_forall; repeat constructor; cbn; lia|].
  split; [vm_compute; reflexivity|]. split; [vm_compute; repeat split; discriminate|]. vm_compute. repeat split.
Qed.

(** TCP, IPbus 2.0: the same two packets, without the lost one. *)
Definition tgood_part : list (slab Tcp.tlab) :=
  [SCall (Some (OReadBlock 100 6 false)) None; SCall (Some (ORmwSum 5 6)) None; STrans (Tcp.KDispatch 0%nat) []; STrans (Tcp.KSentBytes false 16) []; STrans (Tcp.KCallback 0) [];
   STrans (Tcp.KHeader false 4 0x20000000) []; STrans (Tcp.KCallback 0) []; STrans Tcp.KMiddle []; STrans (Tcp.KBody false 32) [];
   STrans (Tcp.KValidate true) [0x200000F0; 0x20000620; 5100; 6100; 7100; 8100; 9100; 10100]; STrans Tcp.KLast [];
   SCall None None; STrans (Tcp.KDispatch 1%nat) []; STrans Tcp.KFlush []; STrans (Tcp.KSentBytes false 20) []; STrans (Tcp.KCallback 0) [];
   STrans (Tcp.KHeader false 4 0x0C000000) []; STrans (Tcp.KCallback 0) []; STrans Tcp.KMiddle []; STrans (Tcp.KBody false 12) [];
   STrans (Tcp.KValidate true) [0x200000F0; 0x20010150; 11005]; STrans Tcp.KLast []; STrans Tcp.KWaited []; STrans Tcp.KFlushed []].
Definition tbytes (p : nat) : list N := repeat 0 (match p with O => 12%nat | _ => 16%nat end).
Example C84_tcp_case : exists k2,
  Prop_Tcp.limits 1 16 /\ cfg_ok case_cfg /\ Forall op_ok (scalls tgood_part) /\
  texec tbytes (fun _ => 32) 1 16 false case_cfg tstart tgood_part = Some k2 /\ tquiet tbytes (fun _ => 32) 1 16 false tgood_part /\
  throws (tpassed tbytes (fun _ => 32) 1 16 false case_cfg tstart tgood_part) = 0%nat /\ tends tbytes (fun _ => 32) 1 16 false case_cfg tstart tgood_part VReturn /\
  served _ fifo_rd fifo_wr fifo_cf case_cfg (5, 9) (tchecked tbytes (fun _ => 32) 1 16 false case_cfg tstart tgood_part) (12, 11020) /\
  s_heap (a_c (k_half k2)) = [CVec true [5100; 6100; 7100; 8100; 9100; 10100]; CWord true 11005 0xFFFFFFFF].
Proof.
  eexists. split; [apply Prop_Tcp.limits_v2|]. split; [unfold cfg_ok; cbn; repeat split; try lia; discriminate|]. split; [repeat constructor; cbn; lia|].
  split; [vm_compute; reflexivity|].
  split; [vm_compute; repeat split; try discriminate; intros; repeat split; discriminate|].
  split; [vm_compute; reflexivity|].
  split; [exists (firstn 23 tgood_part), Tcp.KFlushed, [], []; eexists; split; [reflexivity|]; split; [vm_compute; reflexivity|vm_compute; reflexivity]|].
  split; [|vm_compute; reflexivity].
  vm_compute. eexists. eexists. split; [reflexivity|]. eexists. eexists. split; reflexivity.
Qed.

Print Assumptions C83_udp_partial.
Print Assumptions C83_tcp_partial.
Print Assumptions C83_udp_safe_partial.
Print Assumptions C83_tcp_safe_partial.
Print Assumptions C83_udp_return_partial.
Print Assumptions C83_tcp_return_partial.
Print Assumptions C84_udp_partial.
Print Assumptions C84_tcp_partial.
Print Assumptions C84_stale_refuted.
Print Assumptions C83_tcp_return_refuted.
