(** C103: with a network and a device that do nothing wrong, dispatch() raises no
    exception and returns (UDP and TCP transports, timeout not zero). *)
From Coq Require Import NArith ZArith List Bool Lia PeanoNat ZifyBool ZifyNat ZifyN.
From Verif Require Import Word Udp UdpProofs Prop_Udp CalmUdp.
From Verif Require Tcp TcpProofs TcpProofs2 Prop_Tcp CalmTcp.
Import ListNotations.
Open Scope N_scope.
Ltac Zify.zify_post_hook ::= Z.div_mod_to_equations.

(** The specification is at the head of [CalmUdp.v] and [CalmTcp.v]: [fine] and
    [tfine_run] say what the network and the device do right, [at_rest] and
    [tat_rest] where the execution starts (a new client, or one that has handled
    an exception with no callback outstanding), [calm] and [tcalm] that a part of
    the history contains neither a stored failure nor an exception. *)

(** ** UDP *)

(** States reached from rest with a network that does nothing wrong. *)
Definition calmly max (s : ust) : Prop :=
  exists s0 ls, reached max false s0 /\ at_rest s0 /\ Forall fine ls /\ urun max false s0 ls = Some s.

(** In any schedule of the two threads, no failure is stored, no exception
    raised, no null pointer dereferenced and the exception handler not entered. *)
Theorem C103_udp : forall max s0 ls s, 1 <= max -> max < W32 -> reached max false s0 -> at_rest s0 ->
  Forall fine ls -> urun max false s0 ls = Some s ->
  (exists e, u_tr s = u_tr s0 ++ e /\ calm e) /\ u_exc s = false /\ u_ub s = false /\
  (u_user s = UIdle \/ u_user s = UWait \/ u_user s = UWake).
Proof.
  intros max s0 ls s A B R Q F E. destruct (sound_run max ls s0 s (rest_sound max s0 A B R Q) F E) as (D & C). destruct D. auto.
Qed.

Lemma calmly_sound max s : 1 <= max -> max < W32 -> calmly max s -> sound s /\ reached max false s.
Proof.
  intros A B (s0 & ls & R & Q & F & E). assert (D := rest_sound max s0 A B R Q).
  split; [exact (proj1 (sound_run max ls s0 s D F E))|]. exact (sound_reached max ls s0 s R D F E).
Qed.
Lemma calmly_more max s ls s' : calmly max s -> Forall fine ls -> urun max false s ls = Some s' -> calmly max s'.
Proof.
  intros (s0 & l0 & R & Q & F & E) F2 E2. exists s0, (l0 ++ ls). split; [exact R|]. split; [exact Q|]. split; [apply Forall_app; auto|].
  rewrite urun_app, E. exact E2.
Qed.

Lemma user_kept max zero : forall ls s s', Forall not_user ls -> urun max zero s ls = Some s' -> u_user s' = u_user s.
Proof.
  induction ls as [|l ls IH]; intros s s' F R; cbn [urun] in R; [congruence|]. inversion F as [|? ? F1 F2]; subst.
  destruct (ustep max zero s l) as [s1|] eqn:ST; [|discriminate]. rewrite (IH _ _ F2 R). clear IH R. destruct s. unfold ustep in ST. recs.
  destruct u_ub; [discriminate|]. destruct l; try contradiction F1.
  - destruct u_acts; [discriminate|]. injection ST as <-. reflexivity.
  - destruct u_actr, u_open; try discriminate. injection ST as <-. reflexivity.
  - destruct u_actr; [discriminate|]. injection ST as <-. reflexivity.
  - destruct u_io, u_fin; try discriminate. injection ST as <-. reflexivity.
  - destruct u_io; try discriminate. destruct (nth_error u_rdy i) as [[ok|err]|]; try discriminate; injection ST as <-.
    + unfold write_callback. recs. destruct u_exc; [reflexivity|]. destruct u_fin; [|reflexivity]. recs. destruct u_disp; [|reflexivity].
      destruct ok; recs; [|reflexivity]. destruct u_reply; recs; destruct u_queue; try reflexivity; recs; destruct (_ =? _); reflexivity.
    + unfold read_callback. recs. destruct u_exc; [reflexivity|]. destruct u_fin; reflexivity.
  - destruct u_io; try discriminate. injection ST as <-. unfold read_middle. recs. destruct u_reply; [|reflexivity]. destruct err; [reflexivity|]. destruct v; reflexivity.
  - destruct u_io; try discriminate. injection ST as <-. unfold read_end. recs. destruct u_exc; [reflexivity|].
    destruct u_rqueue, u_disp, u_queue; recs; try destruct (_ =? _)%N; reflexivity.
Qed.

(** While dispatch waits, something can be done, or the wait ends. *)
Lemma wait_progress max s' : 1 <= max -> max < W32 -> sound s' -> reached max false s' -> u_user s' = UWait ->
  (exists l, fine l /\ not_user l /\ ustep max false s' l <> None) \/
  (exists s2, urun max false s' [LWaited; LFlushed] = Some s2 /\ u_tr s2 = u_tr s' ++ [OReturn] /\
      let e := since_throw (u_tr s') in
      sents e = handed e /\ map c_pkt (checks e) = handed e /\ map c_dg (checks e) = recvd e /\ Forall (fun c => snd c = true) (checks e)).
Proof.
  intros A B D R U'.
  destruct D as [X UB US RD IO DS DR FI].
  destruct (u_io s') as [|err|] eqn:IOE.
  2:{ left. exists (LMiddle true). split; [exact I|]. split; [exact I|]. unfold ustep. rewrite UB, IOE. discriminate. }
  2:{ left. exists LEnd. split; [exact I|]. split; [exact I|]. unfold ustep. rewrite UB, IOE. discriminate. }
  destruct (u_rdy s') as [|c rd] eqn:RDE.
  2:{ left. exists (LCallback 0). split; [exact I|]. split; [exact I|]. unfold ustep. rewrite UB, IOE, RDE. discriminate. }
  destruct (u_acts s') as [|a] eqn:AE.
  2:{ left. exists (LSent true). split; [exact I|]. split; [exact I|]. unfold ustep. rewrite UB, AE. discriminate. }
  cbn [nS nR filter List.length io_busy] in DS, DR.
  destruct (u_actr s') as [|a] eqn:RE.
  2:{ left. exists (LDatagram []). split; [exact I|]. split; [exact I|]. unfold ustep. rewrite UB, RE.
      destruct (u_reply s'); [|cbn in DR; lia]. destruct FI as (_ & ->); [right; discriminate|]. discriminate. }
  right. destruct (u_disp s') eqn:DD; [cbn in DS; lia|]. destruct (u_reply s') eqn:RR; [cbn in DR; lia|].
  assert (M := w_mode _ _ _ (reached_inv _ _ _ A B R)). unfold mode in M. rewrite U', X in M. destruct M as [L Q DN WK].
  assert (DO := proj2 DN (conj DD RR)).
  assert (S1 : ustep max false s' LWaited = Some (put_user s' UWake)) by (unfold ustep; rewrite UB, U', DO; reflexivity).
  assert (S2 : ustep max false (put_user s' UWake) LFlushed = Some (see (put_user (put_user s' UWake) UIdle) OReturn)).
  { unfold ustep. cbn [put_user u_ub u_user u_exc]. rewrite UB, X. reflexivity. }
  eexists. split; [cbn [urun]; rewrite S1, S2; reflexivity|]. split; [reflexivity|].
  assert (R1 : reached max false (put_user s' UWake)).
  { destruct R as (l0 & R0 & Q0). exists (l0 ++ [LWaited]). split; [rewrite urun_app, R0; cbn [urun]; rewrite S1; reflexivity|].
    eapply quiet_app; [exact R0|exact Q0|]. cbn [quiet_handlers]. rewrite S1. split; [discriminate|exact I]. }
  destruct (C44_return_partial _ _ _ _ A B R1 S2 eq_refl) as (E1 & E2 & E3 & E4 & _). auto.
Qed.

(** A dispatch that waits returns: whatever the schedule, at most [steps_left]
    steps of the network and of the io_service thread are possible, and when no
    more is possible the wait ends and dispatch returns, every packet having been
    sent, answered and found valid. *)
Theorem C103_udp_returns : forall max s ls s', 1 <= max -> max < W32 -> calmly max s -> u_user s = UWait ->
  Forall fine ls -> Forall not_user ls -> urun max false s ls = Some s' ->
  (List.length ls <= steps_left s)%nat /\
  ((exists l, fine l /\ not_user l /\ ustep max false s' l <> None) \/
   (exists s2, urun max false s' [LWaited; LFlushed] = Some s2 /\ u_tr s2 = u_tr s' ++ [OReturn] /\
      let e := since_throw (u_tr s') in
      sents e = handed e /\ map c_pkt (checks e) = handed e /\ map c_dg (checks e) = recvd e /\ Forall (fun c => snd c = true) (checks e))).
Proof.
  intros max s ls s' A B C U F NU E. split; [assert (T := C44_terminates _ _ _ _ _ E NU); lia|].
  assert (U' := user_kept _ _ _ _ _ NU E). rewrite U in U'. destruct (calmly_sound max s' A B (calmly_more _ _ _ _ C F E)) as (D & R).
  apply wait_progress; assumption.
Qed.

(** ** TCP *)
Import Tcp TcpProofs TcpProofs2 Prop_Tcp CalmTcp.

Definition tcalmly bytes room nr max (s : tcp) : Prop :=
  exists s0 ls, treached bytes room nr max false s0 /\ tat_rest s0 /\ tfine_run bytes room nr max s0 ls /\ krun bytes room nr max false s0 ls = Some s.

Theorem C103_tcp : forall bytes room nr max s0 ls s, limits nr max -> short4 bytes nr ->
  treached bytes room nr max false s0 -> tat_rest s0 ->
  tfine_run bytes room nr max s0 ls -> krun bytes room nr max false s0 ls = Some s ->
  (exists e, k_tr s = k_tr s0 ++ e /\ tcalm e) /\ k_exc s = false /\
  (k_user s = UIdle \/ k_user s = UWait \/ k_user s = UWake).
Proof.
  intros bytes room nr max s0 ls s LI SH R Q F E. assert (NP := proj1 LI). assert (D0 := rest_tsound bytes room nr max NP SH s0 LI R Q).
  destruct (tsound_run bytes room nr max NP SH LI ls s0 s R D0 F E) as (D & _ & C). destruct D. auto.
Qed.

Lemma tcalmly_sound bytes room nr max s : limits nr max -> short4 bytes nr -> tcalmly bytes room nr max s ->
  tsound room s /\ treached bytes room nr max false s.
Proof.
  intros LI SH (s0 & ls & R & Q & F & E). assert (NP := proj1 LI). assert (D0 := rest_tsound bytes room nr max NP SH s0 LI R Q).
  destruct (tsound_run bytes room nr max NP SH LI ls s0 s R D0 F E) as (D & R' & _). auto.
Qed.
Lemma tfine_app bytes room nr max : forall a b s s1, krun bytes room nr max false s a = Some s1 -> tfine_run bytes room nr max s a -> tfine_run bytes room nr max s1 b ->
  tfine_run bytes room nr max s (a ++ b).
Proof.
  induction a as [|l a IH]; intros b s s1 R Q1 Q2; cbn [krun tfine_run app] in *; [injection R as <-; exact Q2|].
  destruct Q1 as (Q & Q1). split; [exact Q|]. destruct (kstep bytes room nr max false s l) as [s2|]; [|discriminate]. eapply IH; eassumption.
Qed.
Lemma tcalmly_more bytes room nr max s ls s' : tcalmly bytes room nr max s -> tfine_run bytes room nr max s ls -> krun bytes room nr max false s ls = Some s' ->
  tcalmly bytes room nr max s'.
Proof.
  intros (s0 & l0 & R & Q & F & E) F2 E2. exists s0, (l0 ++ ls). split; [exact R|]. split; [exact Q|]. split; [eapply tfine_app; eassumption|].
  rewrite krun_app, E. exact E2.
Qed.

Lemma tuser_kept bytes room nr max zero : forall ls s s', Forall tnot_user ls -> krun bytes room nr max zero s ls = Some s' -> k_user s' = k_user s.
Proof.
  assert (W : forall s, k_user (if want_write nr max s then twrite bytes nr zero s else s) = k_user s) by (intros s; destruct (want_write nr max s); reflexivity).
  induction ls as [|l ls IH]; intros s s' F R; cbn [krun] in R; [congruence|]. inversion F as [|? ? F1 F2]; subst.
  destruct (kstep bytes room nr max zero s l) as [s1|] eqn:ST; [|discriminate]. rewrite (IH _ _ F2 R). clear IH R. destruct l; try contradiction F1; cbn [kstep] in ST.
  - destruct (k_acts s); [discriminate|]. injection ST as <-. reflexivity.
  - destruct (k_actr s); [discriminate|]. injection ST as <-. reflexivity.
  - destruct (k_io s), (k_fin s); try discriminate. injection ST as <-. reflexivity.
  - destruct (k_io s); try discriminate. destruct (_ <=? _); [|discriminate]. injection ST as <-. unfold tread_body. destruct (_ || _); reflexivity.
  - destruct (k_io s); try discriminate. destruct (nth_error (k_rdy s) i) as [[err n|err n]|]; try discriminate; injection ST as <-.
    + unfold twrite_callback. destruct (k_exc _); [reflexivity|]. destruct (negb _); [reflexivity|]. destruct (_ || _); [reflexivity|]. rewrite W. destruct (k_reply _); reflexivity.
    + unfold tread_callback. destruct (k_exc _); [reflexivity|]. destruct (negb _); reflexivity.
  - destruct (k_io s); try discriminate. injection ST as <-. unfold tread_header. destruct (_ || _); reflexivity.
  - destruct (k_io s) as [| | |[|p c]|]; try discriminate. injection ST as <-. unfold tcheck. destruct v; reflexivity.
  - destruct (k_io s); try discriminate. injection ST as <-. unfold tread_end.
    set (s1 := match k_rqueue _ with [] => _ | _ => _ end). assert (E1 : k_user s1 = k_user s) by (unfold s1; krecs; destruct (k_rqueue s); reflexivity).
    clearbody s1. set (s2 := match k_disp s1 with [] => _ | _ => _ end). assert (E2 : k_user s2 = k_user s) by (unfold s2; destruct (k_disp s1); [rewrite W|]; exact E1).
    clearbody s2. destruct (k_disp s2), (k_reply s2); exact E2.
Qed.

Lemma twait_progress bytes room nr max s' : limits nr max -> short4 bytes nr -> tsound room s' -> treached bytes room nr max false s' -> k_user s' = UWait ->
  (exists l, tfine room s' l /\ tnot_user l /\ kstep bytes room nr max false s' l <> None) \/
  (exists s2, krun bytes room nr max false s' [KWaited; KFlushed] = Some s2 /\ k_tr s2 = k_tr s' ++ [TReturn] /\
      let e := tsince (k_tr s') in
      concat (chunks e) = thanded e /\ trecvd e = List.length (chunks e) /\ map fst (tchecks e) = thanded e /\ Forall (fun c => snd c = true) (tchecks e)).
Proof.
  intros LI SH D R U'.
  destruct D as [X US RD IO RM DS DR FI CN].
  assert (M := w_mode _ _ _ _ (treached_inv _ _ _ _ _ _ LI R)). unfold tmode in M. rewrite U', X in M. destruct M as [L0 BO Q DN WK FL DRN].
  destruct (k_io s') as [|err n|c|c|] eqn:IOE.
  2:{ left. exists KMiddle. split; [exact I|]. split; [exact I|]. cbn [kstep]. rewrite IOE. discriminate. }
  2:{ left. exists (KBody false (k_rcnt s')). split; [split; reflexivity|]. split; [exact I|]. cbn [kstep]. rewrite IOE.
      assert (Z : (k_rcnt s' <=? reply_room room c) = true) by (apply N.leb_le; exact IO). rewrite Z. discriminate. }
  2:{ left. exists (KValidate true). split; [exact I|]. split; [exact I|]. cbn [kstep]. rewrite IOE. destruct c; [|discriminate].
      destruct L0. destruct v_old as (? & ? & _ & _ & _ & P). unfold io_part in P. rewrite IOE in P. destruct P; congruence. }
  2:{ left. exists KLast. split; [exact I|]. split; [exact I|]. cbn [kstep]. rewrite IOE. discriminate. }
  destruct (k_rdy s') as [|c rd] eqn:RDE.
  2:{ left. exists (KCallback 0). split; [exact I|]. split; [exact I|]. cbn [kstep]. rewrite IOE, RDE. discriminate. }
  destruct (k_acts s') as [|a] eqn:AE.
  2:{ left. exists (KSentBytes false (last_len (k_tr s'))). split; [split; reflexivity|]. split; [exact I|]. cbn [kstep]. rewrite AE. discriminate. }
  cbn [kS kR filter List.length busy] in DS, DR.
  destruct (k_actr s') as [|a] eqn:RE.
  2:{ left. exists (KHeader false 4 0). split; [split; [reflexivity|split; [reflexivity|apply N.le_0_l]]|]. split; [exact I|]. cbn [kstep]. rewrite RE. discriminate. }
  right. rewrite len_ne in DS, DR. destruct (k_disp s') eqn:DD; [|lia]. destruct (k_reply s') eqn:RR; [|lia].
  assert (DO := proj2 DN (conj eq_refl eq_refl)).
  assert (S1 : kstep bytes room nr max false s' KWaited = Some (tput_user s' UWake)) by (cbn [kstep]; rewrite U', DO; reflexivity).
  assert (S2 : kstep bytes room nr max false (tput_user s' UWake) KFlushed = Some (tsee (tput_user (tput_user s' UWake) UIdle) TReturn)).
  { cbn [kstep tput_user k_user k_exc]. rewrite X. reflexivity. }
  eexists. split; [cbn [krun]; rewrite S1, S2; reflexivity|]. split; [reflexivity|].
  assert (R1 : treached bytes room nr max false (tput_user s' UWake)) by (eapply treached_step; [exact (proj1 LI)|exact SH|exact R|congruence|exact S1]).
  destruct (C65_return_partial _ _ _ _ _ _ _ LI R1 S2 eq_refl) as (E1 & E2 & E3 & E4 & _). auto.
Qed.

Theorem C103_tcp_returns : forall bytes room nr max s ls s', limits nr max -> short4 bytes nr -> tcalmly bytes room nr max s -> k_user s = UWait ->
  tfine_run bytes room nr max s ls -> Forall tnot_user ls -> krun bytes room nr max false s ls = Some s' ->
  (List.length ls <= tsteps_left s)%nat /\
  ((exists l, tfine room s' l /\ tnot_user l /\ kstep bytes room nr max false s' l <> None) \/
   (exists s2, krun bytes room nr max false s' [KWaited; KFlushed] = Some s2 /\ k_tr s2 = k_tr s' ++ [TReturn] /\
      let e := tsince (k_tr s') in
      concat (chunks e) = thanded e /\ trecvd e = List.length (chunks e) /\ map fst (tchecks e) = thanded e /\ Forall (fun c => snd c = true) (tchecks e))).
Proof.
  intros bytes room nr max s ls s' LI SH C U F NU E. split; [assert (T := C65_terminates _ _ _ _ _ _ _ _ (proj1 LI) E NU); lia|].
  assert (U' := tuser_kept _ _ _ _ _ _ _ _ NU E). rewrite U in U'. destruct (tcalmly_sound _ _ _ _ s' LI SH (tcalmly_more _ _ _ _ _ _ _ C F E)) as (D & R).
  apply twait_progress; assumption.
Qed.

(** *** Examples *)

(** UDP, limit 1: after a timeout and its handler, two packets are dispatched;
    the second waits until the first is answered. *)
Definition raised_run : list ulabel :=
  [LDispatch 1; LSent true; LCallback 0; LFlush; LDeadline; LCallback 0; LWaited; LFlushed; LHandler; LHandler; LHandler; LHandler]%nat.
Definition calm_run : list ulabel := [LDispatch 7; LDispatch 8; LSent true; LCallback 0; LFlush]%nat.
Example C103_udp_case : exists s0 s, reached 1 false s0 /\ at_rest s0 /\ In OThrow (u_tr s0) /\ Forall fine calm_run /\ urun 1 false s0 calm_run = Some s /\
  calmly 1 s /\ u_user s = UWait /\ u_done s = false /\ steps_left s = 27%nat /\
  exists s', urun 1 false s [LDatagram [1%N]; LCallback 0; LMiddle true; LEnd; LSent true; LCallback 0; LDatagram [2%N]; LCallback 0; LMiddle true; LEnd]%nat = Some s' /\
    u_done s' = true.
Proof.
  assert (R : exists s0, urun 1 false init_udp raised_run = Some s0 /\
     reached 1 false s0 /\ at_rest s0 /\ In OThrow (u_tr s0) /\ exists s, urun 1 false s0 calm_run = Some s /\ u_user s = UWait /\ u_done s = false /\ steps_left s = 27%nat /\
     exists s', urun 1 false s [LDatagram [1%N]; LCallback 0; LMiddle true; LEnd; LSent true; LCallback 0; LDatagram [2%N]; LCallback 0; LMiddle true; LEnd]%nat = Some s' /\ u_done s' = true).
  { eexists. split; [vm_compute; reflexivity|]. split; [exists raised_run; split; [vm_compute; reflexivity|vm_compute; repeat split; try discriminate; intros; repeat split; try discriminate]|].
    split; [vm_compute; repeat split|]. split; [vm_compute; tauto|]. eexists. split; [vm_compute; reflexivity|]. repeat split. eexists. split; vm_compute; reflexivity. }
  destruct R as (s0 & _ & R & Q & T & s & E & U & D & L & S). assert (F : Forall fine calm_run) by (unfold calm_run; repeat constructor).
  exists s0, s. repeat (split; [assumption|]). split; [exists s0, calm_run; auto|]. auto.
Qed.

(** TCP through the ControlHub: four packets in two chunks, and the bytes they
    take. *)
Lemma exbytes_short4 : short4 exbytes 3.
Proof. exists 8. split; [intros p; unfold psize, exbytes; rewrite repeat_length; lia|unfold W32; lia]. Qed.
Definition tcalm_run : list tlab :=
  [KDispatch 5; KDispatch 6; KDispatch 7; KDispatch 8; KFlush; KSentBytes false 28; KCallback 0; KHeader false 4 402653184; KSentBytes false 12; KCallback 1;
   KCallback 0; KMiddle; KBody false 24; KValidate true; KValidate true; KValidate true; KLast]%nat.
Example C103_tcp_case : exists s, tat_rest init_tcp /\ treached exbytes (fun _ => 100) 3 60 false init_tcp /\ tfine_run exbytes (fun _ => 100) 3 60 init_tcp tcalm_run /\
  krun exbytes (fun _ => 100) 3 60 false init_tcp tcalm_run = Some s /\ tcalmly exbytes (fun _ => 100) 3 60 s /\ k_user s = UWait /\ k_done s = false /\
  tfine_run exbytes (fun _ => 100) 3 60 s [KHeader false 4 134217728; KCallback 0; KMiddle; KBody false 8; KValidate true; KLast] /\
  exists s', krun exbytes (fun _ => 100) 3 60 false s [KHeader false 4 134217728; KCallback 0; KMiddle; KBody false 8; KValidate true; KLast] = Some s' /\ k_done s' = true.
Proof.
  assert (Q : tat_rest init_tcp) by (vm_compute; repeat split).
  assert (R : treached exbytes (fun _ => 100) 3 60 false init_tcp) by (exists []; split; [reflexivity|exact I]).
  assert (F : tfine_run exbytes (fun _ => 100) 3 60 init_tcp tcalm_run) by (vm_compute; repeat split; discriminate).
  eexists. split; [exact Q|]. split; [exact R|]. split; [exact F|]. split; [vm_compute; reflexivity|].
  split; [exists init_tcp, tcalm_run; split; [exact R|]; split; [exact Q|]; split; [exact F|vm_compute; reflexivity]|].
  split; [reflexivity|]. split; [reflexivity|]. split; [vm_compute; repeat split; discriminate|]. eexists. split; vm_compute; reflexivity.
Qed.

(** The limits and the start of the theorems' hypotheses. *)
Example C103_start : limits 3 60 /\ short4 exbytes 3 /\ at_rest init_udp /\ reached 16 false init_udp.
Proof. split; [exact limits_hub|]. split; [exact exbytes_short4|]. split; [vm_compute; repeat split|]. exists []. split; [reflexivity|exact I]. Qed.

Print Assumptions C103_udp.
Print Assumptions C103_udp_returns.
Print Assumptions C103_tcp.
Print Assumptions C103_tcp_returns.
