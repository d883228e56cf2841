(** C104: a client over UDP or TCP whose network does nothing wrong, with the
    replies of a device: dispatch() raises nothing and returns, and device and
    handles are as if the calls had been made one by one. *)
From Coq Require Import NArith ZArith List Bool Lia PeanoNat ZifyBool ZifyNat ZifyN.
From Verif Require Import Word Bits Header ValMem Client Validate Target Spec System Net.
From Verif Require Udp UdpProofs Tcp TcpProofs TcpProofs2 StackUdp StackTcp Prop_Udp Prop_Tcp CalmUdp CalmTcp Prop_Calm.
From Verif Require Import Stack Prop_Valid StackProofs StackRun StackWire Prop_E2E Prop_Stack StackCalm.
Import ListNotations.
Open Scope N_scope.

(** ** UDP *)

(** What the network does right: connect() succeeds, every datagram is sent in
    full, no receive fails, no deadline passes before its datagram is there.
    Nothing is said about the verdicts of validate(). *)
Definition okay (l : Udp.ulabel) : Prop :=
  match l with
  | Udp.LConnectFail | Udp.LSent false | Udp.LRecvErr | Udp.LDeadline => False
  | _ => True
  end.
(** So in every step of an execution; and no call announces that one of its
    packets is refused ([Stack.v]). *)
Definition usmooth (ls : list (slab Udp.ulabel)) : Prop :=
  Forall (fun l => match l with STrans l _ => okay l | SCall _ cut => cut = None end) ls.

Section Udp.
Import Udp UdpProofs Prop_Udp CalmUdp.
Definition uSnd max (s : ust) : Prop := sound s /\ reached max false s.

Lemma upasses max s l s' : sound s -> fine l -> ustep max false s l = Some s' ->
  udp_passes s l s' = [] \/ (exists p, udp_passes s l s' = [VCheck p true]) \/
  ~ not_user l /\ ((exists p, udp_passes s l s' = [VHanded p]) \/ udp_passes s l s' = [VFlush] \/ udp_passes s l s' = [VReturn]).
Proof.
  intros D F ST. destruct D. destruct s. unfold ustep in ST. recs. subst. destruct l; try contradiction F; unfold udp_passes; recs.
  - destruct u_user; try discriminate. injection ST as <-. right. right. split; [intros []|]. left. exists p. unfold implement_dispatch. recs.
    destruct u_disp as [d|]; recs; [StackUdp.news; reflexivity|]. destruct (_ =? _); recs; StackUdp.news; reflexivity.
  - destruct u_user; try discriminate. injection ST as <-. right. right. split; [intros []|]. right. left. recs. StackUdp.news. reflexivity.
  - destruct u_user, u_done; try discriminate. injection ST as <-. left. recs. StackUdp.news. reflexivity.
  - destruct u_user; try discriminate. injection ST as <-. right. right. split; [intros []|]. right. right. recs. StackUdp.news. reflexivity.
  - destruct u_user; try discriminate; destruct d_user as [H|[H|H]]; discriminate.
  - destruct u_acts; [discriminate|]. injection ST as <-. left. recs. StackUdp.news. reflexivity.
  - destruct u_actr, u_open; try discriminate. injection ST as <-. left. recs. StackUdp.news. reflexivity.
  - destruct u_io; try discriminate. destruct (nth_error u_rdy i) as [c|] eqn:NT; [|discriminate].
    destruct (drop_counts _ _ _ NT) as (C1 & C2 & _).
    assert (GC : good_c c) by (apply nth_error_In in NT; rewrite Forall_forall in d_rdy; auto).
    injection ST as <-. left. destruct GC as [-> | ->]; cbn [nS nR filter List.length] in C1, C2.
    + unfold write_callback. recs. destruct u_disp as [d|]; cbn [olist List.length] in d_s; [|lia].
      destruct d_fin as (-> & ->); [left; discriminate|]. recs.
      destruct u_reply as [r|]; recs; destruct u_queue as [|p q]; recs; try destruct (_ =? _); recs; StackUdp.news; reflexivity.
    + unfold read_callback. recs. destruct u_reply as [r|]; cbn [olist List.length] in d_r; [|lia].
      destruct d_fin as (-> & ->); [right; discriminate|]. recs. StackUdp.news. reflexivity.
  - destruct u_io as [|err|]; try discriminate. injection ST as <-. destruct err; [congruence|]. destruct v; [|contradiction F].
    unfold read_middle. recs. destruct u_reply as [r|]; cbn [olist List.length io_busy] in d_r; [|lia]. recs.
    right. left. exists r. StackUdp.news. reflexivity.
  - destruct u_io as [|err|]; try discriminate. injection ST as <-. left. unfold read_end. recs.
    destruct u_reply as [r|]; cbn [olist List.length io_busy] in d_r; [|lia].
    destruct d_fin as (-> & ->); [right; discriminate|].
    destruct u_rqueue as [|x rq], u_disp as [d|], u_queue as [|p q]; recs; try destruct (sub32 u_infl 1 =? max)%N; recs; StackUdp.news; reflexivity.
Qed.

Lemma uok_P max t l t' : uSnd max t -> okay l -> ustep max false t l = Some t' -> StackWire.calm t l.
Proof. intros ([] & _) _ _ _ U. destruct d_user as [H|[H|H]]; congruence. Qed.

Lemma uok_step max t l t' : uSnd max t -> okay l -> ustep max false t l = Some t' ->
  uSnd max t' /\ Forall benign (udp_passes t l t') \/ exists p r, udp_passes t l t' = VCheck p false :: r.
Proof.
  intros (S0 & R0) OK ST.
  assert (CASE : fine l \/ l = LMiddle false) by (destruct l as [| | | | | |[]| | | | |[]|]; cbn in *; auto).
  destruct CASE as [F| ->].
  - left. split.
    + split; [exact (proj1 (sound_step _ _ _ _ S0 F ST))|]. apply (sound_reached max [l] t t' R0 S0); [constructor; [exact F|constructor]|]. cbn [urun]. rewrite ST. reflexivity.
    + destruct (upasses max t l t' S0 F ST) as [-> |[(p & ->)|(_ & [(p & ->)|[-> | ->]])]]; repeat constructor.
  - right. destruct S0. destruct t. unfold ustep in ST. recs. subst. destruct u_io as [|err|]; try discriminate. injection ST as <-. destruct err; [congruence|].
    unfold read_middle, udp_passes. recs. destruct u_reply as [r|]; cbn [olist List.length io_busy] in d_r; [|lia]. recs. exists r, [VFail]. StackUdp.news. reflexivity.
Qed.

Notation usm max g := (smooth _ _ (ustep max false) udp_passes udp_away u_exc g (fun _ => okay)).
Lemma usmooth_smooth max g : forall ls k, usmooth ls -> usm max g k ls.
Proof.
  induction ls as [|l ls IH]; intros k F; cbn [smooth]; [exact I|]. inversion F as [|? ? F1 F2]; subst. split.
  - destruct l as [o cut|l ws]; [rewrite F1; exact I|exact F1].
  - destruct (sstep _ _ _ _ _ _ g k l); [apply IH; exact F2|exact I].
Qed.

Notation ucinv max g D rd wr cf := (cinv ust g (uJ max) (uSnd max) D rd wr cf).
Lemma ucalm max g D rd wr cf (d d' : D) ls1 k1 ls2 k2 : 1 <= max -> max < W32 -> cfg_ok g -> Forall op_ok (scalls ls2) ->
  uexec max false g ustart ls1 = Some k1 -> uquiet max false ls1 -> ls1 = [] \/ uends max false g ustart ls1 VThrow -> at_rest (k_trans k1) ->
  usmooth ls2 -> uexec max false g k1 ls2 = Some k2 -> served D rd wr cf g d (uchecks max false g k1 ls2) d' ->
  ucinv max g D rd wr cf (s_heap (a_c (k_half k1))) d k2 d' (scalls ls2) /\ Forall benign (upassed max false g k1 ls2) /\
  sgood _ _ (ustep max false) udp_passes udp_away u_exc g StackWire.calm k1 ls2.
Proof.
  intros M1 M2 G OK R1 Q ST AR SM R2 SV.
  assert (RE : reached max false (k_trans k1)) by (exists (trans_of ls1); split; [exact (udp_trans _ _ _ _ _ _ R1)|exact Q]).
  assert (S1 : uSnd max (k_trans k1)) by (split; [exact (rest_sound max _ M1 M2 RE AR)|exact RE]).
  assert (V := start_cinv ust ulabel (ustep max false) udp_passes udp_away u_exc g StackWire.calm (uJ max) (uJ_step max false M1 M2) (uJ_fail max) (uSnd max)
     D rd wr cf (s_heap (a_c (k_half k1))) d init_udp (uJ_init max M1) ls1 k1 R1 (ugood _ _ _ _ _ R1 Q) ST S1 eq_refl).
  exact (smooth_run ust ulabel (ustep max false) udp_passes udp_away u_exc g StackWire.calm (uJ max) (uJ_step max false M1 M2) (uJ_fail max) (fun _ => okay) (uSnd max)
     (uok_P max) (uok_step max) D rd wr cf G (s_heap (a_c (k_half k1))) d ls2 k1 d [] k2 d' V OK (usmooth_smooth max g ls2 k1 SM) R2 SV).
Qed.
End Udp.

(** From a new client, or from an exception whose callbacks have all run: if the
    network does nothing wrong and the replies are those of a device, every reply
    is found valid, no failure is stored and no exception raised, whatever the
    calls, the schedule of the threads and the device. *)
Theorem C104_udp : forall max g D rd wr cf (d d' : D) ls1 k1 ls2 k2, 1 <= max -> max < W32 -> cfg_ok g -> Forall op_ok (scalls ls2) ->
  uexec max false g ustart ls1 = Some k1 -> uquiet max false ls1 -> ls1 = [] \/ uends max false g ustart ls1 VThrow -> CalmUdp.at_rest (k_trans k1) ->
  usmooth ls2 -> uexec max false g k1 ls2 = Some k2 -> served D rd wr cf g d (uchecks max false g k1 ls2) d' ->
  (forall p, ~ In (VCheck p false) (upassed max false g k1 ls2)) /\
  ~ In VFail (upassed max false g k1 ls2) /\ ~ In VThrow (upassed max false g k1 ls2) /\ Udp.u_exc (k_trans k2) = false.
Proof.
  intros max g D rd wr cf d d' ls1 k1 ls2 k2 M1 M2 G OK R1 Q ST AR SM R2 SV.
  destruct (ucalm max g D rd wr cf d d' ls1 k1 ls2 k2 M1 M2 G OK R1 Q ST AR SM R2 SV) as (V & B & _). rewrite Forall_forall in B.
  split; [intros p I; exact (B _ I)|]. split; [intros I; exact (B _ I)|]. split; [intros I; exact (B _ I)|].
  destruct V as (? & ? & ? & ? & ? & _ & _ & (S2 & _) & _). exact (CalmUdp.d_exc _ S2).
Qed.

(** Steps of the network and of the io_service thread. *)
Definition uother (l : slab Udp.ulabel) : Prop := match l with STrans l _ => Prop_Udp.not_user l | SCall _ _ => False end.

(** A dispatch() that waits returns: whatever the schedule, only
    [Prop_Udp.steps_left] more steps of the network and of the io_service thread
    are possible; as long as the wait does not end one of them is possible, with the
    reply of the device; and when none is, dispatch() returns, the device is in the
    state and the new handles hold the values that the calls give one by one. *)
Theorem C104_udp_returns : forall max g D rd wr cf (d d1 d2 : D) ls1 k1 ls2 k2 ls3 k3, 1 <= max -> max < W32 -> cfg_ok g -> Forall op_ok (scalls ls2) ->
  uexec max false g ustart ls1 = Some k1 -> uquiet max false ls1 -> ls1 = [] \/ uends max false g ustart ls1 VThrow -> CalmUdp.at_rest (k_trans k1) ->
  usmooth ls2 -> uexec max false g k1 ls2 = Some k2 -> served D rd wr cf g d (uchecks max false g k1 ls2) d1 ->
  Udp.u_user (k_trans k2) = Udp.UWait ->
  usmooth ls3 -> Forall uother ls3 -> uexec max false g k2 ls3 = Some k3 -> served D rd wr cf g d1 (uchecks max false g k2 ls3) d2 ->
  (List.length ls3 <= Prop_Udp.steps_left (k_trans k2))%nat /\
  ((exists l ws k4 d3, okay l /\ Prop_Udp.not_user l /\ uexec max false g k3 [STrans l ws] = Some k4 /\ served D rd wr cf g d2 (uchecks max false g k3 [STrans l ws]) d3) \/
   (exists k4, uexec max false g k3 [STrans Udp.LWaited []; STrans Udp.LFlushed []] = Some k4 /\ uends max false g k3 [STrans Udp.LWaited []; STrans Udp.LFlushed []] VReturn /\
      d2 = fst (direct D rd wr cf (g_ver g) d (scalls ls2)) /\
      s_heap (a_c (k_half k4)) = s_heap (a_c (k_half k1)) ++ snd (direct D rd wr cf (g_ver g) d (scalls ls2)))).
Proof.
  intros max g D rd wr cf d d1 d2 ls1 k1 ls2 k2 ls3 k3 M1 M2 G OK R1 Q ST AR SM R2 SV U SM3 OT R3 SV3.
  assert (NC : scalls ls3 = [] /\ List.length (trans_of ls3) = List.length ls3 /\ Forall Prop_Udp.not_user (trans_of ls3)).
  { clear - OT. induction OT as [|l ls O _ IH]; [repeat split; constructor|]. destruct l as [|l ws]; [contradiction O|].
    unfold scalls, trans_of in *. cbn [flat_map app List.length]. destruct IH as (A & B & C). repeat split; auto. }
  destruct NC as (NC & NL & NU).
  assert (T3 := udp_trans _ _ _ _ _ _ R3).
  split; [rewrite <- NL; assert (TE := Prop_Udp.C44_terminates _ _ _ _ _ T3 NU); lia|].
  assert (U3 : Udp.u_user (k_trans k3) = Udp.UWait) by (rewrite (Prop_Calm.user_kept _ _ _ _ _ NU T3); exact U).
  assert (R23 : uexec max false g k1 (ls2 ++ ls3) = Some k3) by (rewrite uexec_app, R2; exact R3).
  assert (SC : scalls (ls2 ++ ls3) = scalls ls2) by (unfold scalls in *; rewrite flat_map_app, NC; apply app_nil_r).
  assert (SV23 : served D rd wr cf g d (uchecks max false g k1 (ls2 ++ ls3)) d2).
  { unfold uchecks in *. rewrite schecks_app. unfold uexec in R2. rewrite R2. apply served_app. exists d1. auto. }
  assert (SM23 : usmooth (ls2 ++ ls3)) by (apply Forall_app; auto).
  destruct (ucalm max g D rd wr cf d d2 ls1 k1 (ls2 ++ ls3) k3 M1 M2 G ltac:(rewrite SC; exact OK) R1 Q ST AR SM23 R23 SV23) as (V & B & GD).
  rewrite SC in V.
  assert (S3 : uSnd max (k_trans k3)) by (destruct V as (? & ? & ? & ? & ? & _ & _ & S3 & _); exact S3).
  destruct S3 as (S3 & RE3).
  destruct (Prop_Calm.wait_progress max (k_trans k3) M1 M2 S3 RE3 U3) as [(l & F & N & E)|(s4 & E & TRE & _)].
  - left. destruct (Udp.ustep max false (k_trans k3) l) as [t'|] eqn:TS; [|congruence].
    assert (O : okay l) by (destruct l as [| | | | | |[]| | | | |[]|]; cbn in *; auto).
    assert (PS := upasses max (k_trans k3) l t' S3 F TS).
    destruct (can_step Udp.ust Udp.ulabel (Udp.ustep max false) udp_passes udp_away Udp.u_exc g StackWire.calm (uJ max) (uJ_step max false M1 M2) (fun _ => okay) (uSnd max)
       (uok_P max) D rd wr cf G (s_heap (a_c (k_half k1))) d k3 d2 (scalls ls2) l t' V OK O TS ltac:(tauto)) as (ws & k4 & d3 & E4 & SV4).
    exists l, ws, k4, d3. split; [exact O|]. split; [exact N|]. split; [|exact SV4]. unfold uexec. cbn [Stack.srun]. rewrite E4. reflexivity.
  - right. cbn [Udp.urun] in E. destruct (Udp.ustep max false (k_trans k3) Udp.LWaited) as [t1|] eqn:E1; [|discriminate].
    destruct (Udp.ustep max false t1 Udp.LFlushed) as [t2|] eqn:E2; [|discriminate]. injection E as ->.
    assert (AM : a_mode (k_half k3) = MFlush).
    { destruct V as (dd & y & n & ms & b & [_ FL _ _] & (_ & [_ _ RF]) & _). rewrite U3 in RF. rewrite RF in FL. destruct (a_mode (k_half k3)); try discriminate. reflexivity. }
    assert (P1 : udp_passes (k_trans k3) Udp.LWaited t1 = [] /\ udp_passes t1 Udp.LFlushed s4 = [VReturn]).
    { unfold Udp.ustep in E1, E2. rewrite (CalmUdp.d_ub _ S3), U3 in E1. destruct (Udp.u_done (k_trans k3)); [|discriminate]. injection E1 as <-.
      cbn [Udp.put_user Udp.u_ub Udp.u_user Udp.u_exc] in E2. rewrite (CalmUdp.d_ub _ S3), (CalmUdp.d_exc _ S3) in E2. injection E2 as <-.
      unfold udp_passes. cbn [Udp.put_user Udp.see Udp.u_tr app]. rewrite StackUdp.skipn_new, StackUdp.skipn_same. split; reflexivity. }
    destruct P1 as (P1 & P2).
    set (k4 := mkStack (mkHalf (a_c (k_half k3)) (a_bufs (k_half k3)) [] MOp (a_bad (k_half k3))) s4).
    assert (E3 : sstep _ _ (Udp.ustep max false) udp_passes udp_away Udp.u_exc g k3 (STrans Udp.LWaited []) = Some (mkStack (k_half k3) t1)) by (cbn [Stack.sstep]; rewrite E1, P1; reflexivity).
    assert (E4 : sstep _ _ (Udp.ustep max false) udp_passes udp_away Udp.u_exc g (mkStack (k_half k3) t1) (STrans Udp.LFlushed []) = Some k4)
      by (cbn [Stack.sstep k_trans k_half]; rewrite E2, P2; cbn [aevents aevent]; rewrite AM; reflexivity).
    set (two := [STrans Udp.LWaited []; STrans Udp.LFlushed []] : list (slab Udp.ulabel)).
    assert (E34 : uexec max false g k3 two = Some k4) by (unfold uexec, two; cbn [Stack.srun]; rewrite E3, E4; reflexivity).
    assert (EN : uends max false g k3 two VReturn).
    { exists [STrans Udp.LWaited []], Udp.LFlushed, [], [], (mkStack (k_half k3) t1). split; [reflexivity|]. split; [cbn [Stack.srun]; rewrite E3; reflexivity|].
      cbn [Stack.passed]. rewrite E4. cbn [k_trans]. unfold k4 at 1. cbn [k_trans]. rewrite P2. reflexivity. }
    exists k4. split; [exact E34|]. split; [exact EN|].
    assert (RR : uexec max false g k1 ((ls2 ++ ls3) ++ two) = Some k4) by (rewrite uexec_app, R23; exact E34).
    assert (PP : upassed max false g k3 two = [VReturn]).
    { unfold upassed, two. cbn [Stack.passed]. rewrite E3, E4. cbn [k_trans]. unfold k4 at 1. cbn [k_trans]. rewrite P1, P2. reflexivity. }
    assert (S2 : scalls ((ls2 ++ ls3) ++ two) = scalls ls2) by (unfold scalls in *; rewrite flat_map_app, SC; apply app_nil_r).
    rewrite <- S2.
    refine (stack_device _ _ (Udp.ustep max false) udp_passes udp_away Udp.u_exc g StackWire.calm (uJ max) (uJ_step max false M1 M2) (uJ_fail max) Udp.init_udp (uJ_init max M1)
      D rd wr cf d d2 ls1 k1 ((ls2 ++ ls3) ++ two) k4 G _ R1 RR _ ST _ _ _).
    + rewrite S2. exact OK.
    + apply sgood_app. split; [exact (ugood _ _ _ _ _ R1 Q)|]. unfold uexec, ustart in R1. rewrite R1. apply sgood_app. split; [exact GD|]. unfold uexec in R23. rewrite R23.
      unfold two. cbn [StackRun.sgood]. rewrite E3, E4. repeat split; discriminate.
    + rewrite passed_app. unfold uexec in R23. rewrite R23. fold (upassed max false g k3 two). rewrite PP, throws_app. fold (upassed max false g k1 (ls2 ++ ls3)). rewrite (benign_throws _ B). reflexivity.
    + destruct EN as (a & l & ws & vs & z & EA & EB & EC). exists ((ls2 ++ ls3) ++ a), l, ws, vs, z. split; [rewrite EA, app_assoc; reflexivity|]. split; [|exact EC].
      rewrite srun_app. unfold uexec in R23. rewrite R23. exact EB.
    + rewrite schecks_app. unfold uexec in R23. rewrite R23. apply served_app. exists d2. split; [exact SV23|].
      unfold two. cbn [StackRun.schecks]. rewrite E3, E4. cbn [k_trans]. unfold k4 at 1. cbn [k_trans]. rewrite P1, P2. reflexivity.
Qed.

(** ** TCP *)

(** What the network and the other end do right: connect() succeeds, all bytes are
    sent, the four bytes of a header arrive and announce no more bytes than there
    is room for in the awaited chunk, all bytes announced arrive, no deadline
    passes before.  Nothing is said about the verdicts of validate(). *)
Definition tokay (room : Udp.pkt -> N) (s : Tcp.tcp) (l : Tcp.tlab) : Prop :=
  match l with
  | Tcp.KConnectFail | Tcp.KDeadline => False
  | Tcp.KSentBytes err n => err = false /\ n = CalmTcp.last_len (Tcp.k_tr s)
  | Tcp.KHeader err n cnt => err = false /\ n = 4 /\ Tcp.swap32 cnt <= Tcp.reply_room room (CalmTcp.awaited (Tcp.k_tr s))
  | Tcp.KBody err n => err = false /\ n = Tcp.k_rcnt s
  | _ => True
  end.
(** So in every step of an execution; and no call announces that one of its
    packets is refused ([Stack.v]). *)
Definition tsmooth bytes room nr max g := smooth _ _ (Tcp.kstep bytes room nr max false) tcp_passes tcp_away Tcp.k_exc g (tokay room).

Section Tcp.
Import Udp Tcp TcpProofs TcpProofs2 Prop_Tcp CalmTcp.
Variables (bytes : Udp.pkt -> list N) (room : Udp.pkt -> N) (nr : nat) (max : N).
Hypothesis LI : limits nr max.
Hypothesis SH : short4 bytes nr.
Notation step := (kstep bytes room nr max false).
Definition tSnd (s : tcp) : Prop := tsound room s /\ treached bytes room nr max false s.

(** What passes in steps that only send. *)
Lemma wr_passes s : flat_map tcp_event (skipn (List.length (k_tr s)) (k_tr (if want_write nr max s then twrite bytes nr false s else s))) = [].
Proof using. destruct (want_write nr max s); [rewrite twrite_eq; krecs|]; StackTcp.tnews; reflexivity. Qed.

Lemma tpasses s l s' : tsound room s -> tfine room s l -> step s l = Some s' ->
  tcp_passes s l s' = [] \/ (exists p, tcp_passes s l s' = [VCheck p true]) \/
  ~ tnot_user l /\ ((exists p, tcp_passes s l s' = [VHanded p]) \/ tcp_passes s l s' = [VFlush] \/ tcp_passes s l s' = [VReturn]).
Proof using.
  intros D F ST. destruct D. destruct l; try contradiction F; cbn [kstep] in ST; unfold tcp_passes.
  - destruct (k_user s) eqn:U; try discriminate. rewrite d_exc in ST. injection ST as <-. right. right. split; [intros []|]. left. exists p.
    unfold timplement_dispatch. set (s1 := if k_open s then s else _). assert (T1 : k_tr s1 = k_tr s) by (unfold s1; destruct (k_open s); reflexivity). clearbody s1.
    set (s2 := tsee _ _). assert (T2 : k_tr s2 = k_tr s ++ [THanded p]) by (unfold s2; krecs; rewrite T1; reflexivity). clearbody s2.
    destruct (k_disp s2); cbn [andb]; [destruct (_ && _)|]; rewrite ?twrite_eq; krecs; rewrite T2; StackTcp.tnews; reflexivity.
  - destruct (k_user s) eqn:U; try discriminate. injection ST as <-. right. right. split; [intros []|]. right. left. unfold tflush. krecs.
    destruct (k_queue s); [|destruct (k_disp s); rewrite ?twrite_eq]; krecs; StackTcp.tnews; reflexivity.
  - destruct (k_user s) eqn:U, (k_done s); try discriminate. injection ST as <-. left. krecs. StackTcp.tnews. reflexivity.
  - destruct (k_user s) eqn:U; try discriminate. injection ST as <-. rewrite d_exc. right. right. split; [intros []|]. right. right. krecs. StackTcp.tnews. reflexivity.
  - destruct (k_user s); try discriminate; destruct d_user as [H|[H|H]]; discriminate.
  - destruct (k_acts s) eqn:A; [discriminate|]. injection ST as <-. left. krecs. StackTcp.tnews. reflexivity.
  - destruct (k_actr s) eqn:A; [discriminate|]. injection ST as <-. left. krecs. StackTcp.tnews. reflexivity.
  - destruct (k_io s) as [| |c| |] eqn:IO; try discriminate. destruct (_ <=? _); [|discriminate]. injection ST as <-. destruct F as (-> & ->).
    unfold tread_body. rewrite N.eqb_refl. cbn [orb negb]. left. krecs. StackTcp.tnews. reflexivity.
  - destruct (k_io s) eqn:IO; try discriminate. destruct (nth_error (k_rdy s) i) as [c|] eqn:NT; [|discriminate].
    destruct (tdrop_counts _ _ _ NT) as (C1 & C2).
    assert (GC : good_k (last_len (k_tr s)) c) by (apply nth_error_In in NT; rewrite Forall_forall in d_rdy; auto).
    injection ST as <-. left. cbn [app]. destruct GC as [-> | ->]; cbn [kS kR filter List.length busy] in C1, C2, d_r.
    + unfold twrite_callback. krecs. rewrite d_exc. rewrite len_ne in d_s. destruct (k_disp s) as [|d ds] eqn:DD; [lia|].
      rewrite d_fin by (left; discriminate). cbn [negb]. rewrite <- d_cnt by discriminate. rewrite N.eqb_refl. cbn [orb negb].
      match goal with |- context [want_write nr max ?t] => set (s2 := t) end.
      assert (T2 : k_tr s2 = k_tr s) by (unfold s2; destruct (k_reply s); reflexivity). rewrite <- T2. apply wr_passes.
    + unfold tread_callback. krecs. rewrite d_exc. rewrite len_ne in d_r. destruct (k_reply s) as [|x y] eqn:RP; [lia|].
      rewrite d_fin by (right; discriminate). cbn [negb]. krecs. StackTcp.tnews. reflexivity.
  - destruct (k_io s) eqn:IO; try discriminate. injection ST as <-. destruct d_io as (-> & -> & RM). unfold tread_header. cbn [orb negb N.eqb Pos.eqb].
    left. krecs. StackTcp.tnews. reflexivity.
  - destruct (k_io s) as [| | |[|p c]|] eqn:IO; try discriminate. injection ST as <-. destruct v; [|contradiction F]. unfold tcheck.
    right. left. exists p. krecs. StackTcp.tnews. reflexivity.
  - destruct (k_io s) eqn:IO; try discriminate. injection ST as <-. left. cbn [app]. unfold tread_end.
    set (s1 := match k_rqueue _ with [] => _ | _ => _ end). assert (T1 : k_tr s1 = k_tr s) by (unfold s1; krecs; destruct (k_rqueue s); reflexivity).
    clearbody s1. set (s2 := match k_disp s1 with [] => _ | _ => _ end).
    assert (E2 : flat_map tcp_event (skipn (List.length (k_tr s)) (k_tr s2)) = []).
    { unfold s2. rewrite <- T1. destruct (k_disp s1); [apply wr_passes|]. StackTcp.tnews. reflexivity. }
    clearbody s2. destruct (k_disp s2), (k_reply s2); krecs; exact E2.
Qed.

Lemma tok_P t l t' : tSnd t -> tokay room t l -> step t l = Some t' -> StackWire.tcalm t l.
Proof using. intros ([] & _) _ _ _ U. destruct d_user as [H|[H|H]]; congruence. Qed.

Lemma tok_step t l t' : tSnd t -> tokay room t l -> step t l = Some t' ->
  tSnd t' /\ Forall benign (tcp_passes t l t') \/ exists p r, tcp_passes t l t' = VCheck p false :: r.
Proof using LI SH.
  intros (S0 & R0) OK ST. assert (NP := proj1 LI).
  assert (CASE : tfine room t l \/ l = KValidate false) by (destruct l as [| | | | | | | | | | | |[]|]; cbn in *; auto).
  destruct CASE as [F| ->].
  - left. split.
    + split; [exact (proj1 (tsound_step bytes room nr max NP SH t l t' LI R0 S0 F ST))|]. eapply treached_step; [exact NP|exact SH|exact R0| |exact ST].
      destruct S0. intros U. destruct d_user as [H|[H|H]]; congruence.
    + destruct (tpasses t l t' S0 F ST) as [-> |[(p & ->)|(_ & [(p & ->)|[-> | ->]])]]; repeat constructor.
  - right. cbn [kstep] in ST. destruct (k_io t) as [| | |[|p c]|] eqn:IO; try discriminate. injection ST as <-. unfold tcheck, tcp_passes. exists p, [VFail].
    krecs. StackTcp.tnews. reflexivity.
Qed.

Notation tcinv g D rd wr cf := (cinv tcp g (tJ nr max) tSnd D rd wr cf).
Lemma tcalms g D rd wr cf (d d' : D) ls1 k1 ls2 k2 : cfg_ok g -> Forall op_ok (scalls ls2) ->
  texec bytes room nr max false g tstart ls1 = Some k1 -> Prop_Stack.tquiet bytes room nr max false ls1 -> ls1 = [] \/ tends bytes room nr max false g tstart ls1 VThrow -> tat_rest (k_trans k1) ->
  tsmooth bytes room nr max g k1 ls2 -> texec bytes room nr max false g k1 ls2 = Some k2 -> served D rd wr cf g d (tchecked bytes room nr max false g k1 ls2) d' ->
  tcinv g D rd wr cf (s_heap (a_c (k_half k1))) d k2 d' (scalls ls2) /\ Forall benign (tpassed bytes room nr max false g k1 ls2) /\
  sgood _ _ step tcp_passes tcp_away k_exc g StackWire.tcalm k1 ls2.
Proof using LI SH.
  intros G OK R1 Q ST AR SM R2 SV. assert (NP := proj1 LI).
  assert (RE : treached bytes room nr max false (k_trans k1)) by (exists (trans_of ls1); split; [exact (tcp_trans _ _ _ _ _ _ _ _ _ R1)|exact Q]).
  assert (S1 : tSnd (k_trans k1)) by (split; [exact (rest_tsound bytes room nr max NP SH _ LI RE AR)|exact RE]).
  assert (V := start_cinv tcp tlab step tcp_passes tcp_away k_exc g StackWire.tcalm (tJ nr max) (tJ_step bytes room nr max false LI) (tJ_fail nr max) tSnd
     D rd wr cf (s_heap (a_c (k_half k1))) d init_tcp (tJ_init bytes room nr max LI) ls1 k1 R1 (tgood _ _ _ _ _ _ _ _ R1 Q) ST S1 eq_refl).
  exact (smooth_run tcp tlab step tcp_passes tcp_away k_exc g StackWire.tcalm (tJ nr max) (tJ_step bytes room nr max false LI) (tJ_fail nr max) (tokay room) tSnd
     tok_P tok_step D rd wr cf G (s_heap (a_c (k_half k1))) d ls2 k1 d [] k2 d' V OK SM R2 SV).
Qed.
End Tcp.

Theorem C104_tcp : forall bytes room nr max g D rd wr cf (d d' : D) ls1 k1 ls2 k2, Prop_Tcp.limits nr max -> CalmTcp.short4 bytes nr -> cfg_ok g -> Forall op_ok (scalls ls2) ->
  texec bytes room nr max false g tstart ls1 = Some k1 -> Prop_Stack.tquiet bytes room nr max false ls1 -> ls1 = [] \/ tends bytes room nr max false g tstart ls1 VThrow ->
  CalmTcp.tat_rest (k_trans k1) ->
  tsmooth bytes room nr max g k1 ls2 -> texec bytes room nr max false g k1 ls2 = Some k2 -> served D rd wr cf g d (tchecked bytes room nr max false g k1 ls2) d' ->
  (forall p, ~ In (VCheck p false) (tpassed bytes room nr max false g k1 ls2)) /\
  ~ In VFail (tpassed bytes room nr max false g k1 ls2) /\ ~ In VThrow (tpassed bytes room nr max false g k1 ls2) /\ Tcp.k_exc (k_trans k2) = false.
Proof.
  intros bytes room nr max g D rd wr cf d d' ls1 k1 ls2 k2 LI SH G OK R1 Q ST AR SM R2 SV.
  destruct (tcalms bytes room nr max LI SH g D rd wr cf d d' ls1 k1 ls2 k2 G OK R1 Q ST AR SM R2 SV) as (V & B & _). rewrite Forall_forall in B.
  split; [intros p I; exact (B _ I)|]. split; [intros I; exact (B _ I)|]. split; [intros I; exact (B _ I)|].
  destruct V as (? & ? & ? & ? & ? & _ & _ & (S2 & _) & _). exact (CalmTcp.d_exc _ _ S2).
Qed.

Definition tother (l : slab Tcp.tlab) : Prop := match l with STrans l _ => Prop_Tcp.tnot_user l | SCall _ _ => False end.

Theorem C104_tcp_returns : forall bytes room nr max g D rd wr cf (d d1 d2 : D) ls1 k1 ls2 k2 ls3 k3,
  Prop_Tcp.limits nr max -> CalmTcp.short4 bytes nr -> cfg_ok g -> Forall op_ok (scalls ls2) ->
  texec bytes room nr max false g tstart ls1 = Some k1 -> Prop_Stack.tquiet bytes room nr max false ls1 -> ls1 = [] \/ tends bytes room nr max false g tstart ls1 VThrow ->
  CalmTcp.tat_rest (k_trans k1) ->
  tsmooth bytes room nr max g k1 ls2 -> texec bytes room nr max false g k1 ls2 = Some k2 -> served D rd wr cf g d (tchecked bytes room nr max false g k1 ls2) d1 ->
  Tcp.k_user (k_trans k2) = Udp.UWait ->
  tsmooth bytes room nr max g k2 ls3 -> Forall tother ls3 -> texec bytes room nr max false g k2 ls3 = Some k3 -> served D rd wr cf g d1 (tchecked bytes room nr max false g k2 ls3) d2 ->
  (List.length ls3 <= Prop_Tcp.tsteps_left (k_trans k2))%nat /\
  ((exists l ws k4 d3, tokay room (k_trans k3) l /\ Prop_Tcp.tnot_user l /\ texec bytes room nr max false g k3 [STrans l ws] = Some k4 /\
      served D rd wr cf g d2 (tchecked bytes room nr max false g k3 [STrans l ws]) d3) \/
   (exists k4, texec bytes room nr max false g k3 [STrans Tcp.KWaited []; STrans Tcp.KFlushed []] = Some k4 /\
      tends bytes room nr max false g k3 [STrans Tcp.KWaited []; STrans Tcp.KFlushed []] VReturn /\
      d2 = fst (direct D rd wr cf (g_ver g) d (scalls ls2)) /\
      s_heap (a_c (k_half k4)) = s_heap (a_c (k_half k1)) ++ snd (direct D rd wr cf (g_ver g) d (scalls ls2)))).
Proof.
  intros bytes room nr max g D rd wr cf d d1 d2 ls1 k1 ls2 k2 ls3 k3 LI SH G OK R1 Q ST AR SM R2 SV U SM3 OT R3 SV3. assert (NP := proj1 LI).
  assert (NC : scalls ls3 = [] /\ List.length (trans_of ls3) = List.length ls3 /\ Forall Prop_Tcp.tnot_user (trans_of ls3)).
  { clear - OT. induction OT as [|l ls O _ IH]; [repeat split; constructor|]. destruct l as [|l ws]; [contradiction O|].
    unfold scalls, trans_of in *. cbn [flat_map app List.length]. destruct IH as (A & B & C). repeat split; auto. }
  destruct NC as (NC & NL & NU).
  assert (T3 := tcp_trans _ _ _ _ _ _ _ _ _ R3).
  split; [rewrite <- NL; assert (TE := Prop_Tcp.C65_terminates _ _ _ _ _ _ _ _ NP T3 NU); lia|].
  assert (U3 : Tcp.k_user (k_trans k3) = Udp.UWait) by (rewrite (Prop_Calm.tuser_kept _ _ _ _ _ _ _ _ NU T3); exact U).
  assert (R23 : texec bytes room nr max false g k1 (ls2 ++ ls3) = Some k3) by (rewrite texec_app, R2; exact R3).
  assert (SC : scalls (ls2 ++ ls3) = scalls ls2) by (unfold scalls in *; rewrite flat_map_app, NC; apply app_nil_r).
  assert (SV23 : served D rd wr cf g d (tchecked bytes room nr max false g k1 (ls2 ++ ls3)) d2).
  { unfold tchecked in *. rewrite schecks_app. unfold texec in R2. rewrite R2. apply served_app. exists d1. auto. }
  assert (SM23 : tsmooth bytes room nr max g k1 (ls2 ++ ls3)) by (apply smooth_app; split; [exact SM|]; unfold texec in R2; rewrite R2; exact SM3).
  destruct (tcalms bytes room nr max LI SH g D rd wr cf d d2 ls1 k1 (ls2 ++ ls3) k3 G ltac:(rewrite SC; exact OK) R1 Q ST AR SM23 R23 SV23) as (V & B & GD).
  rewrite SC in V.
  assert (S3 : tSnd bytes room nr max (k_trans k3)) by (destruct V as (? & ? & ? & ? & ? & _ & _ & S3 & _); exact S3).
  destruct S3 as (S3 & RE3).
  destruct (Prop_Calm.twait_progress bytes room nr max (k_trans k3) LI SH S3 RE3 U3) as [(l & F & N & E)|(s4 & E & TRE & _)].
  - left. destruct (Tcp.kstep bytes room nr max false (k_trans k3) l) as [t'|] eqn:TS; [|congruence].
    assert (O : tokay room (k_trans k3) l) by (destruct l as [| | | | | | | | | | | |[]|]; cbn in *; auto).
    assert (PS := tpasses bytes room nr max (k_trans k3) l t' S3 F TS).
    destruct (can_step Tcp.tcp Tcp.tlab (Tcp.kstep bytes room nr max false) tcp_passes tcp_away Tcp.k_exc g StackWire.tcalm (tJ nr max) (tJ_step bytes room nr max false LI) (tokay room) (tSnd bytes room nr max)
       (tok_P bytes room nr max) D rd wr cf G (s_heap (a_c (k_half k1))) d k3 d2 (scalls ls2) l t' V OK O TS ltac:(tauto)) as (ws & k4 & d3 & E4 & SV4).
    exists l, ws, k4, d3. split; [exact O|]. split; [exact N|]. split; [|exact SV4]. unfold texec. cbn [Stack.srun]. rewrite E4. reflexivity.
  - right. cbn [Tcp.krun] in E. destruct (Tcp.kstep bytes room nr max false (k_trans k3) Tcp.KWaited) as [t1|] eqn:E1; [|discriminate].
    destruct (Tcp.kstep bytes room nr max false t1 Tcp.KFlushed) as [t2|] eqn:E2; [|discriminate]. injection E as ->.
    assert (AM : a_mode (k_half k3) = MFlush).
    { destruct V as (dd & y & n & ms & b & [_ FL _ _] & (_ & [_ _ RF]) & _). rewrite U3 in RF. rewrite RF in FL. destruct (a_mode (k_half k3)); try discriminate. reflexivity. }
    assert (P1 : tcp_passes (k_trans k3) Tcp.KWaited t1 = [] /\ tcp_passes t1 Tcp.KFlushed s4 = [VReturn]).
    { cbn [Tcp.kstep] in E1, E2. rewrite U3 in E1. destruct (Tcp.k_done (k_trans k3)); [|discriminate]. injection E1 as <-.
      cbn [Tcp.tput_user Tcp.k_user Tcp.k_exc] in E2. rewrite (CalmTcp.d_exc _ _ S3) in E2. injection E2 as <-.
      unfold tcp_passes. cbn [Tcp.tput_user Tcp.tsee Tcp.k_tr app]. rewrite StackTcp.skipn_fresh, StackTcp.skipn_none. split; reflexivity. }
    destruct P1 as (P1 & P2).
    set (k4 := mkStack (mkHalf (a_c (k_half k3)) (a_bufs (k_half k3)) [] MOp (a_bad (k_half k3))) s4).
    assert (E3 : sstep _ _ (Tcp.kstep bytes room nr max false) tcp_passes tcp_away Tcp.k_exc g k3 (STrans Tcp.KWaited []) = Some (mkStack (k_half k3) t1)) by (cbn [Stack.sstep]; rewrite E1, P1; reflexivity).
    assert (E4 : sstep _ _ (Tcp.kstep bytes room nr max false) tcp_passes tcp_away Tcp.k_exc g (mkStack (k_half k3) t1) (STrans Tcp.KFlushed []) = Some k4)
      by (cbn [Stack.sstep k_trans k_half]; rewrite E2, P2; cbn [aevents aevent]; rewrite AM; reflexivity).
    set (two := [STrans Tcp.KWaited []; STrans Tcp.KFlushed []] : list (slab Tcp.tlab)).
    assert (E34 : texec bytes room nr max false g k3 two = Some k4) by (unfold texec, two; cbn [Stack.srun]; rewrite E3, E4; reflexivity).
    assert (EN : tends bytes room nr max false g k3 two VReturn).
    { exists [STrans Tcp.KWaited []], Tcp.KFlushed, [], [], (mkStack (k_half k3) t1). split; [reflexivity|]. split; [cbn [Stack.srun]; rewrite E3; reflexivity|].
      cbn [Stack.passed]. rewrite E4. cbn [k_trans]. unfold k4 at 1. cbn [k_trans]. rewrite P2. reflexivity. }
    exists k4. split; [exact E34|]. split; [exact EN|].
    assert (RR : texec bytes room nr max false g k1 ((ls2 ++ ls3) ++ two) = Some k4) by (rewrite texec_app, R23; exact E34).
    assert (PP : tpassed bytes room nr max false g k3 two = [VReturn]).
    { unfold tpassed, two. cbn [Stack.passed]. rewrite E3, E4. cbn [k_trans]. unfold k4 at 1. cbn [k_trans]. rewrite P1, P2. reflexivity. }
    assert (S2 : scalls ((ls2 ++ ls3) ++ two) = scalls ls2) by (unfold scalls in *; rewrite flat_map_app, SC; apply app_nil_r).
    rewrite <- S2.
    refine (stack_device _ _ (Tcp.kstep bytes room nr max false) tcp_passes tcp_away Tcp.k_exc g StackWire.tcalm (tJ nr max) (tJ_step bytes room nr max false LI) (tJ_fail nr max) Tcp.init_tcp (tJ_init bytes room nr max LI)
      D rd wr cf d d2 ls1 k1 ((ls2 ++ ls3) ++ two) k4 G _ R1 RR _ ST _ _ _).
    + rewrite S2. exact OK.
    + apply sgood_app. split; [exact (tgood _ _ _ _ _ _ _ _ R1 Q)|]. unfold texec, tstart in R1. rewrite R1. apply sgood_app. split; [exact GD|]. unfold texec in R23. rewrite R23.
      unfold two. cbn [StackRun.sgood]. rewrite E3, E4. repeat split; discriminate.
    + rewrite passed_app. unfold texec in R23. rewrite R23. fold (tpassed bytes room nr max false g k3 two). rewrite PP, throws_app.
      fold (tpassed bytes room nr max false g k1 (ls2 ++ ls3)). rewrite (benign_throws _ B). reflexivity.
    + destruct EN as (a & l & ws & vs & z & EA & EB & EC). exists ((ls2 ++ ls3) ++ a), l, ws, vs, z. split; [rewrite EA, app_assoc; reflexivity|]. split; [|exact EC].
      rewrite srun_app. unfold texec in R23. rewrite R23. exact EB.
    + rewrite schecks_app. unfold texec in R23. rewrite R23. apply served_app. exists d2. split; [exact SV23|].
      unfold two. cbn [StackRun.schecks]. rewrite E3, E4. cbn [k_trans]. unfold k4 at 1. cbn [k_trans]. rewrite P1, P2. reflexivity.
Qed.

(** *** Examples *)

(** After a lost reply and its exception: a block read from a FIFO and an increment
    in two packets; the reply to the first arrives while the second is made. *)
Example C104_udp_case : exists k1 k2 k3, cfg_ok case_cfg /\ Forall op_ok (scalls (firstn 12 good_part)) /\
  uexec 16 false case_cfg ustart lost_part = Some k1 /\ uquiet 16 false lost_part /\ uends 16 false case_cfg ustart lost_part VThrow /\ CalmUdp.at_rest (k_trans k1) /\
  usmooth (firstn 12 good_part) /\ uexec 16 false case_cfg k1 (firstn 12 good_part) = Some k2 /\
  served _ fifo_rd fifo_wr fifo_cf case_cfg (5, 9) (uchecks 16 false case_cfg k1 (firstn 12 good_part)) (11, 9) /\
  Udp.u_user (k_trans k2) = Udp.UWait /\ Udp.u_done (k_trans k2) = false /\
  usmooth (firstn 6 (skipn 12 good_part)) /\ Forall uother (firstn 6 (skipn 12 good_part)) /\ uexec 16 false case_cfg k2 (firstn 6 (skipn 12 good_part)) = Some k3 /\
  served _ fifo_rd fifo_wr fifo_cf case_cfg (11, 9) (uchecks 16 false case_cfg k2 (firstn 6 (skipn 12 good_part))) (12, 11020) /\
  Udp.u_done (k_trans k3) = true.
Proof.
  eexists. eexists. eexists. split; [unfold cfg_ok; cbn; repeat split; try lia; discriminate|]. split; [repeat constructor; cbn; lia|].
  split; [vm_compute; reflexivity|]. split; [vm_compute; repeat split; try discriminate; intros; repeat split; discriminate|].
  split; [exists (firstn 14 lost_part), Udp.LHandler, [], []; eexists; split; [reflexivity|]; split; [vm_compute; reflexivity|vm_compute; reflexivity]|].
  split; [vm_compute; repeat split|]. split; [unfold good_part; repeat constructor|]. split; [vm_compute; reflexivity|].
  split; [vm_compute; eexists; eexists; split; reflexivity|]. split; [reflexivity|]. split; [reflexivity|].
  split; [unfold good_part; repeat constructor|]. split; [unfold good_part; repeat constructor|]. split; [vm_compute; reflexivity|].
  split; [vm_compute; eexists; eexists; split; reflexivity|]. reflexivity.
Qed.

(** The same two packets over TCP, from a new client. *)
Lemma tbytes_short4 : CalmTcp.short4 tbytes 1.
Proof. exists 16. split; [intros [|p]; vm_compute; discriminate|unfold W32; lia]. Qed.
Example C104_tcp_case : exists k2 k3, Prop_Tcp.limits 1 16 /\ CalmTcp.short4 tbytes 1 /\ cfg_ok case_cfg /\ Forall op_ok (scalls (firstn 14 tgood_part)) /\
  CalmTcp.tat_rest (k_trans tstart) /\ tsmooth tbytes (fun _ => 32) 1 16 case_cfg tstart (firstn 14 tgood_part) /\
  texec tbytes (fun _ => 32) 1 16 false case_cfg tstart (firstn 14 tgood_part) = Some k2 /\
  served _ fifo_rd fifo_wr fifo_cf case_cfg (5, 9) (tchecked tbytes (fun _ => 32) 1 16 false case_cfg tstart (firstn 14 tgood_part)) (11, 9) /\
  Tcp.k_user (k_trans k2) = Udp.UWait /\ Tcp.k_done (k_trans k2) = false /\
  tsmooth tbytes (fun _ => 32) 1 16 case_cfg k2 (firstn 8 (skipn 14 tgood_part)) /\ Forall tother (firstn 8 (skipn 14 tgood_part)) /\
  texec tbytes (fun _ => 32) 1 16 false case_cfg k2 (firstn 8 (skipn 14 tgood_part)) = Some k3 /\
  served _ fifo_rd fifo_wr fifo_cf case_cfg (11, 9) (tchecked tbytes (fun _ => 32) 1 16 false case_cfg k2 (firstn 8 (skipn 14 tgood_part))) (12, 11020) /\
  Tcp.k_done (k_trans k3) = true.
Proof.
  eexists. eexists. split; [apply Prop_Tcp.limits_v2|]. split; [exact tbytes_short4|]. split; [unfold cfg_ok; cbn; repeat split; try lia; discriminate|]. split; [repeat constructor; cbn; lia|].
  split; [vm_compute; repeat split|]. split; [vm_compute; repeat split; discriminate|]. split; [vm_compute; reflexivity|].
  split; [vm_compute; eexists; eexists; split; reflexivity|]. split; [reflexivity|]. split; [reflexivity|].
  split; [vm_compute; repeat split; discriminate|]. split; [unfold tgood_part; repeat constructor|]. split; [vm_compute; reflexivity|].
  split; [vm_compute; eexists; eexists; split; reflexivity|]. reflexivity.
Qed.

Print Assumptions C104_udp.
Print Assumptions C104_udp_returns.
Print Assumptions C104_tcp.
Print Assumptions C104_tcp_returns.
