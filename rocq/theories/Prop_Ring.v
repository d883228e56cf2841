(** Theorems about the page ring of PCIe and mmap clients (C50, C51, C54, C68,
    C69).  Model: [Ring.v]; specification: [RingSpec.v]. *)
From Coq Require Import NArith ZArith Lia List Bool Arith ZifyBool ZifyNat ZifyN.
From Verif Require Import Ring RingSpec RingProofs RingProofs2.
Import ListNotations.
Open Scope N_scope.

(** C50: every execution of any number of clients, with failures at any time,
    polling or interrupts, any start index and ring size: each reply is read
    from the page its request was written to, and no page is written while some
    client waits for its reply. *)
Theorem C50_pages : forall g ls k n a r y, 0 < r_pages g -> r_pages g < 2 ^ 32 ->
  rrun g (init_ring k n a r) ls = Some y -> ring_ok (y_tr y).
Proof. intros g ls k n a r y Hn Hb H. exact (proj2 (rrun_rinv g ls k n a r y Hn Hb H)). Qed.

(** C68: a PCIe client never has more requests in flight than the user's
    max_in_flight (when it is between 1 and the number of pages), nor more than
    there are pages. *)
Theorem C68_pcie : forall g ls k n a r y p, 0 < r_pages g -> r_pages g < 2 ^ 32 ->
  r_kind g = RPCIe -> 0 < r_user g p <= r_pages g ->
  rrun g (init_ring k n a r) ls = Some y -> flight_ok (r_user g p) p (y_tr y).
Proof.
  intros g ls k n a r y p Hn Hb Hk Hu H. pose proof (rrun_flight g ls k n a r y p Hn Hb H) as Z.
  unfold limit in Z. rewrite Hk in Z. replace ((r_user g p =? 0) || (r_pages g <? r_user g p)) with false in Z by lia. exact Z.
Qed.

Theorem C68_pages : forall g ls k n a r y p, 0 < r_pages g -> r_pages g < 2 ^ 32 ->
  rrun g (init_ring k n a r) ls = Some y -> flight_ok (r_pages g) p (y_tr y).
Proof.
  intros g ls k n a r y p Hn Hb H. pose proof (rrun_flight g ls k n a r y p Hn Hb H) as Z.
  pose proof (limit_bound g p Hn) as L. revert Z. generalize (y_tr y) as tr. induction tr as [|e t IH]; cbn [flight_ok]; [auto|].
  intros [Z1 Z2]. split; [lia|auto].
Qed.

(** C51: executions in polling mode in which sessions begin only when the
    hardware has answered everything and no session begins between another
    client's unlock and endSession: a reply page is read only after the reply to
    that request was published there.  Missing: executions after a timeout
    ([C51_timeout_refuted]), interrupt mode ([C51_interrupt_refuted]). *)
Theorem C51_polling_partial : forall g ls k n a r y, 0 < r_pages g -> r_pages g < 2 ^ 32 ->
  (forall p, r_intr g p = false) ->
  tidy (fun _ => false) ls -> calm g (init_ring k n a r) ls -> nstarts ls < 2 ^ 64 ->
  rrun g (init_ring k n a r) ls = Some y -> pub_ok (y_tr y).
Proof.
  intros g ls k n a r y Hn Hb HI HT HC HS H.
  destruct (run_linv g n k ls (fun _ => false) (init_ring k n a r) y Hn Hb HI (linv_init g k n a r _) HT HC) as [L _]; auto.
  - cbn [init_ring y_count]. lia.
  - apply (x_ok _ _ (l_x _ _ _ _ _ L)).
Qed.

(** C54: hardware that reports the next page index on reception: every packet
    goes to the page the hardware expects next, with any number of clients and
    failures at any time, when no session begins between another client's
    unlock and endSession.  Missing: that race ([C54_refuted]). *)
Theorem C54_partial : forall g ls k n a r y, 0 < r_pages g -> r_pages g < 2 ^ 32 ->
  r_early g = true ->
  tidy (fun _ => false) ls -> nstarts ls < 2 ^ 64 ->
  rrun g (init_ring k n a r) ls = Some y -> in_step (r_pages g) (k + r_off g) (y_tr y).
Proof.
  intros g ls k n a r y Hn Hb He HT HS H.
  refine (run_einv g n k ls (fun _ => false) (init_ring k n a r) y Hn Hb He (rinv_init g k n a r) (einv_init g k n a r _) HT _ H).
  cbn [init_ring y_count]. lia.
Qed.

(** C54 for hardware that reports the index only after answering (as the
    emulator in the tests does): needs sessions to begin when everything is
    answered. *)
Theorem C54_calm_partial : forall g ls k n a r y, 0 < r_pages g -> r_pages g < 2 ^ 32 ->
  (forall p, r_intr g p = false) ->
  tidy (fun _ => false) ls -> calm g (init_ring k n a r) ls -> nstarts ls < 2 ^ 64 ->
  rrun g (init_ring k n a r) ls = Some y -> in_step (r_pages g) (k + r_off g) (y_tr y).
Proof.
  intros g ls k n a r y Hn Hb HI HT HC HS H.
  destruct (run_linv g n k ls (fun _ => false) (init_ring k n a r) y Hn Hb HI (linv_init g k n a r _) HT HC) as [L _]; auto.
  - cbn [init_ring y_count]. lia.
  - apply (e_step _ _ _ _ _ (l_e _ _ _ _ _ L)).
Qed.

(** C69: Flush can always finish: in the executions of [C51_polling_partial],
    whenever a client with requests in flight calls Flush, some continuation of
    that client and the hardware alone ends the session with every request of
    the client answered and read. *)
Theorem C69_flush_partial : forall g ls k n a r y p, 0 < r_pages g -> r_pages g < 2 ^ 32 ->
  (forall p, r_intr g p = false) ->
  tidy (fun _ => false) ls -> calm g (init_ring k n a r) ls -> nstarts ls < 2 ^ 64 ->
  rrun g (init_ring k n a r) ls = Some y ->
  c_pc (y_cl y p) = PIdle -> c_queue (y_cl y p) <> [] ->
  exists ls' y', Forall (flush_lab p) ls' /\ rrun g y (LFlush p :: ls') = Some y' /\
    c_pc (y_cl y' p) = PIdle /\ pend (y_tr y') p = [] /\ y_active y' = false /\ y_owner y' = None /\ pub_ok (y_tr y').
Proof.
  intros g ls k n a r y p Hn Hb HI HT HC HS H Hp Hq.
  destruct (run_linv g n k ls (fun _ => false) (init_ring k n a r) y Hn Hb HI (linv_init g k n a r _) HT HC) as [L C]; auto.
  { cbn [init_ring y_count]. lia. }
  set (st := stale_after (fun _ => false) ls) in L.
  assert (S1 : exists y1, rstep g y (LFlush p) = Some y1 /\
    (c_pc (y_cl y1 p) = PWait KFlush \/ c_pc (y_cl y1 p) = PRead KFlush \/ c_pc (y_cl y1 p) = PUnlock)).
  { cbn [rstep]. cbv zeta. rewrite Hp. destruct (c_queue (y_cl y p)) as [|b q] eqn:Eq; [contradiction (Hq eq_refl)|].
    eexists; split; [reflexivity|]. cbn [set_cl y_cl]. rewrite upd_same. unfold enter_flush. rewrite Eq.
    unfold enter_read. cbn [at_pc c_pc]. destruct (eq32 _ _); auto. }
  destruct S1 as (y1 & S1 & P1).
  pose proof (linv_step g n k st y (LFlush p) y1 Hn Hb HI L Logic.I Logic.I C S1) as L1.
  assert (C1 : y_count y1 = y_count y) by (rewrite (count_step _ _ _ _ S1); cbn; lia).
  destruct (flush_loop g n k st p Hn Hb HI _ y1 eq_refl L1) as (ls2 & y2 & F2 & R2 & P2 & Q2 & L2 & C2); [lia|exact P1|].
  assert (S3 : exists y3, rstep g y2 (LUnlock p) = Some y3 /\ c_pc (y_cl y3 p) = PEnd /\ y_owner y3 = None /\ y_tr y3 = y_tr y2 /\ c_queue (y_cl y3 p) = []).
  { cbn [rstep]. cbv zeta. rewrite P2. eexists; split; [reflexivity|]. yred. rewrite upd_same. yred. auto. }
  destruct S3 as (y3 & S3 & P3 & O3 & T3 & Q3).
  assert (S4 : exists y4, rstep g y3 (LEnd p) = Some y4 /\ c_pc (y_cl y4 p) = PIdle /\ y_owner y4 = None /\ y_tr y4 = y_tr y3 /\ y_active y4 = false).
  { cbn [rstep]. cbv zeta. rewrite P3. eexists; split; [reflexivity|]. yred. rewrite upd_same. yred. auto. }
  destruct S4 as (y4 & S4 & P4 & O4 & T4 & A4).
  exists (ls2 ++ [LUnlock p; LEnd p]), y4.
  split; [apply Forall_app; split; [exact F2|repeat (apply Forall_cons; [unfold flush_lab; tauto|]); apply Forall_nil]|].
  split; [cbn [rrun]; rewrite S1, (rrun_app g ls2 _ y1 y2 R2); cbn [rrun]; rewrite S3, S4; reflexivity|].
  split; [exact P4|]. rewrite T4, T3.
  split; [rewrite (ci_pend _ _ _ (l_r _ _ _ _ _ L2 p)); apply qpages_nil; exact Q2|].
  split; [exact A4|]. split; [exact O4|]. apply (x_ok _ _ (l_x _ _ _ _ _ L2)).
Qed.

(** ** Examples and counterexamples *)

(** Three pages, hardware counts starting at 7, index offset 1 (the first page
    is 2): one client, four requests in one session, one more in a second. *)
Definition ring3 (kd : rkind) (early intr : bool) (m : N) : rcfg := mkR kd 3 1 early (fun _ => intr) (fun _ => m).
Definition start3 : sys := init_ring 7 5 false (fun _ => None).

Definition open_session (p b : nat) : list rlab := [LDispatch p b; LGo p; LLock p; LStart p; LWrite p].
Definition more (p b : nat) : list rlab := [LDispatch p b; LGo p; LWrite p].
Definition run_wrap : list rlab :=
  [LConn 0] ++ open_session 0 10 ++ more 0 11 ++ [LPub] ++ more 0 12 ++
  [LDispatch 0 13; LGo 0; LPoll 0; LRead 0; LWrite 0; LPub; LPub] ++
  [LFlush 0; LPoll 0; LRead 0; LRead 0; LPub; LPoll 0; LRead 0; LUnlock 0; LEnd 0] ++
  open_session 0 14 ++ [LFlush 0; LPub; LPoll 0; LRead 0; LUnlock 0; LEnd 0].

Definition trace (o : option sys) : option (list rev) := match o with Some y => Some (List.rev (y_tr y)) | None => None end.

Example ring_wrap : trace (rrun (ring3 RPCIe true false 0) start3 run_wrap) = Some
  [OWrite 0 10 2; OWrite 0 11 0; OPub 2 10; OWrite 0 12 1; ORead 0 10 2 (Some 10%nat); OWrite 0 13 2;
   OPub 0 11; OPub 1 12; ORead 0 11 0 (Some 11%nat); ORead 0 12 1 (Some 12%nat); OPub 2 13;
   ORead 0 13 2 (Some 13%nat); OWrite 0 14 0; OPub 0 14; ORead 0 14 0 (Some 14%nat)].
Proof. vm_compute. reflexivity. Qed.

Example ring_wrap_meets : tidy (fun _ => false) run_wrap /\ calm (ring3 RPCIe true false 0) start3 run_wrap /\ nstarts run_wrap = 2.
Proof. vm_compute. tauto. Qed.

(** Three clients taking turns; client 2 connects in the middle of a session of
    client 1, client 0 fails with a request unanswered. *)
Definition run_turns : list rlab :=
  [LConn 0; LConn 1] ++ open_session 0 10 ++ [LPub; LFlush 0; LPoll 0; LRead 0; LUnlock 0; LEnd 0] ++
  open_session 1 20 ++ [LConn 2] ++ more 1 21 ++ [LPub; LFlush 1; LPoll 1; LRead 1; LPub; LPoll 1; LRead 1; LUnlock 1; LEnd 1] ++
  open_session 0 11 ++ [LFail 0; LPub] ++ open_session 2 30 ++ [LPub; LFlush 2; LPoll 2; LRead 2; LUnlock 2; LEnd 2].

Example ring_turns : trace (rrun (ring3 RMmap true false 0) start3 run_turns) = Some
  [OWrite 0 10 2; OPub 2 10; ORead 0 10 2 (Some 10%nat); OWrite 1 20 0; OWrite 1 21 1; OPub 0 20;
   ORead 1 20 0 (Some 20%nat); OPub 1 21; ORead 1 21 1 (Some 21%nat); OWrite 0 11 2; ODrop 0; OPub 2 11;
   OWrite 2 30 0; OPub 0 30; ORead 2 30 0 (Some 30%nat)].
Proof. vm_compute. reflexivity. Qed.

Example ring_turns_meets : tidy (fun _ => false) run_turns /\ calm (ring3 RMmap true false 0) start3 run_turns /\ nstarts run_turns = 4.
Proof. vm_compute. tauto. Qed.

(** The state of [C69_flush_partial]: two requests in flight, Flush not yet
    called. *)
Definition run_two : list rlab := [LConn 0] ++ open_session 0 10 ++ more 0 11.
Example ring_two : match rrun (ring3 RPCIe false false 0) start3 run_two with
  | Some y => c_pc (y_cl y 0%nat) = PIdle /\ c_queue (y_cl y 0%nat) = [10%nat; 11%nat] /\ h_wait (y_hw y) = [10%nat; 11%nat]
  | None => False end.
Proof. vm_compute. auto. Qed.
Example ring_two_meets : tidy (fun _ => false) run_two /\ calm (ring3 RPCIe false false 0) start3 run_two /\ nstarts run_two = 1.
Proof. vm_compute. tauto. Qed.

Lemma trace_run : forall g y ls tr, trace (rrun g y ls) = Some tr -> exists y', rrun g y ls = Some y' /\ y_tr y' = List.rev tr.
Proof.
  intros g y ls tr H. unfold trace in H. destruct (rrun g y ls) as [y'|]; [|discriminate H].
  exists y'. split; [reflexivity|]. inversion H. rewrite rev_involutive. reflexivity.
Qed.

(** C51 fails after a timeout, in polling mode, with one client: the first
    request times out; the client reconnects and writes a second request; the
    late reply to the first is counted as the reply to the second, whose page is
    read before anything was published there. *)
Definition run_late : list rlab :=
  [LConn 0] ++ open_session 0 10 ++ [LFlush 0; LFail 0; LConn 0] ++ open_session 0 11 ++
  [LFlush 0; LPub; LPoll 0; LRead 0].

Theorem C51_timeout_refuted : exists g ls k n r y, 0 < r_pages g /\ r_pages g < 2 ^ 32 /\
  (forall p, r_intr g p = false) /\ r_early g = true /\ tidy (fun _ => false) ls /\ nstarts ls < 2 ^ 64 /\
  rrun g (init_ring k n false r) ls = Some y /\ ~ pub_ok (y_tr y).
Proof.
  destruct (trace_run (ring3 RPCIe true false 0) start3 run_late
    [OWrite 0 10 2; ODrop 0; OWrite 0 11 0; OPub 2 10; ORead 0 11 0 None]) as (y & R & T); [vm_compute; reflexivity|].
  exists (ring3 RPCIe true false 0), run_late, 7, 5, (fun _ => None), y.
  split; [reflexivity|]. split; [reflexivity|]. split; [reflexivity|]. split; [reflexivity|].
  split; [vm_compute; tauto|]. split; [reflexivity|]. split; [exact R|]. rewrite T. vm_compute. intros [Z _]. discriminate Z.
Qed.

(** C51 fails in interrupt mode without any failure: after the first reply the
    two counts differ for good, and the second reply page is read without
    waiting. *)
Definition run_intr : list rlab :=
  [LConn 0] ++ open_session 0 10 ++ [LPub; LFlush 0; LPoll 0; LRead 0; LUnlock 0; LEnd 0] ++
  open_session 0 11 ++ [LFlush 0; LRead 0].

Theorem C51_interrupt_refuted : exists g ls k n r y, 0 < r_pages g /\ r_pages g < 2 ^ 32 /\
  (forall p, r_intr g p = true) /\ tidy (fun _ => false) ls /\ calm g (init_ring k n false r) ls /\ nstarts ls < 2 ^ 64 /\
  (forall p, ~ In (LFail p) ls) /\
  rrun g (init_ring k n false r) ls = Some y /\ ~ pub_ok (y_tr y).
Proof.
  destruct (trace_run (ring3 RPCIe true true 0) start3 run_intr
    [OWrite 0 10 2; OPub 2 10; ORead 0 10 2 (Some 10%nat); OWrite 0 11 0; ORead 0 11 0 None]) as (y & R & T); [vm_compute; reflexivity|].
  exists (ring3 RPCIe true true 0), run_intr, 7, 5, (fun _ => None), y.
  split; [reflexivity|]. split; [reflexivity|]. split; [reflexivity|].
  split; [vm_compute; tauto|]. split; [vm_compute; tauto|]. split; [reflexivity|].
  split; [intros p Z; vm_compute in Z; repeat (destruct Z as [Z|Z]; [discriminate Z|]); exact Z|].
  split; [exact R|]. rewrite T. vm_compute. intros [Z _]. discriminate Z.
Qed.

(** C54 fails when a session of client 1 begins between unlock and endSession
    of client 0: endSession then clears the flag of client 1's session, client 2
    connects in the middle of it without noticing, and later writes to a page
    that was already used. *)
Definition run_race : list rlab :=
  [LConn 0; LConn 1] ++ open_session 0 10 ++ [LPub; LFlush 0; LPoll 0; LRead 0; LUnlock 0] ++
  open_session 1 20 ++ [LEnd 0; LConn 2] ++ more 1 21 ++
  [LPub; LPub; LFlush 1; LPoll 1; LRead 1; LRead 1; LUnlock 1; LEnd 1] ++ open_session 2 30.

Theorem C54_refuted : exists g ls k n r y, 0 < r_pages g /\ r_pages g < 2 ^ 32 /\
  r_early g = true /\ (forall p, r_intr g p = false) /\ calm g (init_ring k n false r) ls /\ nstarts ls < 2 ^ 64 /\
  (forall p, ~ In (LFail p) ls) /\
  rrun g (init_ring k n false r) ls = Some y /\ ~ in_step (r_pages g) (k + r_off g) (y_tr y).
Proof.
  destruct (trace_run (ring3 RPCIe true false 0) start3 run_race
    [OWrite 0 10 2; OPub 2 10; ORead 0 10 2 (Some 10%nat); OWrite 1 20 0; OWrite 1 21 1; OPub 0 20; OPub 1 21;
     ORead 1 20 0 (Some 20%nat); ORead 1 21 1 (Some 21%nat); OWrite 2 30 1]) as (y & R & T); [vm_compute; reflexivity|].
  exists (ring3 RPCIe true false 0), run_race, 7, 5, (fun _ => None), y.
  split; [reflexivity|]. split; [reflexivity|]. split; [reflexivity|]. split; [reflexivity|].
  split; [vm_compute; tauto|]. split; [reflexivity|].
  split; [intros p Z; vm_compute in Z; repeat (destruct Z as [Z|Z]; [discriminate Z|]); exact Z|].
  split; [exact R|]. rewrite T. vm_compute. intros [Z _]. discriminate Z.
Qed.

(** C54 fails for hardware that reports the index only after answering, with
    one client and a timeout: the request written after it goes to the page of
    the unanswered one. *)
Definition run_again : list rlab :=
  [LConn 0] ++ open_session 0 10 ++ [LFlush 0; LFail 0; LConn 0] ++ open_session 0 11.

Theorem C54_timeout_refuted : exists g ls k n r y, 0 < r_pages g /\ r_pages g < 2 ^ 32 /\
  r_early g = false /\ (forall p, r_intr g p = false) /\ tidy (fun _ => false) ls /\ nstarts ls < 2 ^ 64 /\
  rrun g (init_ring k n false r) ls = Some y /\ ~ in_step (r_pages g) (k + r_off g) (y_tr y).
Proof.
  destruct (trace_run (ring3 RPCIe false false 0) start3 run_again
    [OWrite 0 10 2; ODrop 0; OWrite 0 11 2]) as (y & R & T); [vm_compute; reflexivity|].
  exists (ring3 RPCIe false false 0), run_again, 7, 5, (fun _ => None), y.
  split; [reflexivity|]. split; [reflexivity|]. split; [reflexivity|]. split; [reflexivity|].
  split; [vm_compute; tauto|]. split; [reflexivity|]. split; [exact R|]. rewrite T. vm_compute. intros [Z _]. discriminate Z.
Qed.

(** C68 fails for mmap clients: max_in_flight is read from the URI and never
    used. *)
Theorem C68_mmap_refuted : exists g ls k n r y, 0 < r_pages g /\ r_pages g < 2 ^ 32 /\ r_kind g = RMmap /\
  0 < r_user g 0%nat <= r_pages g /\
  rrun g (init_ring k n false r) ls = Some y /\ ~ flight_ok (r_user g 0%nat) 0 (y_tr y).
Proof.
  destruct (trace_run (ring3 RMmap true false 1) start3 run_two [OWrite 0 10 2; OWrite 0 11 0]) as (y & R & T); [vm_compute; reflexivity|].
  exists (ring3 RMmap true false 1), run_two, 7, 5, (fun _ => None), y.
  split; [reflexivity|]. split; [reflexivity|]. split; [reflexivity|]. split; [split; [reflexivity|discriminate]|].
  split; [exact R|]. rewrite T. vm_compute. intros [Z _]. contradiction (Z eq_refl).
Qed.

(** The same run with a PCIe client and max_in_flight 1: the second request
    waits for the first reply. *)
Example ring_limit : trace (rrun (ring3 RPCIe true false 1) start3
    ([LConn 0] ++ open_session 0 10 ++ [LDispatch 0 11; LGo 0; LPub; LPoll 0; LRead 0; LWrite 0])) =
  Some [OWrite 0 10 2; OPub 2 10; ORead 0 10 2 (Some 10%nat); OWrite 0 11 0].
Proof. vm_compute. reflexivity. Qed.

Print Assumptions C50_pages.
Print Assumptions C68_pcie.
Print Assumptions C68_pages.
Print Assumptions C51_polling_partial.
Print Assumptions C54_partial.
Print Assumptions C54_calm_partial.
Print Assumptions C69_flush_partial.
Print Assumptions C51_timeout_refuted.
Print Assumptions C51_interrupt_refuted.
Print Assumptions C54_refuted.
Print Assumptions C54_timeout_refuted.
Print Assumptions C68_mmap_refuted.
