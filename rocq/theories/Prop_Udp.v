(** C42 - C45 and C49: the UDP transport. *)
From Coq Require Import NArith ZArith List Bool Lia PeanoNat ZifyBool ZifyNat ZifyN.
From Verif Require Import Word Udp UdpProofs.
Import ListNotations.
Open Scope N_scope.
Ltac Zify.zify_post_hook ::= Z.div_mod_to_equations.

(** The specification is in [UdpProofs.v]: [since_throw], [handed], [sents],
    [recvd], [checks] are functions of the history of observable events, and
    [quiet_handlers] restricts executions to those in which the callbacks
    outstanding at an exception run before the handler clears it. *)

(** Reachable states. *)
Definition reached (max : N) (zero : bool) (s : ust) : Prop :=
  exists ls, urun max zero init_udp ls = Some s /\ quiet_handlers max zero init_udp ls.

Lemma reached_inv max zero s : 1 <= max -> max < W32 -> reached max zero s -> uinv max s (since_throw (u_tr s)).
Proof. intros A B (ls & R & Q). eapply udp_inv; eauto. apply init_inv. exact A. Qed.

(** C42.  At most [max] packets are sent and unanswered.
    Partial: not for executions in which a callback runs after the handler
    cleared the exception, see [C42_stale_refuted]. *)
Theorem C42_bound_partial : forall max zero s, 1 <= max -> max < W32 -> reached max zero s ->
  (List.length (sents (since_throw (u_tr s))) <= List.length (recvd (since_throw (u_tr s))) + N.to_nat max)%nat.
Proof. intros max zero s A B R. exact (w_bound _ _ _ (reached_inv _ _ _ A B R)). Qed.

(** C43.  Packets are sent in the order they were handed over, each at most once;
    the n-th check is of the n-th datagram against the n-th packet.
    Partial as C42. *)
Theorem C43_order_partial : forall max zero s, 1 <= max -> max < W32 -> reached max zero s ->
  prefix (sents (since_throw (u_tr s))) (handed (since_throw (u_tr s))) /\
  forall i p d v, nth_error (checks (since_throw (u_tr s))) i = Some (p, d, v) ->
    nth_error (sents (since_throw (u_tr s))) i = Some p /\ nth_error (recvd (since_throw (u_tr s))) i = Some d.
Proof.
  intros max zero s A B R. destruct (reached_inv _ _ _ A B R). split; [assumption|].
  intros i p d v NT. destruct w_cp as (r1 & E1), w_cd as (r2 & E2). rewrite E1, E2.
  assert (LT : (i < List.length (checks (since_throw (u_tr s))))%nat) by (apply nth_error_Some; congruence).
  split; rewrite nth_error_app1 by (rewrite map_length; exact LT); erewrite map_nth_error by exact NT; reflexivity.
Qed.

(** C44.  When Flush returns normally, every packet handed over since the last
    exception was sent, answered and found valid, and no failure was stored.
    Partial as C42. *)
Theorem C44_return_partial : forall max zero s s', 1 <= max -> max < W32 -> reached max zero s ->
  ustep max zero s LFlushed = Some s' -> u_tr s' = u_tr s ++ [OReturn] ->
  let e := since_throw (u_tr s) in
  sents e = handed e /\ map c_pkt (checks e) = handed e /\ map c_dg (checks e) = recvd e /\
  Forall (fun c => snd c = true) (checks e) /\ ~ In OFail e.
Proof.
  intros max zero s s' A B R ST TR e. assert (W := reached_inv _ _ _ A B R). unfold ustep in ST. rewrite (w_ub _ _ _ W) in ST.
  destruct (u_user s) eqn:U; try discriminate. injection ST as <-. destruct (u_exc s) eqn:X.
  { exfalso. cbn [put_user u_tr] in TR. rewrite <- app_nil_r in TR at 1. apply app_inv_head in TR. discriminate. }
  assert (M := w_mode _ _ _ W). unfold mode in M. rewrite U, X in M. destruct M as [L Q DN WK]. destruct L. destruct (proj1 DN (WK U)) as (D & RP).
  subst e. unfold unread in *. assert (RQ := v_rq RP). rewrite D, RP, RQ in *. cbn [olist List.length] in *.
  destruct (Q eq_refl) as [Q0|Q0]; [|lia]. rewrite Q0 in *.
  assert (IO : u_io s = IOIdle) by (destruct (u_io s); cbn [io_busy] in v_r; [reflexivity|lia|lia]).
  rewrite IO in *. cbn [app] in *. rewrite !app_nil_r in *.
  assert (NO := nOk_le (u_rdy s)). replace (nOk (u_rdy s) + io_ok IOIdle)%nat with 0%nat in v_recvd by (cbn [io_ok]; lia).
  cbn [repeat] in v_recvd. rewrite app_nil_r in v_recvd. repeat split; congruence || assumption.
Qed.

(** ... and otherwise, it raises: *)
Theorem C44_raise : forall max zero s s', ustep max zero s LFlushed = Some s' ->
  u_exc s = true -> u_user s' = UH1 /\ u_tr s' = u_tr s.
Proof.
  intros max zero s s' ST X. unfold ustep in ST. destruct (u_ub s); [discriminate|]. destruct (u_user s); try discriminate. rewrite X in ST. injection ST as <-. auto.
Qed.

(** Failures stay stored until the handler runs. *)
Theorem C44_fail_kept_partial : forall max zero s, 1 <= max -> max < W32 -> reached max zero s ->
  In OFail (since_throw (u_tr s)) -> u_user s <> UH3 -> u_user s <> UH4 -> u_exc s = true.
Proof.
  intros max zero s A B R F N3 N4. assert (M := w_mode _ _ _ (reached_inv _ _ _ A B R)). destruct (u_exc s) eqn:X; [reflexivity|].
  exfalso. unfold mode in M. destruct (u_user s); try congruence; rewrite X in M; destruct M as [[] _ _ _]; contradiction.
Qed.

(** *** A dispatch that waits is always woken *)

(** With a timeout other than zero, an outstanding operation has a deadline. *)
Lemma deadline_set max : forall ls s s', urun max false s ls = Some s' ->
  ((u_acts s + u_actr s)%nat <> 0%nat -> u_fin s = true) -> (u_acts s' + u_actr s')%nat <> 0%nat -> u_fin s' = true.
Proof.
  induction ls as [|l ls IH]; intros s s' R H; cbn [urun] in R; [injection R as <-; exact H|].
  destruct (ustep max false s l) as [s1|] eqn:ST; [|discriminate]. eapply IH; [exact R|]. clear IH R. unfold ustep in ST.
  destruct (u_ub s); [discriminate|]. destruct l.
  - destruct (u_user s); try discriminate. injection ST as <-. destruct (u_exc s); [exact H|]. unfold implement_dispatch. recs.
    destruct (u_disp s); [exact H|]. destruct (_ =? _); [exact H|]. reflexivity.
  - destruct (u_user s), (u_exc s), (u_open s); try discriminate. injection ST as <-. exact H.
  - destruct (u_user s); try discriminate. injection ST as <-. exact H.
  - destruct (u_user s), (u_done s); try discriminate. injection ST as <-. exact H.
  - destruct (u_user s); try discriminate. injection ST as <-. destruct (u_exc s); exact H.
  - destruct (u_user s) eqn:U; try discriminate; injection ST as <-; unfold handler; rewrite U; try exact H.
    destruct (u_open s); [|exact H]. recs. intros X. exfalso. apply X. reflexivity.
  - destruct (u_acts s) eqn:A; [discriminate|]. injection ST as <-. recs. intros _. apply H. lia.
  - destruct (u_actr s) eqn:A, (u_open s); try discriminate. injection ST as <-. recs. intros _. apply H. lia.
  - destruct (u_actr s) eqn:A; [discriminate|]. injection ST as <-. recs. intros _. apply H. lia.
  - destruct (u_io s), (u_fin s); try discriminate. injection ST as <-. recs. intros X. exfalso. apply X. reflexivity.
  - destruct (u_io s); try discriminate. destruct (nth_error (u_rdy s) i) as [[ok|err]|]; try discriminate; injection ST as <-.
    + unfold write_callback. recs. destruct (u_exc s); [exact H|]. destruct (u_fin s) eqn:FI; recs; [|rewrite FI; exact H]. destruct (u_disp s); [|recs; intros _; exact FI].
      destruct ok; recs; [|intros X; exfalso; apply X; reflexivity]. destruct (u_reply s); recs; destruct (u_queue s); recs; try (intros _; exact FI); try (intros _; reflexivity); destruct (_ =? _); recs; try (intros _; exact FI); intros _; reflexivity.
    + unfold read_callback. recs. destruct (u_exc s); [exact H|]. destruct (u_fin s) eqn:FI; recs; rewrite ?FI; auto.
  - destruct (u_io s); try discriminate. injection ST as <-. unfold read_middle. destruct (u_reply s); [|exact H]. destruct err; recs; [intros X; exfalso; apply X; reflexivity|]. destruct v; exact H.
  - destruct (u_io s); try discriminate. injection ST as <-. unfold read_end. recs. destruct (u_exc s); [exact H|].
    destruct (u_rqueue s); recs; destruct (u_disp s) eqn:DD; recs; rewrite ?DD; recs; try exact H; try (intros _; reflexivity);
    destruct (u_queue s); recs; rewrite ?DD; recs; try (intros _; reflexivity); try exact H; destruct (_ =? _); recs; rewrite ?DD; recs; try (intros _; reflexivity); exact H.
Qed.

(** The steps of the io_service thread that need nothing from the network. *)
Definition io_label (l : ulabel) : Prop :=
  match l with LCallback _ | LMiddle _ | LEnd | LDeadline => True | _ => False end.

(** While the user's thread waits in Flush and is not woken, the io_service
    thread has something to do (at the latest, when the deadline passes). *)
Theorem C44_progress_partial : forall max s, 1 <= max -> max < W32 -> reached max false s ->
  u_user s = UWait -> u_done s = false -> exists l, io_label l /\ ustep max false s l <> None.
Proof.
  intros max s A B R U D. assert (W := reached_inv _ _ _ A B R). assert (M := w_mode _ _ _ W). unfold mode in M. rewrite U in M.
  assert (UB := w_ub _ _ _ W).
  destruct (u_io s) as [|err|] eqn:IO.
  2:{ exists (LMiddle true). split; [exact I|]. unfold ustep. rewrite UB, IO. discriminate. }
  2:{ exists LEnd. split; [exact I|]. unfold ustep. rewrite UB, IO. discriminate. }
  destruct (u_rdy s) as [|c rd] eqn:RD.
  2:{ exists (LCallback 0). split; [exact I|]. unfold ustep. rewrite UB, IO, RD. discriminate. }
  exists LDeadline. split; [exact I|]. unfold ustep. rewrite UB, IO.
  destruct (u_exc s) eqn:X; [destruct M as (_ & [(_ & Z)|Z]); congruence|].
  assert (F : u_fin s = true); [|rewrite F; discriminate].
  destruct R as (ls & R & _). eapply deadline_set; [exact R|reflexivity|].
  destruct M as [L Q DN WK]. destruct L. rewrite IO, RD in *. cbn [nS nR filter List.length io_busy] in *.
  destruct (u_disp s) as [p|] eqn:DD; [cbn [olist List.length] in *; lia|]. destruct (u_reply s) as [p|] eqn:RR; [cbn [olist List.length] in *; lia|].
  rewrite (proj2 DN (conj eq_refl eq_refl)) in D. discriminate.
Qed.

(** The steps not made by the user's thread. *)
Definition not_user (l : ulabel) : Prop :=
  match l with LDispatch _ | LConnectFail | LFlush | LWaited | LFlushed | LHandler => False | _ => True end.

(** Only finitely many of them are possible before the user's thread moves. *)
Definition steps_left (s : ust) : nat :=
  (20 * List.length (u_queue s) + 8 * List.length (u_rqueue s) + 16 * u_acts s + 14 * nS (u_rdy s) + 6 * u_actr s + 4 * nR (u_rdy s) +
   match u_io s with IOIdle => 0 | IORead _ => 3 | IOChecked => 2 end + (if u_fin s then 1 else 0))%nat.

Lemma step_decreases max zero s l s' : not_user l -> ustep max zero s l = Some s' -> (steps_left s' < steps_left s)%nat.
Proof.
  intros NU ST. unfold ustep in ST. destruct (u_ub s); [discriminate|]. unfold steps_left. destruct l; try contradiction.
  - destruct (u_acts s) eqn:A; [discriminate|]. injection ST as <-. recs. rewrite nS_app, nR_app. cbn [nS nR filter List.length]. lia.
  - destruct (u_actr s) eqn:A, (u_open s); try discriminate. injection ST as <-. recs. rewrite nS_app, nR_app. cbn [nS nR filter List.length]. lia.
  - destruct (u_actr s) eqn:A; [discriminate|]. injection ST as <-. recs. rewrite nS_app, nR_app. cbn [nS nR filter List.length]. lia.
  - destruct (u_io s) eqn:IO, (u_fin s) eqn:FI; try discriminate. injection ST as <-. recs. rewrite ?IO, ?FI. destruct (closed_ops (u_acts s) (u_actr s)) as (E1 & E2 & _). rewrite nS_app, nR_app, E1, E2. lia.
  - destruct (u_io s) eqn:IO; try discriminate. destruct (nth_error (u_rdy s) i) as [c|] eqn:NT; [|discriminate].
    destruct (drop_counts _ _ _ NT) as (C1 & C2 & _). injection ST as <-. destruct c as [ok|err]; cbn [nS nR filter List.length] in C1, C2.
    + unfold write_callback. recs. destruct (u_exc s); recs; [rewrite IO; lia|]. destruct (u_fin s) eqn:FI; recs; [|rewrite ?IO, ?FI; lia].
      destruct (u_disp s); [|recs; rewrite ?IO, ?FI; lia].
      destruct ok; recs.
      2:{ destruct (closed_ops (u_acts s) (u_actr s)) as (E1 & E2 & _). rewrite nS_app, nR_app, E1, E2, ?IO, ?FI. lia. }
      destruct (u_reply s); recs; destruct (u_queue s) eqn:QQ; recs; rewrite ?IO, ?FI, ?app_length; cbn [List.length]; try (destruct zero; cbn [negb]; lia); destruct (_ =? _); recs; rewrite ?IO, ?FI, ?app_length; cbn [List.length]; destruct zero; cbn [negb]; lia.
    + unfold read_callback. recs. destruct (u_exc s); recs; [rewrite IO; lia|]. destruct (u_fin s) eqn:FI; recs; rewrite ?IO, ?FI; lia.
  - destruct (u_io s) as [|err|] eqn:IO; try discriminate. injection ST as <-. unfold read_middle. destruct (u_reply s); [|recs; lia].
    destruct err; recs; [destruct (closed_ops (u_acts s) (u_actr s)) as (E1 & E2 & _); rewrite nS_app, nR_app, E1, E2; lia|]. destruct v; recs; lia.
  - destruct (u_io s) eqn:IO; try discriminate. injection ST as <-. unfold read_end. destruct s. recs. subst. destruct u_exc; [recs; lia|].
    destruct u_rqueue as [|r rq], u_disp as [d|], u_queue as [|p q]; recs; try destruct (sub32 u_infl 1 =? max)%N; recs; cbn [List.length]; destruct zero, u_fin; cbn [negb]; lia.
Qed.

(** So a dispatch cannot wait for ever: *)
Theorem C44_terminates : forall max zero ls s s', urun max zero s ls = Some s' -> Forall not_user ls ->
  (List.length ls + steps_left s' <= steps_left s)%nat.
Proof.
  intros max zero. induction ls as [|l ls IH]; intros s s' R F; cbn [urun] in R; [injection R as <-; cbn; lia|].
  destruct (ustep max zero s l) as [s1|] eqn:ST; [|discriminate]. inversion F as [|? ? F1 F2]; subst.
  assert (D := step_decreases _ _ _ _ _ F1 ST). assert (I := IH _ _ R F2). cbn [List.length]. lia.
Qed.

(** C45.  While no failure is stored, every packet handed over is in exactly one
    place: validated (and returned to the pool), awaiting its reply, being sent,
    or queued.  Partial as C42. *)
Theorem C45_places_partial : forall max zero s, 1 <= max -> max < W32 -> reached max zero s -> u_exc s = false ->
  u_user s <> UH3 -> u_user s <> UH4 ->
  let e := since_throw (u_tr s) in
  handed e = map c_pkt (checks e) ++ match u_io s with IOChecked => [] | _ => olist (u_reply s) end ++ u_rqueue s ++ olist (u_disp s) ++ u_queue s.
Proof.
  intros max zero s A B R X N3 N4 e. assert (M := w_mode _ _ _ (reached_inv _ _ _ A B R)). unfold mode in M.
  assert (L : live max s e) by (destruct (u_user s); try congruence; rewrite X in M; exact M). destruct L as [[] _ _ _]. exact v_handed.
Qed.

(** After the exception handler the members are those of a new client (the
    socket is opened again by the next dispatch).  Partial as C42. *)
Theorem C45_recovered_partial : forall max zero s s', 1 <= max -> max < W32 -> reached max zero s ->
  ustep max zero s LHandler = Some s' -> u_user s' = UIdle ->
  s' = mkU false None [] None [] 0 true (u_fin s) (u_open s) (u_mem s) 0 0 [] IOIdle UIdle false (u_tr s ++ [OThrow]).
Proof.
  intros max zero s s' A B R ST U'. assert (W := reached_inv _ _ _ A B R). assert (M := w_mode _ _ _ W). assert (UB := w_ub _ _ _ W). unfold ustep in ST. rewrite UB in ST.
  destruct (u_user s) eqn:U; try discriminate; injection ST as <-; unfold handler in *; rewrite U in *; try discriminate U'.
  - unfold mode in M. rewrite U in M. destruct M as (E & (Q1 & Q2 & Q3 & Q4) & D & Q5 & Q6 & Q7).
    destruct s. recs. subst. reflexivity.
Qed.

(** No null pointer is dereferenced.  Partial as C42. *)
Theorem C45_no_null_partial : forall max zero s, 1 <= max -> max < W32 -> reached max zero s -> u_ub s = false.
Proof. intros max zero s A B R. exact (w_ub _ _ _ (reached_inv _ _ _ A B R)). Qed.

(** *** Executions in which a callback runs after the handler *)

(** Packets 1 and 2 are dispatched; the reply to 1 arrives, its callback is
    queued; the send of 2 fails; the handler runs; packet 3 is dispatched; now
    the queued callback takes the old reply for the reply to 3.  Nothing was
    received since the exception, and dispatch returns normally. *)
Definition stale_run : list ulabel :=
  [LDispatch 1; LSent true; LCallback 0; LDispatch 2; LDatagram [42%N]; LSent false; LCallback 1; LFlush; LWaited; LFlushed;
   LHandler; LHandler; LHandler; LHandler; LDispatch 3; LSent true; LCallback 1; LCallback 0; LMiddle true; LEnd; LFlush; LWaited; LFlushed]%nat.
Theorem C43_stale_refuted : exists s, urun 16 false init_udp stale_run = Some s /\
  u_tr s = [OHanded 1; OSent 1; OHanded 2; OSent 2; ORecv [42%N]; OFail; OThrow; OHanded 3; OSent 3; OCheck 3 [42%N] true; OReturn]%nat.
Proof. eexists. split; vm_compute; reflexivity. Qed.

(** ... and so more packets than the limit are unanswered: 17 with a limit of
    16. *)
Theorem C42_stale_refuted : exists ls s, urun 16 false init_udp ls = Some s /\
  List.length (sents (since_throw (u_tr s))) = 17%nat /\ recvd (since_throw (u_tr s)) = [].
Proof.
  exists (firstn 14 stale_run ++ flat_map (fun p => [LDispatch p; LSent true; LCallback 1]) (seq 3 16) ++
          [LDispatch 19; LCallback 0; LMiddle true; LEnd])%nat.
  eexists. split; [vm_compute; reflexivity|]. split; vm_compute; reflexivity.
Qed.

(** The callback of a send started before the handler finds mDispatchBuffers
    null and dereferences it. *)
Theorem C45_null_refuted : exists ls s, urun 16 false init_udp ls = Some s /\ u_ub s = true.
Proof.
  exists [LDispatch 1; LSent true; LCallback 0; LDispatch 2; LDatagram [42%N]; LCallback 0; LMiddle false; LEnd; LFlush; LWaited; LFlushed;
          LHandler; LHandler; LHandler; LHandler; LCallback 0]%nat.
  eexists. split; vm_compute; reflexivity.
Qed.

(** After a timeout with a send and a receive outstanding, the second callback
    stores a new exception, which the next dispatch raises. *)
Theorem C45_spurious_refuted : exists ls s s', urun 16 false init_udp ls = Some s /\ since_throw (u_tr s) = [OFail] /\
  u_user s = UIdle /\ ustep 16 false s (LDispatch 3%nat) = Some s' /\ u_user s' = UH1.
Proof.
  exists [LDispatch 1; LSent true; LCallback 0; LDispatch 2; LFlush; LDeadline; LCallback 1; LWaited; LFlushed;
          LHandler; LHandler; LHandler; LHandler; LCallback 0]%nat.
  eexists. eexists. split; [vm_compute; reflexivity|]. repeat split; vm_compute; reflexivity.
Qed.

(** *** C49 *)

Record zinv (s : ust) (e : list obs) : Prop := {
  z_fin : (u_acts s <> 0%nat \/ u_actr s <> 0%nat \/ u_rdy s <> []) -> u_fin s = false;
  z_io : u_io s = IOIdle;
  z_chk : checks (u_tr s) = [];
  z_handed : handed e <> [] -> u_disp s <> None \/ u_user s = UH3 \/ u_user s = UH4;
  z_disp : u_disp s <> None -> u_exc s = true \/ u_done s = false \/ u_user s = UH3 \/ u_user s = UH4;
  z_wake : u_user s = UWake -> u_done s = true \/ u_exc s = true;
  z_infl : u_disp s = None -> u_infl s = 0;
  z_q : u_disp s = None -> u_queue s = [];
  z_h4 : u_user s = UH4 -> u_infl s = 0 /\ u_queue s = []
}.

Lemma zinv_store s e : zinv s e -> zinv (store s) (e ++ [OFail]).
Proof.
  intros Z. destruct Z. constructor; recs; hist; auto.
Qed.

Lemma zero_inv max : 1 <= max -> forall ls s s', urun max true s ls = Some s' -> zinv s (since_throw (u_tr s)) -> zinv s' (since_throw (u_tr s')).
Proof.
  intros M. induction ls as [|l ls IH]; intros s s' R Z; cbn [urun] in R; [injection R as <-; exact Z|].
  destruct (ustep max true s l) as [s1|] eqn:ST; [|discriminate]. eapply IH; [exact R|]. clear IH R. unfold ustep in ST.
  destruct (u_ub s); [discriminate|]. assert (Z0 := Z). destruct Z. destruct l; rewrite ?z_io0 in ST; try discriminate.
  - destruct (u_user s) eqn:U; try discriminate. injection ST as <-. destruct (u_exc s) eqn:X.
    + constructor; recs; auto; try discriminate. intros H. destruct (z_handed0 H) as [?|[?|?]]; auto; discriminate.
    + unfold implement_dispatch. recs. destruct (u_disp s) eqn:D.
      * constructor; recs; hist; auto; try discriminate; try congruence; try (left; discriminate).
        intros _. destruct z_disp0 as [?|[?|[?|?]]]; auto; discriminate.
      * rewrite (z_infl0 eq_refl), (z_q0 eq_refl). destruct (N.eqb_spec 0 max); [lia|].
        constructor; recs; hist; auto; try discriminate; try congruence; try (left; discriminate).
  - destruct (u_user s) eqn:U, (u_exc s) eqn:X, (u_open s); try discriminate. injection ST as <-.
    constructor; recs; auto; try discriminate; try (intros H; destruct (z_handed0 H) as [?|[?|?]]; auto; discriminate).
    intros H; destruct (z_disp0 H) as [?|[?|[?|?]]]; auto; discriminate.
  - destruct (u_user s) eqn:U; try discriminate. injection ST as <-.
    constructor; recs; auto; try discriminate; try (intros H; destruct (z_handed0 H) as [?|[?|?]]; auto; discriminate).
    intros H; destruct (z_disp0 H) as [?|[?|[?|?]]]; auto; discriminate.
  - destruct (u_user s) eqn:U, (u_done s) eqn:D; try discriminate. injection ST as <-.
    constructor; recs; auto; try discriminate; try (intros H; destruct (z_handed0 H) as [?|[?|?]]; auto; discriminate).
    intros H; destruct (z_disp0 H) as [?|[?|[?|?]]]; auto; try discriminate.
  - destruct (u_user s) eqn:U; try discriminate. injection ST as <-. destruct (u_exc s) eqn:X.
    + constructor; recs; auto; try discriminate; try (intros H; destruct (z_handed0 H) as [?|[?|?]]; auto; discriminate).
    + constructor; recs; hist; auto; try discriminate; try (intros H; destruct (z_handed0 H) as [?|[?|?]]; auto; discriminate).
      intros H; destruct (z_disp0 H) as [?|[?|[?|?]]]; auto; discriminate.
  - destruct (u_user s) eqn:U; try discriminate; injection ST as <-; unfold handler; rewrite U.
    + assert (P : zinv (put_user s UH2) (since_throw (u_tr s))).
      { constructor; recs; auto; try discriminate; try (intros H; destruct (z_handed0 H) as [?|[?|?]]; auto; discriminate).
        intros H; destruct (z_disp0 H) as [?|[?|[?|?]]]; auto; discriminate. }
      destruct (u_open s); [|exact P]. destruct P. constructor; recs; auto.
      intros [H|[H|H]]; try (exfalso; apply H; reflexivity). apply z_fin0. destruct (u_acts s), (u_actr s); cbn [repeat app] in H; rewrite ?app_nil_r in H; auto.
    + constructor; recs; auto; try discriminate.
    + constructor; recs; auto; try discriminate.
    + destruct (z_h5 eq_refl) as (H1 & H2). constructor; recs; hist; auto; try discriminate; try congruence.
  - destruct (u_acts s) eqn:A; [discriminate|]. injection ST as <-. constructor; recs; auto.
  - destruct (u_actr s) eqn:A, (u_open s); try discriminate. injection ST as <-. constructor; recs; hist; auto.
  - destruct (u_actr s) eqn:A; [discriminate|]. injection ST as <-. constructor; recs; auto.
  - destruct (u_fin s) eqn:F; try discriminate. injection ST as <-. constructor; recs; auto.
  - destruct (nth_error (u_rdy s) i) as [c|] eqn:NT; [|discriminate].
    assert (NE : u_rdy s <> []) by (intros E; rewrite E in NT; destruct i; discriminate).
    assert (F := z_fin0 (or_intror (or_intror NE))).
    assert (P : zinv (put_ops s (u_acts s) (u_actr s) (drop_nth (u_rdy s) i)) (since_throw (u_tr s))) by (constructor; recs; auto).
    injection ST as <-. destruct c; [unfold write_callback|unfold read_callback]; recs; rewrite F; recs.
    + destruct (u_exc s) eqn:X; [destruct P; constructor; recs; auto|]. apply zinv_store in P. recs. rewrite since_snoc. exact P.
    + destruct (u_exc s) eqn:X; [destruct P; constructor; recs; auto|]. apply zinv_store in P. recs. rewrite since_snoc. exact P.
Qed.

(** C49 is false.  After setTimeoutPeriod(0) no reply is ever looked at, and a
    dispatch with at least one packet never returns normally - whatever the
    schedule. *)
Theorem C49_refuted : forall max ls s, 1 <= max -> urun max true init_udp ls = Some s ->
  checks (u_tr s) = [] /\
  (forall s', ustep max true s LFlushed = Some s' -> u_tr s' = u_tr s ++ [OReturn] -> handed (since_throw (u_tr s)) = []).
Proof.
  intros max ls s M R. assert (Z : zinv s (since_throw (u_tr s))).
  { eapply zero_inv; [exact M|exact R|]. constructor; cbn; auto; try discriminate; try congruence. intros [H|[H|H]]; congruence. }
  destruct Z. split; [assumption|]. intros s' ST TR. unfold ustep in ST. destruct (u_ub s); [discriminate|].
  destruct (u_user s) eqn:U; try discriminate. injection ST as <-. destruct (u_exc s) eqn:X.
  { exfalso. recs. rewrite <- app_nil_r in TR at 1. apply app_inv_head in TR. discriminate. }
  destruct (handed (since_throw (u_tr s))) as [|h t]; [reflexivity|exfalso].
  destruct z_handed0 as [H|[H|H]]; try discriminate.
  destruct (z_disp0 H) as [?|[?|[?|?]]]; try discriminate. destruct (z_wake0 eq_refl); congruence.
Qed.

(** *** Examples *)

(** Limit 1: the second packet waits for the reply to the first. *)
Definition good_run : list ulabel :=
  [LDispatch 7; LDispatch 8; LSent true; LCallback 0; LFlush; LDatagram [1%N]; LCallback 0; LMiddle true; LEnd;
   LSent true; LCallback 0; LDatagram [2%N]; LCallback 0; LMiddle true; LEnd; LWaited]%nat.
Example udp_good : exists s, urun 1 false init_udp good_run = Some s /\ reached 1 false s /\ u_exc s = false /\ exists s', ustep 1 false s LFlushed = Some s' /\
  u_tr s' = [OHanded 7; OSent 7; OHanded 8; ORecv [1%N]; OCheck 7 [1%N] true; OSent 8; ORecv [2%N]; OCheck 8 [2%N] true; OReturn]%nat.
Proof.
  eexists. split; [vm_compute; reflexivity|]. split; [|split; [reflexivity|eexists; split; vm_compute; reflexivity]].
  exists good_run. split; [vm_compute; reflexivity|]. vm_compute. repeat split; discriminate.
Qed.

(** A timeout, the handler after all callbacks, and a new dispatch. *)
Definition timeout_run : list ulabel :=
  [LDispatch 1; LSent true; LCallback 0; LDispatch 2; LFlush; LDeadline; LCallback 1; LCallback 0; LWaited; LFlushed; LHandler; LHandler; LHandler]%nat.
Example udp_timeout : exists s, reached 16 false s /\ In OFail (since_throw (u_tr s)) /\ u_user s = UH4 /\ exists s', urun 16 false s [LHandler; LDispatch 3; LSent true; LCallback 0; LDatagram [9%N]; LCallback 0; LMiddle true; LEnd; LFlush; LWaited; LFlushed]%nat = Some s' /\
  since_throw (u_tr s') = [OHanded 3; OSent 3; ORecv [9%N]; OCheck 3 [9%N] true; OReturn]%nat.
Proof.
  eexists. split; [exists timeout_run; split; [vm_compute; reflexivity|vm_compute; repeat split; try discriminate; intros; repeat split; try discriminate]|]. split; [vm_compute; tauto|]. split; [reflexivity|].
  eexists. split; vm_compute; reflexivity.
Qed.

(** A dispatch waiting for its reply. *)
Example udp_waiting : exists s, reached 16 false s /\ u_user s = UWait /\ u_done s = false /\ steps_left s = 17%nat.
Proof.
  eexists. split; [exists [LDispatch 1; LFlush]%nat; split; [vm_compute; reflexivity|vm_compute; repeat split; try discriminate; intros; repeat split; try discriminate]|]. repeat split.
Qed.

(** Zero timeout: the dispatch raises although the device would answer. *)
Example udp_zero : exists s, urun 16 true init_udp [LDispatch 1; LFlush; LSent true; LCallback 0; LWaited; LFlushed]%nat = Some s /\ u_user s = UH1.
Proof. eexists. split; vm_compute; reflexivity. Qed.

Print Assumptions C42_bound_partial.
Print Assumptions C43_order_partial.
Print Assumptions C44_return_partial.
Print Assumptions C44_progress_partial.
Print Assumptions C44_terminates.
Print Assumptions C44_fail_kept_partial.
Print Assumptions C45_places_partial.
Print Assumptions C45_recovered_partial.
Print Assumptions C45_null_refuted.
Print Assumptions C43_stale_refuted.
Print Assumptions C49_refuted.
