(** C109: the TCP connection is there when something is written. *)
From Coq Require Import NArith ZArith List Bool Lia PeanoNat ZifyBool ZifyNat ZifyN.
From Verif Require Import Word Udp Tcp TcpProofs TcpProofs2 Prop_Tcp.
Import ListNotations.
Open Scope N_scope.

(** Specification: whenever the deadline passes, no packet is waiting to be sent. *)
Fixpoint patient bytes room nr max zero (s : tcp) (ls : list tlab) : Prop :=
  match ls with
  | [] => True
  | l :: t => (l = KDeadline -> k_queue s = []) /\
              match kstep bytes room nr max zero s l with Some s' => patient bytes room nr max zero s' t | None => True end
  end.

Definition cinv (s : tcp) : Prop :=
  match k_user s with
  | UH1 | UH2 => k_exc s = false -> k_queue s = []
  | UH3 => tquiet s
  | UH4 => tquiet s /\ k_queue s = []
  | _ => k_exc s = false -> k_queue s <> [] -> k_open s = true
  end.

Section Proofs.
Variables (bytes : pkt -> list N) (room : pkt -> N) (nr : nat) (max : N) (zero : bool).
Hypothesis nr_pos : (1 <= nr)%nat.
Notation step := (kstep bytes room nr max zero).

Lemma want_queue s : want_write nr max s = true -> k_queue s <> [].
Proof.
  unfold want_write. intros H E. rewrite E in H. apply andb_true_iff in H. destruct H as (H & _). apply Nat.leb_le in H. cbn [List.length] in H. destruct (k_flush s); lia.
Qed.

Lemma wr_facts s : k_user (twrite bytes nr zero s) = k_user s /\ k_exc (twrite bytes nr zero s) = k_exc s /\ k_open (twrite bytes nr zero s) = k_open s /\
  (k_queue s = [] -> k_queue (twrite bytes nr zero s) = []).
Proof. unfold twrite. krecs. repeat split. intros E. rewrite E. apply skipn_nil. Qed.

Lemma flush_exc s : k_exc (tflush bytes nr zero s) = k_exc s.
Proof.
  unfold tflush. cbn [k_queue k_disp tput_flush]. destruct (wr_facts (tput_flush s true)) as (_ & F & _). destruct (k_queue s); [reflexivity|]. destruct (k_disp s); [exact F|reflexivity].
Qed.

(** What a step of the thread of the io_service does: it stores an exception, or keeps the socket, and
    writes only what is waiting. *)
Definition plain (s s' : tcp) : Prop :=
  k_user s' = k_user s /\ (k_queue s = [] -> k_queue s' = []) /\
  (k_exc s' = true \/ k_exc s' = k_exc s /\ k_open s' = k_open s /\ (chunks (k_tr s') <> chunks (k_tr s) -> k_queue s <> [])).

Lemma chunks_snoc tr o : chunks (tr ++ [o]) = chunks tr ++ match o with TSent c _ => [c] | _ => [] end.
Proof. unfold chunks. rewrite flat_map_app. cbn [flat_map]. rewrite app_nil_r. reflexivity. Qed.

Lemma plain_same s s' : k_user s' = k_user s -> k_queue s' = k_queue s -> k_exc s' = k_exc s -> k_open s' = k_open s -> chunks (k_tr s') = chunks (k_tr s) -> plain s s'.
Proof. intros A B C D E. split; [exact A|]. split; [congruence|]. right. rewrite E. repeat split; auto; congruence. Qed.

Lemma plain_store s t : k_user t = k_user s -> k_queue t = k_queue s -> plain s (tstore t).
Proof. intros A B. unfold tstore. split; [krecs; exact A|]. split; [krecs; congruence|]. left. reflexivity. Qed.

Lemma plain_write s t : k_user t = k_user s -> k_queue t = k_queue s -> k_exc t = k_exc s -> k_open t = k_open s -> chunks (k_tr t) = chunks (k_tr s) ->
  plain s (if want_write nr max t then twrite bytes nr zero t else t).
Proof.
  intros A B C D E. destruct (want_write nr max t) eqn:W; [|apply plain_same; assumption]. pose proof (want_queue t W) as Q. destruct (wr_facts t) as (F1 & F2 & F3 & F4).
  split; [congruence|]. split; [intros Z; apply F4; congruence|]. right. split; [congruence|]. split; [congruence|]. intros _. congruence.
Qed.

Lemma io_plain s l s' : step s l = Some s' -> tnot_user l -> l <> KDeadline -> plain s s'.
Proof.
  intros ST NU ND. destruct l; try contradiction NU; try congruence; cbn [kstep] in ST.
  - destruct (k_acts s); [discriminate|]. injection ST as <-. apply plain_same; reflexivity.
  - destruct (k_actr s); [discriminate|]. injection ST as <-. apply plain_same; reflexivity.
  - destruct (k_io s); try discriminate. destruct (_ <=? _); [|discriminate]. injection ST as <-. unfold tread_body. destruct (_ || _).
    + apply (plain_store s (tclose s)); reflexivity.
    + apply plain_same; try reflexivity. krecs. rewrite chunks_snoc, app_nil_r. reflexivity.
  - destruct (k_io s); try discriminate. destruct (nth_error (k_rdy s) i) as [c|]; [|discriminate]. injection ST as <-. destruct c as [err n|err n].
    + unfold twrite_callback. krecs. destruct (k_exc s) eqn:X; [apply plain_same; krecs; auto|]. destruct (negb (k_fin s)); [apply plain_store; reflexivity|].
      destruct (_ || _); [apply plain_store; reflexivity|]. destruct (k_reply s); apply plain_write; reflexivity.
    + unfold tread_callback. krecs. destruct (k_exc s) eqn:X; [apply plain_same; krecs; auto|]. destruct (negb (k_fin s)); [apply plain_store; reflexivity|].
      apply plain_same; reflexivity.
  - destruct (k_io s); try discriminate. injection ST as <-. unfold tread_header. destruct (_ || _); [apply (plain_store s (tclose s)); reflexivity|apply plain_same; reflexivity].
  - destruct (k_io s) as [| | |c|]; try discriminate. destruct c as [|p c]; [discriminate|]. injection ST as <-. unfold tcheck. destruct v.
    + apply plain_same; try reflexivity. krecs. rewrite chunks_snoc, app_nil_r. reflexivity.
    + split; [reflexivity|]. split; [auto|]. left. reflexivity.
  - destruct (k_io s); try discriminate. injection ST as <-. unfold tread_end.
    set (t := match k_rqueue _ with [] => _ | _ => _ end).
    assert (T : k_user t = k_user s /\ k_queue t = k_queue s /\ k_exc t = k_exc s /\ k_open t = k_open s /\ k_tr t = k_tr s).
    { unfold t. krecs. destruct (k_rqueue s); krecs; auto. }
    clearbody t. destruct T as (T1 & T2 & T3 & T4 & T5).
    set (u := match k_disp t with [] => _ | _ => _ end).
    assert (U : plain s u). { unfold u. destruct (k_disp t); [apply plain_write|apply plain_same]; try assumption; congruence. }
    clearbody u. destruct (k_disp u), (k_reply u); exact U.
Qed.

Lemma quiet_io s l : tquiet s -> tnot_user l -> l <> KDeadline -> step s l = None.
Proof.
  intros (A & B & C & D) NU ND. destruct l; try contradiction NU; try congruence; cbn [kstep]; rewrite ?A, ?B, ?C, ?D; try reflexivity.
  destruct i; reflexivity.
Qed.

(** The user's thread dispatches. *)
Lemma disp_facts s p : let s' := timplement_dispatch bytes nr max zero s p in k_user s' = k_user s /\ k_exc s' = k_exc s /\ k_open s' = true.
Proof.
  unfold timplement_dispatch. set (s1 := if k_open s then s else _).
  assert (E : k_open s1 = true /\ k_user s1 = k_user s /\ k_exc s1 = k_exc s) by (unfold s1; destruct (k_open s) eqn:O; krecs; auto). clearbody s1. destruct E as (E1 & E2 & E3).
  cbv zeta. destruct (_ && _); [|krecs; auto]. set (t := tsee _ _). destruct (wr_facts t) as (F1 & F2 & F3 & _). rewrite F1, F2, F3. unfold t. krecs. auto.
Qed.

Lemma io_case s l s' : cinv s -> step s l = Some s' -> tnot_user l -> l <> KDeadline ->
  cinv s' /\ (k_exc s = false -> k_exc s' = false -> chunks (k_tr s') <> chunks (k_tr s) -> k_open s' = true).
Proof.
  intros CI ST NU ND. destruct (io_plain s l s' ST NU ND) as (P1 & P2 & P3). unfold cinv in *. rewrite P1.
  assert (QQ : tquiet s -> False) by (intros Q; rewrite (quiet_io s l Q NU ND) in ST; discriminate).
  destruct (k_user s) eqn:U; try (exfalso; tauto).
  1,2,3: (split; [intros X Q; destruct P3 as [P3|(P3 & P4 & _)]; [congruence|]; rewrite P4; apply CI; [congruence|]; intros Z; apply Q; auto|]);
    intros X X' C; (destruct P3 as [P3|(P3 & P4 & P5)]; [congruence|]); rewrite P4; auto.
  1,2: (split; [intros X; destruct P3 as [P3|(P3 & P4 & _)]; [congruence|]; apply P2, CI; congruence|]);
    intros X X' C; (destruct P3 as [P3|(P3 & P4 & P5)]; [congruence|]); exfalso; apply (P5 C); apply CI; exact X.
Qed.

Definition good (s s' : tcp) : Prop := cinv s' /\ (k_exc s = false -> k_exc s' = false -> chunks (k_tr s') <> chunks (k_tr s) -> k_open s' = true).

Lemma step_dispatch s p s' : cinv s -> step s (KDispatch p) = Some s' -> good s s'.
Proof.
  intros CI ST. cbn [kstep] in ST. destruct (k_user s) eqn:U; try discriminate. unfold cinv in CI. rewrite U in CI.
  destruct (k_exc s) eqn:X.
  - injection ST as <-. split; [unfold cinv; cbn; congruence|]. congruence.
  - assert (ST' : timplement_dispatch bytes nr max zero s p = s') by congruence. clear ST. destruct (disp_facts s p) as (D1 & D2 & D3). rewrite ST' in *.
    split; [|intros; exact D3]. unfold cinv. rewrite D1, U. intros; exact D3.
Qed.

Lemma step_fail s s' : cinv s -> step s KConnectFail = Some s' -> good s s'.
Proof.
  intros CI ST. cbn [kstep] in ST. unfold cinv in CI. destruct (k_user s) eqn:U, (k_exc s) eqn:X, (k_open s) eqn:O; try discriminate. injection ST as <-.
  split; [|intros _ _ Z; exfalso; apply Z; reflexivity]. unfold cinv. cbn. intros _. destruct (k_queue s) eqn:Q; [reflexivity|]. specialize (CI eq_refl ltac:(discriminate)). congruence.
Qed.

Lemma step_flush s s' : cinv s -> step s KFlush = Some s' -> good s s'.
Proof.
  intros CI ST. cbn [kstep] in ST. unfold cinv in CI. destruct (k_user s) eqn:U; try discriminate.
  assert (ST' : s' = tput_user (tflush bytes nr zero s) UWait) by congruence. clear ST.
  assert (F : k_exc (tflush bytes nr zero s) = k_exc s /\ k_open (tflush bytes nr zero s) = k_open s /\ (k_queue s = [] -> k_queue (tflush bytes nr zero s) = []) /\
              (k_queue s = [] -> chunks (k_tr (tflush bytes nr zero s)) = chunks (k_tr s))).
  { unfold tflush. cbn [k_queue k_disp tput_flush]. destruct (wr_facts (tput_flush s true)) as (F1 & F2 & F3 & F4). cbn in F2, F3.
    destruct (k_queue s) eqn:Q; [cbn; auto|]. destruct (k_disp s); [|cbn; repeat split; auto; discriminate]. split; [exact F2|]. split; [exact F3|]. split; discriminate. }
  destruct F as (F1 & F2 & F3 & F4). subst s'. generalize dependent (tflush bytes nr zero s). intros w F1 F2 F3 F4. unfold good, cinv. cbn. rewrite F1, F2.
  split; intros X; [|intros _]; intros Z; apply CI; auto; intros Q; apply Z; auto.
Qed.

Lemma step_waited s s' : cinv s -> step s KWaited = Some s' -> good s s'.
Proof.
  intros CI ST. cbn [kstep] in ST. unfold cinv in CI. destruct (k_user s) eqn:U; try discriminate. destruct (k_done s); try discriminate.
  injection ST as <-. unfold good, cinv. cbn. split; [exact CI|intros _ _ Z; exfalso; apply Z; reflexivity].
Qed.

Lemma step_flushed s s' : cinv s -> step s KFlushed = Some s' -> good s s'.
Proof.
  intros CI ST. cbn [kstep] in ST. unfold cinv in CI. destruct (k_user s) eqn:U; try discriminate. destruct (k_exc s) eqn:X; injection ST as <-; unfold good, cinv; cbn; rewrite ?X.
  - split; congruence.
  - split; [exact CI|]. rewrite chunks_snoc, app_nil_r. congruence.
Qed.

Lemma step_handler s s' : cinv s -> step s KHandler = Some s' -> (k_user s = UH2 -> tclean s) -> good s s'.
Proof.
  intros CI ST CH. cbn [kstep] in ST. unfold cinv in CI. destruct (k_user s) eqn:U; try discriminate; injection ST as <-; unfold thandler; rewrite U.
  - destruct (k_open s); unfold good, cinv; cbn; (split; [exact CI|intros _ _ Z; exfalso; apply Z; reflexivity]).
  - destruct (CH eq_refl) as (Q & _). unfold good, cinv, tquiet in *. cbn. split; [exact Q|intros _ _ Z; exfalso; apply Z; reflexivity].
  - unfold good, cinv, tquiet in *. cbn. split; [split; [exact CI|reflexivity]|intros _ _ Z; exfalso; apply Z; reflexivity].
  - unfold good, cinv. cbn. split; [intros _ Z; destruct CI; congruence|]. rewrite chunks_snoc, app_nil_r. congruence.
Qed.

Lemma step_deadline s s' : cinv s -> step s KDeadline = Some s' -> k_queue s = [] -> good s s'.
Proof.
  intros CI ST PA. cbn [kstep] in ST. destruct (k_io s) eqn:IO; try discriminate. destruct (k_fin s); [|discriminate]. injection ST as <-.
  split; [|intros _ _ Z; exfalso; apply Z; reflexivity]. unfold cinv in *. unfold tcheck_deadline. cbn. destruct (k_user s); try (intros; congruence); try exact CI.
  - destruct CI as (A & B & C & D). unfold tquiet. cbn. rewrite A, B, C. repeat split; auto.
  - destruct CI as ((A & B & C & D) & E). unfold tquiet. cbn. rewrite A, B, C. repeat split; auto.
Qed.

Lemma cinv_step s l s' : cinv s -> step s l = Some s' -> (l = KHandler -> k_user s = UH2 -> tclean s) -> (l = KDeadline -> k_queue s = []) -> good s s'.
Proof.
  intros CI ST CH PA. destruct l.
  - exact (step_dispatch s p s' CI ST).
  - exact (step_fail s s' CI ST).
  - exact (step_flush s s' CI ST).
  - exact (step_waited s s' CI ST).
  - exact (step_flushed s s' CI ST).
  - exact (step_handler s s' CI ST (CH eq_refl)).
  - exact (io_case s _ s' CI ST I ltac:(discriminate)).
  - exact (io_case s _ s' CI ST I ltac:(discriminate)).
  - exact (step_deadline s s' CI ST (PA eq_refl)).
  - exact (io_case s _ s' CI ST I ltac:(discriminate)).
  - exact (io_case s _ s' CI ST I ltac:(discriminate)).
  - exact (io_case s _ s' CI ST I ltac:(discriminate)).
  - exact (io_case s _ s' CI ST I ltac:(discriminate)).
  - exact (io_case s _ s' CI ST I ltac:(discriminate)).
Qed.

Lemma cinv_run : forall ls s s', cinv s -> krun bytes room nr max zero s ls = Some s' -> clean_handlers bytes room nr max zero s ls -> patient bytes room nr max zero s ls -> cinv s'.
Proof.
  induction ls as [|l ls IH]; intros s s' CI R CH PA; [injection R as <-; exact CI|]. cbn [krun clean_handlers patient] in *.
  destruct (step s l) as [s1|] eqn:ST; [|discriminate]. destruct CH as (C1 & C2), PA as (P1 & P2). exact (IH s1 s' (proj1 (cinv_step s l s1 CI ST C1 P1)) R C2 P2).
Qed.
End Proofs.

(** Whenever a chunk is written and no exception is stored, the connection is open.  Partial: only as long
    as the deadline does not pass while packets are waiting to be sent ([patient]; see
    [C109_pause_refuted]); clean handlers only. *)
Theorem C109_open_partial : forall bytes room nr max zero ls l s s', (1 <= nr)%nat ->
  krun bytes room nr max zero init_tcp ls = Some s -> clean_handlers bytes room nr max zero init_tcp ls -> patient bytes room nr max zero init_tcp ls ->
  l <> KDeadline -> kstep bytes room nr max zero s l = Some s' -> k_exc s' = false -> chunks (k_tr s') <> chunks (k_tr s) -> k_open s' = true.
Proof.
  intros bytes room nr max zero ls l s s' NR R CH PA ND ST X C. assert (CI : cinv s).
  { eapply (cinv_run bytes room nr max zero NR ls init_tcp s); eauto. unfold cinv. cbn. congruence. }
  destruct (k_exc s) eqn:XS.
  - (* only the handler removes a stored exception, and it writes nothing *)
    exfalso. destruct l; cbn [kstep] in ST.
    + destruct (k_user s); try discriminate. rewrite XS in ST. injection ST as <-. krecs. congruence.
    + destruct (k_user s); try discriminate. rewrite XS in ST. discriminate.
    + destruct (k_user s); try discriminate. injection ST as <-. pose proof (flush_exc bytes nr zero s) as F. change (k_exc (tflush bytes nr zero s) = false) in X. congruence.
    + destruct (k_user s), (k_done s); try discriminate. injection ST as <-. krecs. congruence.
    + destruct (k_user s); try discriminate. rewrite XS in ST. injection ST as <-. krecs. congruence.
    + apply C. destruct (k_user s) eqn:U; try discriminate; injection ST as <-; unfold thandler; rewrite U.
      * destruct (k_open s); reflexivity.
      * reflexivity.
      * reflexivity.
      * krecs. rewrite chunks_snoc, app_nil_r. reflexivity.
    + destruct (io_plain bytes room nr max zero NR s (KSentBytes err n) s' ST I ltac:(discriminate)) as (_ & _ & [P|(P & _)]); congruence.
    + destruct (io_plain bytes room nr max zero NR s (KHeader err n cnt) s' ST I ltac:(discriminate)) as (_ & _ & [P|(P & _)]); congruence.
    + congruence.
    + destruct (io_plain bytes room nr max zero NR s (KBody err n) s' ST I ltac:(discriminate)) as (_ & _ & [P|(P & _)]); congruence.
    + destruct (io_plain bytes room nr max zero NR s (KCallback i) s' ST I ltac:(discriminate)) as (_ & _ & [P|(P & _)]); congruence.
    + destruct (io_plain bytes room nr max zero NR s KMiddle s' ST I ltac:(discriminate)) as (_ & _ & [P|(P & _)]); congruence.
    + destruct (io_plain bytes room nr max zero NR s (KValidate v) s' ST I ltac:(discriminate)) as (_ & _ & [P|(P & _)]); congruence.
    + destruct (io_plain bytes room nr max zero NR s KLast s' ST I ltac:(discriminate)) as (_ & _ & [P|(P & _)]); congruence.
  - destruct l; try (refine (proj2 (cinv_step bytes room nr max zero NR s _ s' CI ST _ _) XS X C); intros; congruence).
    exfalso. apply C. cbn [kstep] in ST. destruct (k_user s) eqn:U; try discriminate; injection ST as <-; unfold thandler; rewrite U.
    + destruct (k_open s); reflexivity.
    + reflexivity.
    + reflexivity.
    + krecs. rewrite chunks_snoc, app_nil_r. reflexivity.
Qed.

Lemma filter_le {T} (f : T -> bool) l : (List.length (filter f l) <= List.length l)%nat.
Proof. induction l as [|x l IH]; cbn [filter List.length]; [lia|]. destruct (f x); cbn [List.length]; lia. Qed.

(** Without a ControlHub a packet waits to be sent only while the transport waits for the network: the deadline then means a timeout. *)
Theorem C109_single : forall bytes room max zero s, limits 1 max -> treached bytes room 1 max zero s ->
  k_exc s = false -> (k_user s = UIdle \/ k_user s = UWait \/ k_user s = UWake) -> k_queue s <> [] ->
  (1 <= k_acts s + k_actr s + List.length (k_rdy s))%nat \/ k_io s <> TIdle.
Proof.
  intros bytes room max zero s L R X U Q. assert (M := w_mode _ _ _ _ (treached_inv _ _ _ _ _ _ L R)). unfold tmode in M. rewrite X in M.
  assert (V : tlive 1 max s (tsince (k_tr s))) by (destruct U as [H|[H|H]]; rewrite H in M; exact M). clear M U.
  destruct V as [L0 _ VQ _ _ _ _]. destruct L0. destruct (k_io s) eqn:IO; try (right; discriminate). left. cbn [busy] in v_r.
  assert (S1 : (kS (k_rdy s) <= List.length (k_rdy s))%nat) by apply filter_le. assert (R1 : (kR (k_rdy s) <= List.length (k_rdy s))%nat) by apply filter_le.
  destruct (k_disp s) as [|d ds] eqn:D; [|cbn [ne List.length] in v_s; lia]. destruct (k_reply s) as [|r rs] eqn:RP; [|cbn [ne List.length] in v_r; lia].
  exfalso. rewrite (v_rq eq_refl) in v_infl. cbn in v_infl. destruct L as (_ & L1 & _). destruct (VQ eq_refl) as [Z|[Z|(_ & Z)]]; [congruence|lia|].
  destruct (k_queue s); [congruence|cbn [List.length] in Z; lia].
Qed.

Definition waiting (p : pkt) (o f : bool) (tr : list tobs) : tcp := mkT false [] [p] [] [] 0 false true f o 0 0 0 0 [] TIdle UIdle tr.

Lemma flush_closed bytes room n0 max p :
  krun bytes room (S (S n0)) max false (waiting p true true [THanded p]) [KDeadline; KFlush] =
  Some (mkT false [p] [] [] [] 1 true false true false (swap32 (count bytes [p])) 0 1 0 [] TIdle UWait [THanded p; TSent [p] (mem4 (swap32 (count bytes [p])) ++ flat_map bytes [p])]).
Proof.
  assert (W : twrite bytes (S (S n0)) false (mkT false [] [p] [] [] 0 true true false false 0 0 0 0 [] TIdle UIdle [THanded p]) =
    mkT false [p] [] [] [] 1 true false true false (swap32 (count bytes [p])) 0 1 0 [] TIdle UIdle [THanded p; TSent [p] (mem4 (swap32 (count bytes [p])) ++ flat_map bytes [p])]).
  { unfold twrite. krecs. cbn [List.length Nat.min firstn skipn app]. reflexivity. }
  change (Some (tput_user (twrite bytes (S (S n0)) false (mkT false [] [p] [] [] 0 true true false false 0 0 0 0 [] TIdle UIdle [THanded p])) UWait) =
    Some (mkT false [p] [] [] [] 1 true false true false (swap32 (count bytes [p])) 0 1 0 [] TIdle UWait [THanded p; TSent [p] (mem4 (swap32 (count bytes [p])) ++ flat_map bytes [p])])).
  rewrite W. reflexivity.
Qed.

Lemma after_closed bytes room nr max p c tr n :
  krun bytes room nr max false (mkT false [p] [] [] [] 1 true false true false c 0 1 0 [] TIdle UWait tr)
    [KSentBytes true n; KCallback 0; KWaited; KFlushed; KHandler; KHandler; KHandler; KHandler] = Some (mkT false [] [] [] [] 0 true true true false 0 0 0 0 [] TIdle UIdle ((tr ++ [TFail]) ++ [TThrow])).
Proof. reflexivity. Qed.

(** With a ControlHub a packet can wait without anything being asked of the network.  If the deadline
    passes meanwhile (it was set when the connection was made), the connection is closed, Flush writes to the closed
    socket, and dispatch raises an exception; the packet was never sent. *)
Theorem C109_pause_refuted : forall bytes room nr max p, (2 <= nr)%nat ->
  exists s0 s, krun bytes room nr max false init_tcp [KDispatch p] = Some s0 /\ k_open s0 = true /\ tquiet s0 /\
    krun bytes room nr max false s0 [KDeadline; KFlush] = Some s /\ k_open s = false /\ k_acts s = 1%nat /\ k_exc s = false /\
    forall n, exists s', krun bytes room nr max false s [KSentBytes true n; KCallback 0; KWaited; KFlushed; KHandler; KHandler; KHandler; KHandler] = Some s' /\
      In TThrow (k_tr s') /\ k_queue s' = [] /\ thanded (k_tr s') = [p] /\ tchecks (k_tr s') = [].
Proof.
  intros bytes room nr max p NR. destruct nr as [|[|n0]]; [lia|lia|].
  exists (waiting p true true [THanded p]).
  exists (mkT false [p] [] [] [] 1 true false true false (swap32 (count bytes [p])) 0 1 0 [] TIdle UWait [THanded p; TSent [p] (mem4 (swap32 (count bytes [p])) ++ flat_map bytes [p])]).
  split; [reflexivity|]. split; [reflexivity|]. split; [repeat split|]. split; [apply flush_closed|]. split; [reflexivity|]. split; [reflexivity|]. split; [reflexivity|].
  intros n. eexists. split; [apply after_closed|]. split; [cbn; auto 10|]. split; [reflexivity|]. split; reflexivity.
Qed.

(** Two dispatches over a connection that was closed in between, when nothing was waiting. *)
Definition reconnect_run : list tlab := [KDispatch 1; KFlush; KSentBytes false 12; KCallback 0; KHeader false 4 134217728; KCallback 0; KMiddle; KBody false 8; KValidate true; KLast; KWaited; KFlushed; KDeadline]%nat.
Example C109_case_open : exists s s', krun exbytes (fun _ => 100) 1 16 false init_tcp reconnect_run = Some s /\
  clean_handlers exbytes (fun _ => 100) 1 16 false init_tcp reconnect_run /\ patient exbytes (fun _ => 100) 1 16 false init_tcp reconnect_run /\
  k_open s = false /\ kstep exbytes (fun _ => 100) 1 16 false s (KDispatch 2%nat) = Some s' /\ k_exc s' = false /\ chunks (k_tr s') <> chunks (k_tr s) /\ k_open s' = true.
Proof.
  do 2 eexists. split; [vm_compute; reflexivity|]. split; [apply no_handler; reflexivity|]. split; [vm_compute; repeat split; intros; try discriminate|].
  split; [reflexivity|]. split; [vm_compute; reflexivity|]. split; [reflexivity|]. split; [vm_compute; discriminate|reflexivity].
Qed.
(** Five packets, four of which wait. *)
Example C109_case_single : exists s, krun exbytes (fun _ => 100) 1 16 false init_tcp (map KDispatch (seq 0 5)) = Some s /\
  clean_handlers exbytes (fun _ => 100) 1 16 false init_tcp (map KDispatch (seq 0 5)) /\ k_exc s = false /\ k_user s = UIdle /\ k_queue s = [1; 2; 3; 4]%nat /\ k_acts s = 1%nat.
Proof. eexists. split; [vm_compute; reflexivity|]. split; [apply no_handler; reflexivity|]. repeat split. Qed.
Example C109_case_pause : exists s, krun exbytes (fun _ => 100) 3 60 false init_tcp [KDispatch 1; KDeadline; KFlush; KSentBytes true 0; KCallback 0; KWaited; KFlushed]%nat = Some s /\ k_user s = UH1 /\ k_exc s = true.
Proof. eexists. split; vm_compute; auto. Qed.

Print Assumptions C109_open_partial.
Print Assumptions C109_single.
Print Assumptions C109_pause_refuted.
