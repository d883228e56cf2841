(** C20-C26, C56, C58: which values become readable, for every behaviour of the
    network.

    An execution is any list of events that [Net.nrun] accepts: user calls,
    dispatch and its outcome, replies with arbitrary words to the oldest
    unanswered packet, and timeouts or socket errors. *)
From Verif Require Import Word Bits Header WordLemmas HeaderProofs ValMem Client
  Validate Target Spec SpecLemmas System Tx E2E E2ECor Sent WireSpec SentProofs ReplySpec
  Prop_Headers Prop_Wire ReplyProofs Net NetProofs NetProofs2 NetProofs3.
From Coq Require Import NArith ZArith List Lia Bool ZifyBool ZifyNat ZifyN.
Import ListNotations.
Open Scope N_scope.

(** Every access to the content of handle [c] raises NonValidatedMemory. *)
Definition unreadable (y : net) (c : nat) : Prop :=
  exists k, nth_error (s_heap (n_c y)) c = Some k /\
    word_value k = None /\ vec_value k = None /\ (forall i, vec_at k i = None) /\ cell_valid k = false.

(** Handle [c] can be read (for a write acknowledgement: it is valid). *)
Definition readable (y : net) (c : nat) : Prop :=
  exists k, nth_error (s_heap (n_c y)) c = Some k /\ cell_valid k = true.

(** Packet [b] carries a part of handle [c]: its words, or its completion. *)
Definition carries (b : buf) (c : nat) : Prop :=
  In c (b_vals b) \/ In (DWord c) (b_reply b) \/ exists off len, In (DVec c off len) (b_reply b).

(** Packets not yet answered, and the one being filled. *)
Definition waiting (y : net) (b : buf) : Prop :=
  In b (s_out (n_c y)) \/ s_cur (n_c y) = Some b.

Lemma carries_cells b c : carries b c <-> In c (cells b).
Proof.
  unfold carries, cells, slots. rewrite in_app_iff, in_flat_map. split.
  - intros [H|[H|(o & n & H)]]; [auto| |]; left; eexists; (split; [exact H|left; reflexivity]).
  - intros [(d & H & Q)|H]; [|auto]. destruct d as [| | |x|x o n]; cbn in Q; try contradiction;
      destruct Q as [<-|[]]; eauto.
Qed.

Lemma waiting_pend y b : waiting y b <-> In b (pend (n_c y)).
Proof.
  unfold waiting, pend. rewrite in_app_iff. destruct (s_cur (n_c y)); cbn; intuition (try congruence).
Qed.

Lemma unreadable_inval y c : unreadable y c <-> inval (s_heap (n_c y)) c.
Proof.
  split.
  - intros (k & E & _ & _ & _ & V). exists k. auto.
  - intros (k & E & V). exists k. destruct k as [v|v x m|v l]; cbn in V; subst v; cbn; auto.
Qed.

Lemma not_readable y c : unreadable y c -> readable y c -> False.
Proof. intros (k & E & _ & _ & _ & V) (k' & E' & V'). congruence. Qed.

Lemma ncalls_app a b : ncalls (a ++ b) = ncalls a ++ ncalls b.
Proof. apply flat_map_app. Qed.

Lemma Pinv_reach g ls y : cfg_ok g -> (forall o, In o (ncalls ls) -> op_ok o) ->
  nrun g init_net ls = Some y -> Pinv g y.
Proof.
  intros G OK R. apply (Pinv_run g G) with (ls := ls) (y := init_net); trivial.
  - intros b p h ws A B C. apply (receive_answers g b p h ws A B C).
  - apply (Pinv_empty g []).
Qed.

(** No sequence of user calls, replies and failures leads to undefined
    behaviour, and every packet in flight is well-formed and within the limits. *)
Theorem C22_packets_in_flight : forall g ls y, cfg_ok g -> (forall o, In o (ncalls ls) -> op_ok o) ->
  nrun g init_net ls = Some y ->
  n_bad y = false /\
  forall b, In b (s_out (n_c y)) -> exists xs, packet g b xs /\
    4 * N.of_nat (length (b_send b)) <= g_maxsend g /\ reply_counter b = 4 * reply_length g xs.
Proof.
  intros g ls y G OK R. assert (P := Pinv_reach g ls y G OK R). split; [exact (proj1 P)|].
  intros b Hb. assert (Q := Pinv_packets g y P). unfold Pk in Q. rewrite Forall_forall in Q.
  destruct (Q b Hb) as ((S1 & _) & p & A & B & C). destruct (repr_packet g b p A B C) as (X & Y).
  exists (map to_w (fst p)). split; [exact X|]. split; [exact S1|exact Y].
Qed.

(** C22: a reply is accepted exactly when it answers the packet (in the sense of
    [ReplySpec.answers]); otherwise the error is that of the first fault, no
    handle changes its state, and the failure is stored. *)
Theorem C22_acceptance : forall g ls y b q ws, cfg_ok g -> (forall o, In o (ncalls ls) -> op_ok o) ->
  nrun g init_net ls = Some y -> s_out (n_c y) = b :: q -> n_fail y = false ->
  exists xs y', packet g b xs /\ nstep g y (NReply ws) = Some y' /\
    (n_fail y' = false <-> answers g xs ws) /\
    (exists r, packet_fault g xs ws r /\
       snd (receive_packet g (s_heap (n_c y)) b ws) = match r with None => VOk | Some e => VErr e end) /\
    (~ answers g xs ws -> forall c, unreadable y' c <-> unreadable y c) /\
    (answers g xs ws -> forall c, In c (b_vals b) -> readable y' c).
Proof.
  intros g ls y b q ws G OK R O F. assert (P := Pinv_reach g ls y G OK R).
  assert (Q := Pinv_packets g y P). unfold Pk in Q. rewrite O in Q. inversion Q as [|? ? (_ & p & A & B & C) _]; subst.
  destruct (repr_packet g b p A B C) as (X & _).
  assert (NI := nrun_Ninv g ls _ _ Ninv_init R). destruct NI as ((WA & _) & _).
  destruct (receive_answers g b p (s_heap (n_c y)) ws A B C) as (AC & NB).
  destruct (receive_fault g b p (s_heap (n_c y)) ws A B C) as (r & F1 & F2).
  exists (map to_w (fst p)). cbn [nstep]. rewrite F, O.
  assert (RH : fst (receive_packet g (s_heap (n_c y)) b ws) =
    match snd (receive_packet g (s_heap (n_c y)) b ws) with
    | VOk => mark_valid (fill (s_heap (n_c y)) (scatter (b_reply b) ws)) (b_vals b)
    | _ => fill (s_heap (n_c y)) (scatter (b_reply b) ws) end).
  { unfold receive_packet. destruct (validate_packet g b (scatter (b_reply b) ws)); reflexivity. }
  destruct (receive_packet g (s_heap (n_c y)) b ws) as [h [|e|]] eqn:RP; cbn [fst snd] in *; [| |congruence].
  - eexists. split; [exact X|]. split; [reflexivity|]. cbn [n_fail n_c].
    split; [split; intros; [apply AC|]; reflexivity|]. split; [exists r; auto|]. split.
    + intros N0. destruct N0. apply AC. reflexivity.
    + intros _ c Hc. unfold readable. cbn [n_c set_heap set_out s_heap]. rewrite RH, mark_valid_nth.
      destruct (in_dec Nat.eq_dec c (b_vals b)) as [_|N0]; [|contradiction].
      assert (L : (c < length (fill (s_heap (n_c y)) (scatter (b_reply b) ws)))%nat).
      { rewrite fill_length. apply inval_lt. apply (WA b).
        - unfold pend. rewrite O. left. reflexivity.
        - unfold cells. apply in_or_app. auto. }
      destruct (nth_error _ c) as [k|] eqn:E; [|apply nth_error_None in E; lia].
      exists (cell_validate k). split; [reflexivity|]. destruct k; reflexivity.
  - eexists. split; [exact X|]. split; [reflexivity|]. cbn [n_fail n_c].
    split; [split; [discriminate|intros Y; apply AC in Y; discriminate]|]. split; [exists r; auto|]. split.
    + intros _ c. rewrite !unreadable_inval. cbn [n_c set_heap s_heap]. rewrite RH.
      split; apply flag_inval; [symmetry|]; apply fill_flag.
    + intros Y. apply AC in Y. discriminate.
Qed.

(** C20: a handle is unreadable from the call that returned it until the packet
    completing it has been answered; nothing of it is then left in any packet. *)
Theorem C20_unreadable_until_checked : forall g ls y o s c y1 ms y2,
  cfg_ok g -> (forall p, In p (ncalls (ls ++ NOp o :: ms)) -> op_ok p) ->
  nrun g init_net ls = Some y ->
  run_op g (set_budget (n_c y) (n_fail y)) o = Ok s c -> nstep g y (NOp o) = Some y1 ->
  nrun g y1 ms = Some y2 ->
  unreadable y1 c /\
  (unreadable y2 c \/
   exists m1 ws m2 ya yb b q xs, ms = m1 ++ NReply ws :: m2 /\
     nrun g y1 m1 = Some ya /\ nstep g ya (NReply ws) = Some yb /\
     unreadable ya c /\ s_out (n_c ya) = b :: q /\ In c (b_vals b) /\
     packet g b xs /\ answers g xs ws /\
     forall b', waiting yb b' -> ~ carries b' c).
Proof.
  intros g ls y o s c y1 ms y2 G OK R OP ST RM.
  assert (NI := nrun_Ninv g ls _ _ Ninv_init R). assert (N1 := nstep_ok g y (NOp o) y1 NI ST).
  destruct N1 as (N1 & _).
  assert (U : unreadable y1 c).
  { apply unreadable_inval. destruct NI as (WS & _).
    assert (P := run_op_post g (set_budget (n_c y) (n_fail y)) o (Wst_budget _ _ WS)).
    rewrite OP in P. destruct P as (_ & -> & (k & HK & VK) & _).
    cbn [nstep] in ST. destruct (n_wait y); [discriminate|]. rewrite OP in ST. injection ST as <-.
    exists k. cbn [n_c]. rewrite HK. rewrite nth_error_app2 by lia. rewrite Nat.sub_diag. auto. }
  split; [exact U|]. apply unreadable_inval in U.
  destruct (flag_dec (s_heap (n_c y2)) c) as [V|V].
  - assert (L : forall ms y1, Ninv y1 -> nrun g y1 ms = Some y2 ->
      (length (s_heap (n_c y1)) <= length (s_heap (n_c y2)))%nat).
    { clear. induction ms as [|l t IH]; intros y1 NI R; [injection R as <-; lia|].
      cbn [nrun] in R. destruct (nstep g y1 l) as [z|] eqn:E; [|discriminate].
      destruct (nstep_ok g y1 l z NI E) as (N1 & LE & _). specialize (IH z N1 R). lia. }
    specialize (L ms y1 N1 RM). assert (Q := inval_lt _ _ U). lia.
  - right. destruct (nrun_completed g ms y1 y2 c N1 RM U) as (l1 & l & l2 & ya & yb & E & R1 & S1 & IA & CO & OC).
    { intros X. exact (valid_inval _ _ V X). }
    destruct CO as (ws & b & q & h & -> & FA & O & RP & IC).
    assert (RA : nrun g init_net (ls ++ NOp o :: l1) = Some ya).
    { rewrite nrun_app, R. cbn [nrun]. rewrite ST. exact R1. }
    assert (P : Pinv g ya).
    { apply (Pinv_reach g _ _ G) in RA; [exact RA|]. intros p Hp. apply OK. rewrite E.
      rewrite ncalls_app in *. apply in_app_or in Hp. apply in_or_app. destruct Hp as [Hp|Hp]; [auto|right].
      cbn [ncalls flat_map app] in *. destruct Hp as [Hp|Hp]; [left; exact Hp|right].
      change (In p (ncalls (l1 ++ NReply ws :: l2))). rewrite ncalls_app. apply in_or_app. auto. }
    assert (Q := Pinv_packets g ya P). unfold Pk in Q. rewrite O in Q. inversion Q as [|? ? (_ & p & A & B & C) _]; subst.
    destruct (repr_packet g b p A B C) as (X & _).
    destruct (receive_answers g b p (s_heap (n_c ya)) ws A B C) as (AC & _).
    exists l1, ws, l2, ya, yb, b, q, (map to_w (fst p)).
    split; [reflexivity|]. split; [exact R1|]. split; [exact S1|]. split; [apply unreadable_inval, IA|].
    split; [exact O|]. split; [exact IC|]. split; [exact X|]. split.
    + apply AC. rewrite RP. reflexivity.
    + intros b' Hb Hc. apply waiting_pend in Hb. apply carries_cells in Hc. apply OC. exists b'. auto.
  - left. apply unreadable_inval, V.
Qed.

(** C21: every handle obtained since the last transport exception (at or after
    state [y0]) is readable when dispatch returns, and keeps its content. *)
Theorem C21_dispatch_makes_readable : forall g ls0 y0 ls y c,
  nrun g init_net ls0 = Some y0 -> nrun g y0 (ls ++ [NReturn]) = Some y ->
  n_exc y = n_exc y0 -> (n_exc y0 = 0 \/ length (s_heap (n_c y0)) <= c)%nat ->
  (c < length (s_heap (n_c y)))%nat ->
  exists k, nth_error (s_heap (n_c y)) c = Some k /\ cell_valid k = true /\
    forall ms y', nrun g y ms = Some y' -> nth_error (s_heap (n_c y')) c = Some k.
Proof.
  intros g ls0 y0 ls y c R0 R EX B L.
  assert (NI0 := nrun_Ninv g _ _ _ Ninv_init R0). assert (NI := nrun_Ninv g _ _ _ NI0 R).
  assert (BASE : forall ls y0 y, Ninv y0 -> nrun g y0 ls = Some y ->
    (n_exc y0 <= n_exc y)%nat /\ (n_exc y = n_exc y0 -> n_base y = n_base y0)).
  { clear. induction ls as [|l t IH]; intros y0 y NI R; [injection R as <-; auto|].
    cbn [nrun] in R. destruct (nstep g y0 l) as [z|] eqn:E; [|discriminate].
    destruct (nstep_ok g y0 l z NI E) as (N1 & _ & _ & _ & _ & X). destruct (IH z y N1 R) as (I1 & I2).
    assert (Y : n_exc z = n_exc y0 -> n_base z = n_base y0).
    { clear - E. intros H. destruct y0 as [s fl w bad base ex dm]. destruct l as [o| | | |ws| |o k];
        cbn [nstep n_c n_fail n_wait n_bad n_base n_exc n_doom] in *.
      - destruct w; [discriminate|]. destruct (run_op g (set_budget s fl) o) as [? ?|? []|];
          injection E as <-; cbn [n_base n_exc] in *; solve [reflexivity|lia].
      - destruct w; [discriminate|]. destruct (s_cur s); [|injection E as <-; reflexivity].
        destruct (dispatch_send g (set_budget s fl)); injection E as <-; cbn [n_base n_exc] in *;
          solve [reflexivity|lia].
      - destruct (w && negb fl && negb dm); [|discriminate]. destruct (s_out s); [|discriminate]. injection E as <-. reflexivity.
      - destruct (w && (fl || dm)); [|discriminate]. injection E as <-. cbn [n_base n_exc] in *. lia.
      - destruct fl; [discriminate|]. destruct (s_out s); [discriminate|].
        destruct (receive_packet g (s_heap s) b ws) as [h []]; injection E as <-; reflexivity.
      - destruct (s_out s); [discriminate|]. injection E as <-. reflexivity.
      - destruct (w || fl); [discriminate|].
        match type of E with match ?m with _ => _ end = _ => destruct m; [|discriminate] end.
        injection E as <-. reflexivity. }
    destruct X as [(X & _)|(X & _)]; [|split; lia]. split; [lia|]. intros Z. rewrite I2, Y; lia. }
  destruct (BASE _ _ _ NI0 R) as (_ & BE). specialize (BE EX).
  assert (DM : n_doom y = false).
  { rewrite nrun_app in R. destruct (nrun g y0 ls) as [z|] eqn:E; [|discriminate].
    cbn [nrun nstep] in R. destruct (n_wait z && negb (n_fail z) && negb (n_doom z)) eqn:WF; [|discriminate].
    destruct (s_out (n_c z)); [|discriminate]. injection R as <-. cbn [n_doom].
    destruct (n_doom z); [rewrite andb_false_r in WF; discriminate|reflexivity]. }
  assert (Q : pend (n_c y) = []).
  { rewrite nrun_app in R. destruct (nrun g y0 ls) as [z|] eqn:E; [|discriminate].
    cbn [nrun nstep] in R. destruct (n_wait z && negb (n_fail z) && negb (n_doom z)) eqn:WF; [|discriminate].
    destruct (s_out (n_c z)) eqn:O; [|discriminate]. injection R as <-. cbn [n_c].
    unfold pend. rewrite O. cbn [app].
    assert (C : n_wait z = true -> s_cur (n_c z) = None).
    { assert (R2 : nrun g init_net (ls0 ++ ls) = Some z) by (rewrite nrun_app, R0; exact E).
      clear - R2. revert R2. generalize (ls0 ++ ls). clear ls0 ls. intros ls.
      assert (H : forall ls y, (n_wait y = true -> s_cur (n_c y) = None) -> nrun g y ls = Some z ->
        n_wait z = true -> s_cur (n_c z) = None).
      { clear. induction ls as [|l t IH]; intros y H R; [injection R as <-; exact H|].
        cbn [nrun] in R. destruct (nstep g y l) as [y1|] eqn:E; [|discriminate]. apply (IH y1); [|exact R].
        destruct y as [s fl w bad base ex dm]. destruct l as [o| | | |ws| |o k];
          cbn [nstep n_c n_fail n_wait n_bad n_base n_exc n_doom] in *.
        - destruct w; [discriminate|]. destruct (run_op g (set_budget s fl) o) as [? ?|? []|];
            injection E as <-; discriminate.
        - destruct w; [discriminate|]. destruct (s_cur s) as [b|] eqn:C; [|injection E as <-; discriminate].
          unfold dispatch_send in E. cbn [set_budget s_cur] in E. rewrite C in E.
          unfold send_current in E. destruct (predispatch g b); [|injection E as <-; discriminate].
          cbn [set_budget s_budget] in E. destruct fl; injection E as <-; cbn [n_wait n_c s_cur]; auto.
        - destruct (w && negb fl && negb dm); [|discriminate]. destruct (s_out s); [|discriminate]. injection E as <-. discriminate.
        - destruct (w && (fl || dm)); [|discriminate]. injection E as <-. discriminate.
        - destruct fl; [discriminate|]. destruct (s_out s); [discriminate|].
          destruct (receive_packet g (s_heap s) b ws) as [h []]; injection E as <-; exact H.
        - destruct (s_out s); [discriminate|]. injection E as <-. exact H.
        - destruct (w || fl); [discriminate|]. destruct o as [o|].
          + assert (BS := bsim_op g (cut_budget s k) o ltac:(discriminate)).
            destruct (run_op g (cut_budget s k) o) as [? ?|s1 []|]; try discriminate.
            injection E as <-. intros _. apply BS.
          + unfold dispatch_send in E. cbn [cut_budget s_cur] in E. destruct (s_cur s) as [b|]; [|discriminate].
            unfold send_current in E. destruct (predispatch g b); [|discriminate].
            cbn [cut_budget s_budget] in E. destruct k; [|discriminate]. injection E as <-. reflexivity. }
      apply (H ls init_net). discriminate. }
    destruct (n_wait z); [|discriminate]. rewrite (C eq_refl). reflexivity. }
  destruct NI as (WS & HB & HC & HE & HD). destruct NI0 as (_ & HB0 & _ & HE0 & _).
  destruct (HC DM c) as [(k & E & V)|(b & Hb & _)].
  - rewrite BE. split; [|exact L]. destruct B as [B|B]; [rewrite (HE0 B); lia|lia].
  - exists k. split; [exact E|]. split; [exact V|]. intros ms y' R'.
    apply (nrun_stable g ms y y' c k); trivial. split; [exact WS|]. auto.
  - rewrite Q in Hb. destruct Hb.
Qed.

(** C23: after a reply that does not answer its packet (for instance because of
    a non-zero info code anywhere in it), no handle the packet carries a part of
    ever becomes readable, and dispatch cannot return normally before an
    exception has been raised. *)
Theorem C23_failed_reply : forall g ls y b q ws y1, cfg_ok g -> (forall o, In o (ncalls ls) -> op_ok o) ->
  nrun g init_net ls = Some y -> s_out (n_c y) = b :: q -> nstep g y (NReply ws) = Some y1 ->
  exists xs, packet g b xs /\
  ((~ answers g xs ws \/
    (exists i x, nth_error xs i = Some x /\ word_info (g_ver g) (nth (reply_offset g xs i) ws 0) <> 0)) ->
   (forall ms y2 c, carries b c -> nrun g y1 ms = Some y2 -> unreadable y2 c) /\
   (forall ms y2, nrun g y1 (ms ++ [NReturn]) = Some y2 -> (n_exc y1 < n_exc y2)%nat) /\
   (forall ms y2, (forall o, In o (ncalls ms) -> op_ok o) -> nrun g y1 ms = Some y2 -> n_exc y2 = n_exc y1 ->
      nstep g y2 NReturn = None /\
      exists y3, nstep g y2 (if n_wait y2 then NThrow else NDispatch) = Some y3 /\ n_exc y3 = S (n_exc y2))).
Proof.
  intros g ls y b q ws y1 G OK R O ST.
  assert (F0 : n_fail y = false) by (cbn [nstep] in ST; destruct (n_fail y); [discriminate|reflexivity]).
  destruct (C22_acceptance g ls y b q ws G OK R O F0) as (xs & y' & X & ST' & AF & _ & UN & _).
  rewrite ST in ST'. injection ST' as <-.
  exists xs. split; [exact X|]. intros H.
  assert (NA : ~ answers g xs ws).
  { destruct H as [H|(i & x & E & I)]; [exact H|]. intros (_ & _ & A). destruct (A i x E) as (_ & _ & _ & Z). contradiction. }
  clear H. specialize (UN NA).
  assert (F : n_fail y1 = true) by (destruct (n_fail y1); [reflexivity|destruct NA; apply AF; reflexivity]).
  assert (NI := nrun_Ninv g ls _ _ Ninv_init R). assert (N1 := proj1 (nstep_ok g y (NReply ws) y1 NI ST)).
  split; [|split].
  - intros ms y2 c C R2. apply unreadable_inval. apply (nrun_dead g ms y1 y2 c N1 R2).
    split; [|left; exact F]. apply unreadable_inval, UN, unreadable_inval.
    destruct NI as ((WA & _) & _). apply (WA b).
    + unfold pend. rewrite O. left. reflexivity.
    + apply carries_cells, C.
  - intros ms y2 R2. rewrite nrun_app in R2. destruct (nrun g y1 ms) as [z|] eqn:E; [|discriminate].
    destruct (nrun_raises g ms y1 z N1 E F) as [FZ|FZ].
    + exfalso. cbn [nrun nstep] in R2. rewrite FZ, andb_false_r in R2. discriminate.
    + cbn [nrun nstep] in R2. destruct (n_wait z && negb (n_fail z) && negb (n_doom z)); [|discriminate].
      destruct (s_out (n_c z)); [|discriminate]. injection R2 as <-. exact FZ.
  - intros ms y2 OK2 R2 EX. destruct (nrun_raises g ms y1 y2 N1 R2 F) as [FZ|FZ]; [|lia].
    split; [cbn [nstep]; rewrite FZ, andb_false_r; reflexivity|].
    assert (R3 : nrun g init_net (ls ++ NReply ws :: ms) = Some y2).
    { rewrite nrun_app, R. cbn [nrun]. rewrite ST. exact R2. }
    assert (OK3 : forall o, In o (ncalls (ls ++ NReply ws :: ms)) -> op_ok o).
    { intros o Ho. rewrite ncalls_app in Ho. apply in_app_or in Ho. destruct Ho as [Ho|Ho]; auto. }
    assert (P2 := Pinv_reach g _ _ G OK3 R3).
    assert (K2 : Kinv y2).
    { apply (Kinv_run g G) with (ls := ls ++ NReply ws :: ms) (y := init_net); trivial.
      - intros b0 p h ws0 A B C. apply (receive_answers g b0 p h ws0 A B C).
      - apply Ninv_init.
      - apply (Pinv_empty g []).
      - intros Q. discriminate Q. }
    destruct (n_wait y2) eqn:W.
    + cbn [nstep]. rewrite FZ, W. eexists. split; reflexivity.
    + apply (fail_dispatch g G y2 P2 K2 FZ W).
Qed.

(** C58: the state after a transport exception is that of a fresh client, apart
    from the handles already given out; nothing queued before is left, handles
    that were not readable never will be; and what follows, on any device and
    under any schedule, is what a fresh client does. *)
Theorem C58_recovery : forall g ls y l y1, cfg_ok g -> nrun g init_net ls = Some y ->
  nstep g y l = Some y1 -> n_exc y1 = S (n_exc y) ->
  n_c y1 = mkSt 0 None (s_heap (n_c y1)) [] None /\ n_fail y1 = false /\ n_wait y1 = false /\
  (forall c, unreadable y1 c -> forall ms y2, nrun g y1 ms = Some y2 -> unreadable y2 c) /\
  forall D rd wr cf (d : D) ms z, Forall op_ok (calls ms) ->
    run D rd wr cf g (mkSys D (n_c y1) [] d false false) (ms ++ [LReturn]) = Some z ->
    let r := direct D rd wr cf (g_ver g) d (calls ms) in
    y_dev D z = fst r /\ s_heap (y_c D z) = s_heap (n_c y1) ++ snd r /\ y_bad D z = false.
Proof.
  intros g ls y l y1 G R ST EX.
  assert (NI := nrun_Ninv g ls _ _ Ninv_init R).
  destruct (nstep_ok g y l y1 NI ST) as (N1 & _ & _ & _ & _ & [(X & _)|(_ & F & C & W)]); [lia|].
  split; [exact C|]. split; [exact F|]. split; [exact W|]. split.
  - intros c U ms y2 R2. apply unreadable_inval. apply (nrun_dead g ms y1 y2 c N1 R2).
    split; [apply unreadable_inval, U|right]. rewrite C. intros (b & [] & _).
  - intros D rd wr cf d ms z OK RZ. rewrite C in RZ.
    destruct (return_quiescent_from D rd wr cf g G (s_heap (n_c y1)) d ms z OK RZ)
      as (_ & _ & _ & _ & B & E).
    unfold above in E. cbv zeta. injection E as E1 E2. rewrite E1, E2. auto.
Qed.

(** ** Cases *)

(** IPbus 2.0, packets of at most 32 bytes: a read, a block read of 9 words split
    over two packets, a masked write; the replies arrive during and after
    queueing. *)
Definition vcfg : cfg := mkCfg V2 32 32 None.
Definition v_ls : list nlabel :=
  [NOp (ORead 0x10 0xFF00); NOp (OReadBlock 0x20 9 true); NOp (OWrite 3 4)].
Definition v_hdr (t : ttype) (wc id info : N) : N :=
  match spec_type V2 t with Some ty => spec_header V2 ty wc id info | None => 0 end.
Definition v_reply0 : list N := [0x200000F0; v_hdr READ 1 0 0; 0xABCD; v_hdr READ 4 1 0; 1; 2; 3; 4].
Definition v_reply1 : list N := [0x200000F0; v_hdr READ 5 2 0; 5; 6; 7; 8; 9; v_hdr WRITE 1 3 0].

Example valid_case_hyps : cfg_ok vcfg /\ (forall o, In o (ncalls v_ls) -> op_ok o).
Proof.
  split; [unfold cfg_ok; cbn; repeat split; try lia; discriminate|].
  intros o [<-|[<-|[<-|[]]]]; cbn; lia.
Qed.

(** State after the three calls: two handles are carried by the oldest packet. *)
Example valid_case_queued : exists y b, nrun vcfg init_net v_ls = Some y /\
  s_out (n_c y) = [b] /\ b_vals b = [0%nat] /\ carries b 1 /\ unreadable y 0 /\ unreadable y 1 /\
  reply_counter b = 32.
Proof.
  eexists _, _. split; [vm_compute; reflexivity|]. split; [reflexivity|]. split; [reflexivity|].
  split; [right; right; exists 0, 4; cbn; auto 10|].
  split; [|split; [|reflexivity]]; apply unreadable_inval; eexists; split; reflexivity.
Qed.

(** All replies good: everything is readable. *)
Example valid_case_good :
  option_map (fun y => (map word_value (s_heap (n_c y)), map vec_value (s_heap (n_c y)),
                        map cell_valid (s_heap (n_c y)), n_exc y))
    (nrun vcfg init_net (v_ls ++ [NReply v_reply0; NDispatch; NReply v_reply1; NReturn])) =
  Some ([Some 0xAB; None; None], [None; Some [1; 2; 3; 4; 5; 6; 7; 8; 9]; None], [true; true; true], 0%nat).
Proof. vm_compute. reflexivity. Qed.

(** Second reply with info code 4 in the write transaction: the block, whose
    second part was fine, stays unreadable, dispatch raises, and the client can
    be used again. *)
Example valid_case_bus_error :
  option_map (fun y => (map cell_valid (s_heap (n_c y)), n_exc y, n_fail y, s_out (n_c y)))
    (nrun vcfg init_net (v_ls ++ [NReply v_reply0; NDispatch;
       NReply [0x200000F0; v_hdr READ 5 2 0; 5; 6; 7; 8; 9; v_hdr WRITE 1 3 4]; NThrow;
       NOp (ORead 1 0xFFFFFFFF); NDispatch; NReply [0x200000F0; v_hdr READ 1 0 0; 77]; NReturn])) =
  Some ([true; false; false; true], 1%nat, false, []).
Proof. vm_compute. reflexivity. Qed.

(** A failure in the middle of a call: a block read of 30 words needs several
    packets; the target answers the first one wrongly after the second has been
    sent, and the transport refuses the third.  No part of the block is readable;
    the client can be used again. *)
Example valid_case_cut :
  option_map (fun y => (map cell_valid (s_heap (n_c y)), n_exc y, n_fail y, s_out (n_c y)))
    (nrun vcfg init_net ([NOp (ORead 0x10 0xFF00); NCut (Some (OReadBlock 0x20 30 true)) 2;
       NReply v_reply0; NReply [0x200000F0; v_hdr READ 6 2 4; 5; 6; 7; 8; 9; 10]; NThrow;
       NOp (ORead 1 0xFFFFFFFF); NDispatch; NReply [0x200000F0; v_hdr READ 1 0 0; 77]; NReturn])) =
  Some ([true; false; true], 1%nat, false, []).
Proof. vm_compute. reflexivity. Qed.

(** connect() fails in dispatch. *)
Example valid_case_connect :
  option_map (fun y => (map cell_valid (s_heap (n_c y)), n_exc y, n_c y))
    (nrun vcfg init_net [NOp (ORead 0x10 0xFF00); NCut None 0; NThrow]) =
  Some ([false], 1%nat, mkSt 0 None [CWord false 0 0xFF00] [] None).
Proof. vm_compute. reflexivity. Qed.

(** The failing reply does not satisfy the specification, the good one does. *)
Example valid_case_spec : forall x0 x1,
  x0 = mkWtx READ 5 2 [0x24] -> x1 = mkWtx WRITE 1 3 [3; 4] ->
  answers vcfg [x0; x1] v_reply1 /\
  ~ answers vcfg [x0; x1] [0x200000F0; v_hdr READ 5 2 0; 5; 6; 7; 8; 9; v_hdr WRITE 1 3 4].
Proof.
  intros x0 x1 -> ->. split.
  - split; [discriminate|]. split; [reflexivity|].
    intros [|[|[|i]]] x E; try discriminate; injection E as <-;
      (split; [split; [reflexivity|]|vm_compute; auto]); [exists READ|exists WRITE]; reflexivity.
  - intros (_ & _ & H). destruct (H 1%nat _ eq_refl) as (_ & _ & _ & Q). vm_compute in Q. discriminate.
Qed.

(** C58, the exception of the bus-error case. *)
Example C58_case : exists y y1, nrun vcfg init_net (v_ls ++ [NReply v_reply0; NDispatch; NLost]) = Some y /\
  nstep vcfg y NThrow = Some y1 /\ n_exc y1 = S (n_exc y) /\ length (s_heap (n_c y1)) = 3%nat.
Proof. eexists _, _. split; [vm_compute; reflexivity|]. split; [vm_compute; reflexivity|]. split; reflexivity. Qed.

Print Assumptions C22_packets_in_flight.
Print Assumptions C22_acceptance.
Print Assumptions C20_unreadable_until_checked.
Print Assumptions C21_dispatch_makes_readable.
Print Assumptions C23_failed_reply.
Print Assumptions C58_recovery.
