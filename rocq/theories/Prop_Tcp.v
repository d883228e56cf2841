(** C46 - C48 and C64 - C67: the TCP transport. *)
From Coq Require Import NArith ZArith List Bool Lia PeanoNat ZifyBool ZifyNat ZifyN.
From Verif Require Import Word Udp Tcp TcpProofs TcpProofs2.
Import ListNotations.
Open Scope N_scope.
Ltac Zify.zify_post_hook ::= Z.div_mod_to_equations.

(** The specification is in [TcpProofs.v]: [tsince], [thanded], [chunks],
    [frames], [trecvd], [tchecks], [unanswered] are functions of the history of
    observable events; [clean_handlers] restricts executions to those in which,
    whenever the handler clears a stored exception, no callback is outstanding
    and mReplyQueue is empty. *)

(** Conditions on nr_buffers_per_send and getMaxNumberOfBuffers. *)
Definition limits (nr : nat) (max : N) : Prop :=
  (1 <= nr)%nat /\ 1 <= max /\ (N.of_nat nr | max) /\ max + 2 * N.of_nat nr < W32.

(** They hold of the instantiations at lines 654-658: IPbus 1.3, IPbus 2.0 and
    the two ControlHub protocols. *)
Example limits_v1 : limits 1 1. Proof. repeat split; try lia; exists 1; reflexivity. Qed.
Example limits_v2 : limits 1 16. Proof. repeat split; try lia; exists 16; reflexivity. Qed.
Example limits_hub : limits 3 60. Proof. repeat split; try lia; exists 20; reflexivity. Qed.

(** Reachable states: in any execution, in a clean execution. *)
Definition tany bytes room nr max zero (s : tcp) : Prop := exists ls, krun bytes room nr max zero init_tcp ls = Some s.
Definition treached bytes room nr max zero (s : tcp) : Prop :=
  exists ls, krun bytes room nr max zero init_tcp ls = Some s /\ clean_handlers bytes room nr max zero init_tcp ls.

Lemma treached_inv bytes room nr max zero s : limits nr max -> treached bytes room nr max zero s -> tinv nr max s (tsince (k_tr s)).
Proof.
  intros (A & B & C & D) (ls & R & Q). eapply tcp_inv; try eassumption. apply init_tinv; assumption.
Qed.
Lemma tany_finv bytes room nr max zero s : (1 <= nr)%nat -> tany bytes room nr max zero s -> finv bytes nr s.
Proof. intros A (ls & R). eapply finv_run; try eassumption. apply finv_init; assumption. Qed.

(** Executions without exception handling are clean. *)
Lemma no_handler bytes room nr max zero : forall ls s, forallb (fun l => match l with KHandler => false | _ => true end) ls = true ->
  clean_handlers bytes room nr max zero s ls.
Proof.
  induction ls as [|l ls IH]; intros s F; cbn [forallb clean_handlers] in *; [exact I|]. apply andb_true_iff in F. destruct F as (F1 & F2). split.
  - intros ->. discriminate.
  - destruct (kstep bytes room nr max zero s l); auto.
Qed.

(** ** C46 *)

(** Specification: a 32-bit number with the most significant byte first. *)
Definition be4 (n : N) : list N := [(n / 2 ^ 24) mod 2 ^ 8; (n / 2 ^ 16) mod 2 ^ 8; (n / 2 ^ 8) mod 2 ^ 8; n mod 2 ^ 8].

(** Specification: how a receiver splits the stream (at most [fuel] messages). *)
Fixpoint deframe (fuel : nat) (b : list N) : option (list (list N)) :=
  match fuel, b with
  | _, [] => Some []
  | S f, b0 :: b1 :: b2 :: b3 :: t =>
      let n := N.to_nat (b0 * 2 ^ 24 + b1 * 2 ^ 16 + b2 * 2 ^ 8 + b3) in
      if Nat.leb n (List.length t) then option_map (cons (firstn n t)) (deframe f (skipn n t)) else None
  | _, _ => None
  end.

(** Packets are so short that the bytes of a chunk can be counted in 32 bits. *)
Definition short (bytes : pkt -> list N) (nr : nat) : Prop := exists b, (forall p, psize bytes p <= b) /\ N.of_nat nr * b < W32.

Lemma mem4_swap n : n < W32 -> mem4 (swap32 n) = be4 n.
Proof.
  intros L. unfold mem4, swap32, be4, W32 in *.
  assert (E : n = 16777216 * ((n / 16777216) mod 256) + 65536 * ((n / 65536) mod 256) + 256 * ((n / 256) mod 256) + n mod 256) by lia.
  assert (A0 := N.mod_lt n 256 ltac:(lia)). assert (A1 := N.mod_lt (n / 256) 256 ltac:(lia)).
  assert (A2 := N.mod_lt (n / 65536) 256 ltac:(lia)). assert (A3 := N.mod_lt (n / 16777216) 256 ltac:(lia)).
  change (2 ^ 24) with 16777216. change (2 ^ 16) with 65536. change (2 ^ 8) with 256.
  revert A0 A1 A2 A3. generalize (n mod 256) ((n / 256) mod 256) ((n / 65536) mod 256) ((n / 16777216) mod 256). clear. intros a b c d A0 A1 A2 A3.
  f_equal; [|f_equal; [|f_equal; [|f_equal]]]; lia.
Qed.

Lemma count_len bytes nr c : short bytes nr -> (List.length c <= nr)%nat ->
  count bytes c = N.of_nat (List.length (flat_map bytes c)) /\ N.of_nat (List.length (flat_map bytes c)) < W32.
Proof.
  intros (b & PB & LB) L. unfold count.
  assert (TL : forall c, N.of_nat (List.length (flat_map bytes c)) <= N.of_nat (List.length c) * b).
  { clear c L. induction c as [|p c IH]; cbn [flat_map List.length]; [lia|]. rewrite app_length. specialize (PB p). unfold psize in PB. nia. }
  assert (T0 : N.of_nat (List.length (flat_map bytes c)) < W32) by (specialize (TL c); nia).
  split; [|exact T0].
  assert (G : forall c a, a + N.of_nat (List.length (flat_map bytes c)) < W32 -> fold_left (fun n p => add32 n (psize bytes p)) c a = a + N.of_nat (List.length (flat_map bytes c))).
  { clear. induction c as [|p c IH]; intros a H; cbn [fold_left flat_map List.length] in *; [lia|]. rewrite app_length in *.
    assert (E : add32 a (psize bytes p) = a + psize bytes p) by (unfold add32, psize, W32 in *; lia). rewrite E. rewrite IH; unfold psize in *; lia. }
  rewrite G; lia.
Qed.

(** Every write gives the socket the length of what follows, most significant
    byte first, and the packets of the chunk one after the other; a chunk has at
    least one and at most nr_buffers_per_send packets.  In every execution. *)
Theorem C46_frame : forall bytes room nr max zero s c b, (1 <= nr)%nat -> short bytes nr -> tany bytes room nr max zero s ->
  In (TSent c b) (k_tr s) ->
  b = be4 (N.of_nat (List.length (flat_map bytes c))) ++ flat_map bytes c /\ c <> [] /\ (List.length c <= nr)%nat.
Proof.
  intros bytes room nr max zero s c b A H R I. assert (F := f_frames _ _ _ (tany_finv _ _ _ _ _ _ A R)).
  rewrite Forall_forall in F. destruct (F _ I) as (F1 & F2 & ->). destruct (count_len bytes nr c H F2) as (E1 & E2).
  unfold frame_of. rewrite E1, mem4_swap by exact E2. auto.
Qed.

(** The packets of the chunks, in order, are the first of those handed over
    since the last exception.  In every execution. *)
Theorem C46_order : forall bytes room nr max zero s, (1 <= nr)%nat -> tany bytes room nr max zero s ->
  tprefix (concat (chunks (tsince (k_tr s)))) (thanded (tsince (k_tr s))).
Proof.
  intros bytes room nr max zero s A R. assert (F := f_ord _ _ _ (tany_finv _ _ _ _ _ _ A R)).
  destruct (k_user s); try tauto; rewrite F; eexists; reflexivity.
Qed.

(** A receiver that splits the stream by the lengths gets the chunks back. *)
Lemma be4_value n : n < W32 -> match be4 n with
  | [b0; b1; b2; b3] => b0 * 2 ^ 24 + b1 * 2 ^ 16 + b2 * 2 ^ 8 + b3 = n | _ => False end.
Proof.
  intros L. unfold be4, W32 in *. change (2 ^ 24) with 16777216. change (2 ^ 16) with 65536. change (2 ^ 8) with 256. lia.
Qed.
Lemma deframe_one f n x t : n = List.length x -> N.of_nat n < W32 ->
  deframe (S f) ((be4 (N.of_nat n) ++ x) ++ t) = option_map (cons x) (deframe f t).
Proof.
  intros -> L. assert (V := be4_value _ L). unfold be4 in *. cbn [app deframe]. rewrite V, Nnat.Nat2N.id.
  assert (LE : Nat.leb (List.length x) (List.length (x ++ t)) = true) by (apply Nat.leb_le; rewrite app_length; lia). rewrite LE.
  rewrite firstn_app, Nat.sub_diag, firstn_all, skipn_app, Nat.sub_diag, skipn_all. cbn [firstn skipn app]. rewrite app_nil_r. reflexivity.
Qed.
Theorem C46_stream : forall bytes room nr max zero s, (1 <= nr)%nat -> short bytes nr -> tany bytes room nr max zero s ->
  let e := tsince (k_tr s) in
  deframe (List.length (chunks e)) (concat (frames e)) = Some (map (flat_map bytes) (chunks e)).
Proof.
  intros bytes room nr max zero s A H R e.
  assert (G : Forall (fun o => match o with TSent c b => b = be4 (N.of_nat (List.length (flat_map bytes c))) ++ flat_map bytes c /\ N.of_nat (List.length (flat_map bytes c)) < W32 | _ => True end) e).
  { apply Forall_forall. intros o I. assert (I2 : In o (k_tr s)).
    { subst e. clear - I. revert I. generalize (k_tr s). intros tr. induction tr as [|x tr IH] using rev_ind; [cbn; tauto|].
      rewrite tsince_snoc. intros I. apply in_or_app. destruct x; try (apply in_app_iff in I; destruct I as [I|I]; [left; auto|right; exact I]). destruct I. }
    destruct o; auto. destruct (C46_frame _ _ _ _ _ _ _ _ A H R I2) as (E1 & _ & E2). destruct (count_len _ _ _ H E2). auto. }
  clearbody e. clear R s. induction e as [|o e IH]; [reflexivity|]. inversion G as [|? ? G1 G2]; subst. specialize (IH G2).
  destruct o; try exact IH. destruct G1 as (-> & G1). cbn [chunks frames flat_map app List.length concat map] in *. rewrite deframe_one by auto.
  change (flat_map (fun o => match o with TSent c0 _ => [c0] | _ => [] end) e) with (chunks e). change (flat_map (fun o => match o with TSent _ b => [b] | _ => [] end) e) with (frames e). 
  fold (chunks e) in IH. rewrite IH. reflexivity.
Qed.

(** ** C47 *)

(** At most [max + nr] packets are sent and unanswered, and at most [max] outside
    Flush.  Partial: the limit is exceeded by the write of Flush, see
    [C47_refuted]; and not for executions with unclean handlers. *)
Theorem C47_bound_partial : forall bytes room nr max zero s, limits nr max -> treached bytes room nr max zero s ->
  (List.length (unanswered (tsince (k_tr s))) <= N.to_nat max + match k_user s with UIdle => 0 | _ => nr end)%nat.
Proof. intros bytes room nr max zero s L R. exact (w_bound _ _ _ _ (w_common _ _ _ _ (treached_inv _ _ _ _ _ _ L R))). Qed.

(** The same packets, dispatched one after the other, each chunk sent at once;
    then Flush. *)
Definition fill (nr k : nat) : list tlab :=
  flat_map (fun i => map KDispatch (seq (nr * i) nr) ++ [KSentBytes false (4 + N.of_nat nr); KCallback 0]) (seq 0 k).

(** The limits do not hold: 2 packets are unanswered for IPbus 1.3, 17 for
    IPbus 2.0 and 63 for the ControlHub. *)
Theorem C47_refuted :
  (exists ls s, krun (fun _ => [0]) (fun _ => 4) 1 1 false init_tcp ls = Some s /\ clean_handlers (fun _ => [0]) (fun _ => 4) 1 1 false init_tcp ls /\
     List.length (unanswered (tsince (k_tr s))) = 2%nat) /\
  (exists ls s, krun (fun _ => [0]) (fun _ => 4) 1 16 false init_tcp ls = Some s /\ clean_handlers (fun _ => [0]) (fun _ => 4) 1 16 false init_tcp ls /\
     List.length (unanswered (tsince (k_tr s))) = 17%nat) /\
  (exists ls s, krun (fun _ => [0]) (fun _ => 4) 3 60 false init_tcp ls = Some s /\ clean_handlers (fun _ => [0]) (fun _ => 4) 3 60 false init_tcp ls /\
     List.length (unanswered (tsince (k_tr s))) = 63%nat).
Proof.
  split; [|split].
  - exists (fill 1 1 ++ [KDispatch 1%nat; KFlush]). eexists. split; [vm_compute; reflexivity|]. split; [apply no_handler; vm_compute; reflexivity|vm_compute; reflexivity].
  - exists (fill 1 16 ++ [KDispatch 16%nat; KFlush]). eexists. split; [vm_compute; reflexivity|]. split; [apply no_handler; vm_compute; reflexivity|vm_compute; reflexivity].
  - exists (fill 3 20 ++ [KDispatch 60; KDispatch 61; KDispatch 62; KFlush]%nat). eexists. split; [vm_compute; reflexivity|]. split; [apply no_handler; vm_compute; reflexivity|vm_compute; reflexivity].
Qed.

(** ** C64: order of the checks *)

(** Packets are checked in the order they were sent, each at most once, and only
    when the reply to their chunk has been received; all packets of a chunk are
    checked before the reply to the next one is received.  Partial: clean
    handlers only, see [C64_order_refuted]. *)
Theorem C64_order_partial : forall bytes room nr max zero s, limits nr max -> treached bytes room nr max zero s ->
  let e := tsince (k_tr s) in
  tprefix (map fst (tchecks e)) (concat (firstn (trecvd e) (chunks e))) /\
  tprefix (concat (firstn (trecvd e - 1) (chunks e))) (map fst (tchecks e)) /\
  (trecvd e <= List.length (chunks e))%nat.
Proof. intros bytes room nr max zero s L R e. destruct (w_common _ _ _ _ (treached_inv _ _ _ _ _ _ L R)). auto. Qed.

(** While no failure is stored, every packet handed over is in exactly one place:
    checked, awaiting its reply or its check, being sent, or queued.  Partial:
    clean handlers only. *)
Theorem C64_places_partial : forall bytes room nr max zero s, limits nr max -> treached bytes room nr max zero s -> k_exc s = false ->
  k_user s <> UH3 -> k_user s <> UH4 ->
  let e := tsince (k_tr s) in
  thanded e = map fst (tchecks e) ++ match k_io s with TCheck c => c | TEnd => [] | _ => k_reply s end ++
              concat (k_rqueue s) ++ k_disp s ++ k_queue s.
Proof.
  intros bytes room nr max zero s L R X N3 N4 e. assert (M := w_mode _ _ _ _ (treached_inv _ _ _ _ _ _ L R)).
  assert (F : finv bytes nr s) by (destruct R as (ls & R & _); apply (tany_finv bytes room nr max zero); [apply L|exists ls; exact R]).
  assert (V : tlive nr max s e) by (unfold tmode in M; destruct (k_user s); try congruence; rewrite X in M; exact M).
  assert (O := f_ord _ _ _ F). fold e in O. replace (match k_user s with UH4 => true | _ => false end) with false in O by (destruct (k_user s); congruence).
  destruct V as [[] _ _ _ _ _ _]. destruct v_old as (old & pre & C & RC & K & P). rewrite O, C, K, !concat_app, !concat_ne, <- !app_assoc. f_equal.
  rewrite !app_assoc. do 3 f_equal. unfold io_part in P. destruct (k_io s); try (subst pre; reflexivity).
  - destruct P as (-> & ->). reflexivity.
  - tauto.
  - subst pre. rewrite app_nil_r. reflexivity.
Qed.

(** ** C65: return and exception *)

(** When Flush returns normally, every packet handed over since the last
    exception was sent, answered and found valid, and no failure was stored.
    Partial: clean handlers only, see [C65_return_refuted]. *)
Theorem C65_return_partial : forall bytes room nr max zero s s', limits nr max -> treached bytes room nr max zero s ->
  kstep bytes room nr max zero s KFlushed = Some s' -> k_tr s' = k_tr s ++ [TReturn] ->
  let e := tsince (k_tr s) in
  concat (chunks e) = thanded e /\ trecvd e = List.length (chunks e) /\ map fst (tchecks e) = thanded e /\
  Forall (fun c => snd c = true) (tchecks e) /\ ~ In TFail e.
Proof.
  intros bytes room nr max zero s s' L R ST TR e. assert (W := treached_inv _ _ _ _ _ _ L R).
  assert (F : finv bytes nr s) by (destruct R as (ls & R & _); apply (tany_finv bytes room nr max zero); [apply L|exists ls; exact R]).
  cbn [kstep] in ST. destruct (k_user s) eqn:U; try discriminate. injection ST as <-. destruct (k_exc s) eqn:X.
  { exfalso. cbn [tput_user k_tr] in TR. rewrite <- app_nil_r in TR at 1. apply app_inv_head in TR. discriminate. }
  assert (M := w_mode _ _ _ _ W). unfold tmode in M. rewrite U, X in M. destruct M as [L0 B Q DN WK FL DR]. destruct L0.
  destruct (proj1 DN (WK U)) as (D & RP). assert (RQ := v_rq RP). destruct v_old as (old & pre & C & RC & K & P).
  rewrite D, RP, RQ in *. cbn [ne app List.length concat] in *. rewrite app_nil_r in C.
  assert (IO : k_io s = TIdle) by (destruct (k_io s); cbn [busy] in v_r; [reflexivity|lia..]).
  unfold io_part in P. rewrite IO in *. cbn [got] in RC. subst pre. rewrite app_nil_r in K. rewrite Nat.add_0_r in RC.
  assert (QE : k_queue s = []).
  { destruct (Q eq_refl) as [Z|[Z|(Z & _)]]; [exact Z|unfold limits in L; lia|]. rewrite U in FL. cbn [flushing] in FL. congruence. }
  assert (O := f_ord _ _ _ F). rewrite U, QE, app_nil_r in O. subst e. rewrite O, K, C, RC. auto.
Qed.

(** A stored failure is raised by the next dispatch, and by Flush. *)
Theorem C65_raise : forall bytes room nr max zero s l s', kstep bytes room nr max zero s l = Some s' ->
  (l = KFlushed \/ exists p, l = KDispatch p) -> k_exc s = true -> k_user s' = UH1 /\ k_tr s' = k_tr s.
Proof.
  intros bytes room nr max zero s l s' ST [->|(p & ->)] X; cbn [kstep] in ST; destruct (k_user s); try discriminate; rewrite X in ST; injection ST as <-; auto.
Qed.

(** Failures stay stored until the handler runs.  Partial: clean handlers only. *)
Theorem C65_fail_kept_partial : forall bytes room nr max zero s, limits nr max -> treached bytes room nr max zero s ->
  In TFail (tsince (k_tr s)) -> k_user s <> UH3 -> k_user s <> UH4 -> k_exc s = true.
Proof.
  intros bytes room nr max zero s L R F N3 N4. assert (M := w_mode _ _ _ _ (treached_inv _ _ _ _ _ _ L R)). destruct (k_exc s) eqn:X; [reflexivity|].
  exfalso. unfold tmode in M. destruct (k_user s); try congruence; rewrite X in M; destruct M as [[] _ _ _]; contradiction.
Qed.

(** With a timeout other than zero, an outstanding operation has a deadline. *)
Lemma tdeadline_set bytes room nr max : forall ls s s', krun bytes room nr max false s ls = Some s' ->
  ((k_acts s + k_actr s)%nat <> 0%nat -> k_fin s = true) -> (k_acts s' + k_actr s')%nat <> 0%nat -> k_fin s' = true.
Proof.
  induction ls as [|l ls IH]; intros s s' R H; cbn [krun] in R; [injection R as <-; exact H|].
  destruct (kstep bytes room nr max false s l) as [s1|] eqn:ST; [|discriminate]. eapply IH; [exact R|]. clear IH R. destruct l; cbn [kstep] in ST.
  - destruct (k_user s); try discriminate. injection ST as <-. destruct (k_exc s); [exact H|]. unfold timplement_dispatch.
    destruct (_ && _); [reflexivity|]. destruct (k_open s); krecs; auto.
  - destruct (k_user s), (k_exc s), (k_open s); try discriminate. injection ST as <-. krecs. auto.
  - destruct (k_user s); try discriminate. injection ST as <-. unfold tflush. krecs. destruct (k_queue s), (k_disp s); try exact H. reflexivity.
  - destruct (k_user s), (k_done s); try discriminate. injection ST as <-. exact H.
  - destruct (k_user s); try discriminate. injection ST as <-. destruct (k_exc s); exact H.
  - destruct (k_user s) eqn:U; try discriminate; injection ST as <-; unfold thandler; rewrite U; try exact H.
    destruct (k_open s); [|exact H]. krecs. intros X. exfalso. apply X. reflexivity.
  - destruct (k_acts s) eqn:A; [discriminate|]. injection ST as <-. krecs. intros _. apply H. lia.
  - destruct (k_actr s) eqn:A; [discriminate|]. injection ST as <-. krecs. intros _. apply H. lia.
  - destruct (k_io s), (k_fin s); try discriminate. injection ST as <-. unfold tcheck_deadline. krecs. intros X. exfalso. apply X. reflexivity.
  - destruct (k_io s); try discriminate. destruct (_ <=? _); [|discriminate]. injection ST as <-. unfold tread_body. destruct (_ || _); krecs; [intros X; exfalso; apply X; reflexivity|exact H].
  - destruct (k_io s); try discriminate. destruct (nth_error (k_rdy s) i) as [[err n|err n]|]; try discriminate; injection ST as <-.
    + unfold twrite_callback. krecs. destruct (k_exc s); [exact H|]. destruct (k_fin s) eqn:FI; krecs; [|rewrite FI; exact H].
      destruct (_ || _); krecs; [intros X; exfalso; apply X; reflexivity|].
      destruct (want_write _ _ _); [reflexivity|]. destruct (k_reply s); krecs; intros _; [reflexivity|exact FI].
    + unfold tread_callback. krecs. destruct (k_exc s); [exact H|]. destruct (k_fin s) eqn:FI; krecs; rewrite ?FI; auto.
  - destruct (k_io s); try discriminate. injection ST as <-. unfold tread_header. destruct (_ || _); krecs; [intros X; exfalso; apply X; reflexivity|exact H].
  - destruct (k_io s) as [| | |[|p c]|]; try discriminate. injection ST as <-. unfold tcheck. destruct v; exact H.
  - destruct (k_io s); try discriminate. injection ST as <-. unfold tread_end.
    set (s1 := match k_rqueue _ with [] => _ | _ => _ end).
    assert (H1 : (k_acts s1 + k_actr s1)%nat <> 0%nat -> k_fin s1 = true) by (unfold s1; krecs; destruct (k_rqueue s); krecs; auto).
    clearbody s1. set (s2 := match k_disp s1 with [] => _ | _ => _ end).
    assert (H2 : (k_acts s2 + k_actr s2)%nat <> 0%nat -> k_fin s2 = true) by (unfold s2; destruct (k_disp s1); [destruct (want_write _ _ _); [reflexivity|]|]; exact H1).
    clearbody s2. destruct (k_disp s2), (k_reply s2); try exact H2. reflexivity.
Qed.

(** The steps of the io_service thread that need nothing from the network. *)
Definition tio_label (l : tlab) : Prop :=
  match l with KCallback _ | KMiddle | KValidate _ | KLast | KDeadline => True | _ => False end.

(** While the user's thread waits in Flush and is not woken, the io_service
    thread has something to do (at the latest, when the deadline passes), or it
    is in the synchronous read.  Partial: see [C66_stalled_refuted] for the
    synchronous read; clean handlers only. *)
Theorem C65_progress_partial : forall bytes room nr max s, limits nr max -> treached bytes room nr max false s ->
  k_user s = UWait -> k_done s = false ->
  (exists l, tio_label l /\ kstep bytes room nr max false s l <> None) \/ exists c, k_io s = TBody c.
Proof.
  intros bytes room nr max s L R U D. assert (W := treached_inv _ _ _ _ _ _ L R). assert (M := w_mode _ _ _ _ W). unfold tmode in M. rewrite U in M.
  destruct (k_io s) as [|err n|c|c|] eqn:IO.
  2:{ left. exists KMiddle. split; [exact I|]. cbn [kstep]. rewrite IO. discriminate. }
  2:{ right. eauto. }
  2:{ left. exists (KValidate true). split; [exact I|]. cbn [kstep]. rewrite IO. destruct c; [|discriminate].
      destruct (k_exc s); [destruct M as (_ & Z & _); discriminate Z|]. destruct M as [[] _ _ _]. destruct v_old as (? & ? & _ & _ & _ & P). unfold io_part in P. rewrite IO in P. destruct P; congruence. }
  2:{ left. exists KLast. split; [exact I|]. cbn [kstep]. rewrite IO. discriminate. }
  left. destruct (k_rdy s) as [|c rd] eqn:RD.
  2:{ exists (KCallback 0). split; [exact I|]. cbn [kstep]. rewrite IO, RD. discriminate. }
  exists KDeadline. split; [exact I|]. cbn [kstep]. rewrite IO.
  assert (F : k_fin s = true); [|rewrite F; discriminate].
  destruct R as (ls & R & _). eapply tdeadline_set; [exact R|cbn; intros Z; congruence|].
  destruct (k_exc s) eqn:X.
  { destruct M as (_ & _ & [Z|Z]); [congruence|]. cbn in Z. lia. }
  destruct M as [L0 B Q DN WK FL DR]. destruct L0. rewrite IO, RD in *. cbn [kS kR filter List.length busy] in *.
  destruct (k_disp s) as [|p d] eqn:DD; [|cbn [ne List.length] in *; lia]. destruct (k_reply s) as [|p d] eqn:RR; [|cbn [ne List.length] in *; lia].
  rewrite (proj2 DN (conj eq_refl eq_refl)) in D. discriminate.
Qed.

(** The steps not made by the user's thread. *)
Definition tnot_user (l : tlab) : Prop :=
  match l with KDispatch _ | KConnectFail | KFlush | KWaited | KFlushed | KHandler => False | _ => True end.

(** Only finitely many of them are possible before the user's thread moves. *)
Definition tsteps_left (s : tcp) : nat :=
  (20 * List.length (k_queue s) + List.length (k_disp s) + List.length (concat (k_rqueue s)) + 10 * List.length (k_rqueue s) +
   16 * k_acts s + 14 * kS (k_rdy s) + 8 * k_actr s + 6 * kR (k_rdy s) +
   match k_io s with
   | TIdle => if k_exc s then 0 else List.length (k_reply s)
   | TRead _ _ => 5 + List.length (k_reply s)
   | TBody c => 4 + List.length c
   | TCheck c => 3 + List.length c
   | TEnd => 2
   end + (if k_fin s then 1 else 0))%nat.

Lemma twrite_left bytes nr max zero s : (1 <= nr)%nat -> want_write nr max s = true ->
  (tsteps_left (twrite bytes nr zero s) < tsteps_left s)%nat.
Proof.
  intros A WW. assert (CN := chunk_ne nr A s (want_ne nr max A s WW)). assert (CS := chunk_split nr s). assert (CL : List.length (k_queue s) = (List.length (chunk_of nr s) + List.length (rest_of nr s))%nat) by (rewrite <- CS, app_length; reflexivity).
  rewrite twrite_eq. unfold tsteps_left. krecs. rewrite app_length. destruct (chunk_of nr s) as [|x y]; [congruence|]. cbn [List.length] in *.
  destruct zero, (k_fin s); cbn [negb]; lia.
Qed.

Lemma tstep_decreases bytes room nr max zero s l s' : (1 <= nr)%nat -> tnot_user l -> kstep bytes room nr max zero s l = Some s' -> (tsteps_left s' < tsteps_left s)%nat.
Proof.
  intros A NU ST. assert (CLO := tclosed_ops (k_acts s) (k_actr s)). destruct CLO as (CL1 & CL2). destruct l; try contradiction; cbn [kstep] in ST.
  - destruct (k_acts s) eqn:E; [discriminate|]. injection ST as <-. unfold tsteps_left. krecs. rewrite kS_app, kR_app, E. cbn [kS kR filter List.length]. lia.
  - destruct (k_actr s) eqn:E; [discriminate|]. injection ST as <-. unfold tsteps_left. krecs. rewrite kS_app, kR_app, E. cbn [kS kR filter List.length]. lia.
  - destruct (k_io s) eqn:IO, (k_fin s) eqn:FI; try discriminate. injection ST as <-. unfold tcheck_deadline, tsteps_left. krecs. rewrite kS_app, kR_app, CL1, CL2, IO, FI. lia.
  - destruct (k_io s) eqn:IO; try discriminate. destruct (_ <=? _); [|discriminate]. injection ST as <-. unfold tread_body. destruct (_ || _); unfold tsteps_left; krecs.
    + rewrite kS_app, kR_app, CL1, CL2, IO. lia.
    + rewrite IO. destruct c; cbn [List.length]; lia.
  - destruct (k_io s) eqn:IO; try discriminate. destruct (nth_error (k_rdy s) i) as [c|] eqn:NT; [|discriminate].
    destruct (tdrop_counts _ _ _ NT) as (C1 & C2). injection ST as <-. destruct c as [err n|err n]; cbn [kS kR filter List.length] in C1, C2.
    + unfold twrite_callback. krecs. destruct (k_exc s) eqn:X; [unfold tsteps_left; krecs; rewrite IO, X; lia|]. destruct (k_fin s) eqn:FI; krecs; [|unfold tsteps_left; krecs; rewrite IO, X, FI; lia].
      destruct (_ || _); krecs; [unfold tsteps_left; krecs; rewrite kS_app, kR_app, CL1, CL2, IO, X, FI; lia|].
      match goal with |- context [want_write nr max ?t] => set (s2 := t) end.
      assert (E : (tsteps_left s2 < tsteps_left s)%nat).
      { unfold s2, tsteps_left. destruct (k_reply s) eqn:RE; krecs; rewrite IO, X, FI, ?RE, ?concat_app, ?app_length; cbn [concat List.length]; rewrite ?app_nil_r; destruct zero; cbn [negb]; lia. }
      clearbody s2. destruct (want_write nr max s2) eqn:WW; [|exact E]. assert (Z := twrite_left bytes nr max zero s2 A WW). lia.
    + unfold tread_callback. krecs. destruct (k_exc s) eqn:X; [unfold tsteps_left; krecs; rewrite IO, X; lia|]. destruct (k_fin s) eqn:FI; unfold tsteps_left; krecs; rewrite IO, X, ?FI; lia.
  - destruct (k_io s) eqn:IO; try discriminate. injection ST as <-. unfold tread_header. destruct (_ || _); unfold tsteps_left; krecs; rewrite IO; [rewrite kS_app, kR_app, CL1, CL2|]; lia.
  - destruct (k_io s) as [| | |[|p c]|] eqn:IO; try discriminate. injection ST as <-. unfold tcheck, tsteps_left. destruct v; krecs; rewrite IO; cbn [List.length]; [destruct c; cbn [List.length]|]; lia.
  - destruct (k_io s) eqn:IO; try discriminate. injection ST as <-. unfold tread_end.
    set (s1 := match k_rqueue _ with [] => _ | _ => _ end).
    assert (E1 : (tsteps_left s1 < tsteps_left s)%nat /\ ((if k_fin s1 then 0 else 1) + tsteps_left s1 < tsteps_left s)%nat).
    { unfold s1, tsteps_left. krecs. destruct (k_rqueue s) eqn:RQ; krecs; rewrite IO, ?RQ; cbn [concat List.length]; rewrite ?app_length; destruct zero, (k_fin s), (k_exc s); cbn [negb List.length]; lia. }
    clearbody s1. set (s2 := match k_disp s1 with [] => _ | _ => _ end).
    assert (E2 : (tsteps_left s2 < tsteps_left s)%nat /\ (k_disp s2 = [] -> (if k_fin s2 then 0 else 1) + tsteps_left s2 < tsteps_left s)%nat).
    { unfold s2. destruct (k_disp s1) eqn:D1; [|split; [apply E1|congruence]]. destruct (want_write nr max s1) eqn:WW; [|tauto].
      assert (Z := twrite_left bytes nr max zero s1 A WW). split; [lia|]. rewrite twrite_eq. krecs. intros C. exfalso. apply app_eq_nil in C.
      apply (chunk_ne nr A s1 (want_ne nr max A s1 WW)). tauto. }
    clearbody s2. destruct (k_disp s2) eqn:D2, (k_reply s2) eqn:R2; try apply E2. destruct E2 as (_ & E2). specialize (E2 eq_refl). unfold tsteps_left in *. krecs. rewrite ?D2, ?R2 in *. destruct (k_fin s2), (k_io s2); lia.
Qed.

(** So the io_service thread cannot be busy for ever: *)
Theorem C65_terminates : forall bytes room nr max zero ls s s', (1 <= nr)%nat -> krun bytes room nr max zero s ls = Some s' -> Forall tnot_user ls ->
  (List.length ls + tsteps_left s' <= tsteps_left s)%nat.
Proof.
  intros bytes room nr max zero. induction ls as [|l ls IH]; intros s s' A R F; cbn [krun] in R; [injection R as <-; cbn; lia|].
  destruct (kstep bytes room nr max zero s l) as [s1|] eqn:ST; [|discriminate]. inversion F as [|? ? F1 F2]; subst.
  assert (D := tstep_decreases _ _ _ _ _ _ _ _ A F1 ST). assert (I := IH _ _ A R F2). cbn [List.length]. lia.
Qed.

(** ** C66: a device that stops in the middle of a reply *)

(** If the announced bytes of a reply do not arrive, dispatch never returns: no
    timeout is looked at, whatever else happens. *)
Theorem C66_stalled_refuted : forall bytes room nr max zero ls s s' c, krun bytes room nr max zero s ls = Some s' ->
  k_io s = TBody c -> k_user s = UWait -> k_done s = false -> Forall (fun l => match l with KBody _ _ => False | _ => True end) ls ->
  k_user s' = UWait /\ k_done s' = false /\ k_tr s' = k_tr s.
Proof.
  intros bytes room nr max zero. induction ls as [|l ls IH]; intros s s' c R IO U D F; cbn [krun] in R; [injection R as <-; auto|].
  destruct (kstep bytes room nr max zero s l) as [s1|] eqn:ST; [|discriminate]. inversion F as [|? ? F1 F2]; subst.
  assert (E : k_io s1 = TBody c /\ k_user s1 = UWait /\ k_done s1 = false /\ k_tr s1 = k_tr s).
  { destruct l; try contradiction; cbn [kstep] in ST; rewrite ?IO, ?U, ?D in ST; try discriminate.
    - destruct (k_acts s); [discriminate|]. injection ST as <-. auto.
    - destruct (k_actr s); [discriminate|]. injection ST as <-. auto. }
  destruct E as (E1 & E2 & E3 & E4). rewrite <- E4. eapply IH; eassumption.
Qed.

(** ** C48: after an exception *)

(** After the exception handler the members are those of a new client, except
    for mFlushStarted (set again by the next dispatch), the deadline and the
    socket.  Partial: clean handlers only, see [C48_refuted]. *)
Theorem C48_recovered_partial : forall bytes room nr max zero s s', limits nr max -> treached bytes room nr max zero s ->
  kstep bytes room nr max zero s KHandler = Some s' -> k_user s' = UIdle ->
  s' = mkT false [] [] [] [] 0 (k_flush s) true (k_fin s) (k_open s) 0 0 0 0 [] TIdle UIdle (k_tr s ++ [TThrow]).
Proof.
  intros bytes room nr max zero s s' L R ST U'. assert (M := w_mode _ _ _ _ (treached_inv _ _ _ _ _ _ L R)). cbn [kstep] in ST.
  destruct (k_user s) eqn:U; try discriminate; injection ST as <-; unfold thandler in *; rewrite U in *; try discriminate U'.
  unfold tmode in M. rewrite U in M. destruct M as (X & (Q1 & Q2 & Q3 & Q4) & D & RQ & QU & IN).
  destruct s. krecs. subst. reflexivity.
Qed.

(** In general mReplyQueue is not cleared, only the chunks in it are, and the next
    dispatch is affected.  Packets 1 and 2 are sent; the connection
    fails; all callbacks have run when the handler clears the exception.  Packet
    3 is dispatched, sent, answered, found valid, and dispatch returns - but an
    answer to the empty chunk is now awaited.  When the deadline passes, a
    failure is stored, and the dispatch of packet 4 raises it. *)
Definition leftover_run : list tlab :=
  [KDispatch 1; KSentBytes false 5; KCallback 0; KDispatch 2; KSentBytes false 5; KCallback 0; KFlush; KHeader true 0 0; KCallback 0; KMiddle;
   KWaited; KFlushed; KHandler; KHandler; KHandler; KHandler;
   KDispatch 3; KFlush; KSentBytes false 5; KCallback 0; KHeader false 4 67108864; KCallback 0; KMiddle; KBody false 4; KValidate true; KLast]%nat.
Theorem C48_refuted : exists s s', krun (fun _ => [0]) (fun _ => 4) 1 16 false init_tcp leftover_run = Some s /\
  tsince (k_tr s) = [THanded 3%nat; TSent [3%nat] [0; 0; 0; 1; 0]; TRecv 4; TChecked 3%nat true] /\ k_disp s = [] /\ k_queue s = [] /\ k_actr s = 1%nat /\
  krun (fun _ => [0]) (fun _ => 4) 1 16 false s [KWaited; KFlushed; KDeadline; KCallback 0; KDispatch 4]%nat = Some s' /\
  tsince (k_tr s') = [THanded 3%nat; TSent [3%nat] [0; 0; 0; 1; 0]; TRecv 4; TChecked 3%nat true; TReturn; TFail] /\ k_user s' = UH1.
Proof. eexists. eexists. do 5 (split; [vm_compute; reflexivity|]). split; [vm_compute; reflexivity|]. split; vm_compute; reflexivity. Qed.

(** The same leftover makes Flush return too early, and puts replies into the wrong
    packets.  After the exception packets 3 and 4 are sent; when 3 has been
    answered, the empty chunk is the next in mReplyQueue, so mReplyBuffers is empty
    and the user's thread is woken: dispatch returns although 4 has not been
    answered.  Handlers run in the order they were queued. *)
Definition failed_part : list tlab :=
  [KDispatch 1; KSentBytes false 5; KCallback 0; KDispatch 2; KSentBytes false 5; KCallback 0; KFlush; KHeader true 0 0; KCallback 0; KMiddle;
   KWaited; KFlushed; KHandler; KHandler; KHandler; KHandler]%nat.
Definition early_run : list tlab :=
  failed_part ++ [KDispatch 3; KSentBytes false 5; KCallback 0; KDispatch 4; KSentBytes false 5; KCallback 0; KFlush;
   KHeader false 4 67108864; KCallback 0; KMiddle; KBody false 4; KValidate true; KLast; KWaited]%nat.
Theorem C65_return_refuted : exists s s', krun (fun _ => [0]) (fun _ => 4) 1 16 false init_tcp early_run = Some s /\
  kstep (fun _ => [0]) (fun _ => 4) 1 16 false s KFlushed = Some s' /\ k_tr s' = k_tr s ++ [TReturn] /\
  thanded (tsince (k_tr s)) = [3; 4]%nat /\ tchecks (tsince (k_tr s)) = [(3%nat, true)] /\ trecvd (tsince (k_tr s)) = 1%nat.
Proof. eexists. eexists. split; [vm_compute; reflexivity|]. split; [vm_compute; reflexivity|]. vm_compute. repeat split. Qed.

(** Packet 5 is dispatched then: the reply to 4 is put into its buffers and it is
    checked before 4 (the transaction ids differ, so the check fails). *)
Theorem C64_order_refuted : exists s, krun (fun _ => [0]) (fun _ => 4) 1 16 false init_tcp
    (early_run ++ [KFlushed; KDispatch 5; KSentBytes false 5; KCallback 0; KHeader false 4 67108864; KCallback 0; KMiddle; KBody false 4; KValidate false]%nat) = Some s /\
  concat (chunks (tsince (k_tr s))) = [3; 4; 5]%nat /\ tchecks (tsince (k_tr s)) = [(3%nat, true); (5%nat, false)] /\ trecvd (tsince (k_tr s)) = 2%nat.
Proof. eexists. split; [vm_compute; reflexivity|]. vm_compute. repeat split. Qed.

(** ** C67: zero timeout *)

Record tzinv (s : tcp) (e : list tobs) : Prop := {
  z_fin : (k_acts s <> 0%nat \/ k_actr s <> 0%nat \/ k_rdy s <> []) -> k_fin s = false;
  z_io : k_io s = TIdle;
  z_chk : tchecks (k_tr s) = [];
  z_handed : thanded e <> [] -> k_disp s <> [] \/ k_queue s <> [] \/ k_user s = UH3 \/ k_user s = UH4;
  z_disp : k_disp s <> [] -> k_exc s = true \/ k_done s = false \/ k_user s = UH3 \/ k_user s = UH4;
  z_wait : k_user s = UWait \/ k_user s = UWake -> k_queue s <> [] -> k_disp s <> [];
  z_wake : k_user s = UWake -> k_done s = true \/ k_exc s = true;
  z_h4 : k_user s = UH4 -> k_queue s = []
}.

Lemma tzinv_store s e : tzinv s e -> tzinv (tstore s) (e ++ [TFail]).
Proof. intros Z. destruct Z. constructor; krecs; thist; auto. Qed.

Lemma tzinv_write bytes nr s e : (1 <= nr)%nat -> tzinv s e -> k_queue s <> [] -> k_disp s = [] -> k_user s <> UWake -> k_user s <> UH4 ->
  (exists e', tzinv (twrite bytes nr true s) e' /\ e' = e ++ [TSent (chunk_of nr s) (frame_of bytes (chunk_of nr s))]).
Proof.
  intros A Z Q D NW N4. eexists. split; [|reflexivity]. destruct Z. assert (CN := chunk_ne nr A s Q). rewrite twrite_eq, D. cbn [app].
  constructor; krecs; thist; auto; try congruence.
Qed.

Lemma tzero_inv bytes room nr max : (1 <= nr)%nat -> forall ls s s', krun bytes room nr max true s ls = Some s' -> tzinv s (tsince (k_tr s)) -> tzinv s' (tsince (k_tr s')).
Proof.
  intros A. induction ls as [|l ls IH]; intros s s' R Z; cbn [krun] in R; [injection R as <-; exact Z|].
  destruct (kstep bytes room nr max true s l) as [s1|] eqn:ST; [|discriminate]. eapply IH; [exact R|]. clear IH R.
  assert (Z0 := Z). destruct Z. destruct l; cbn [kstep] in ST; rewrite ?z_io0 in ST; try discriminate.
  - destruct (k_user s) eqn:U; try discriminate. injection ST as <-. destruct (k_exc s) eqn:X.
    { constructor; krecs; auto; try discriminate; try (intros H; destruct (z_handed0 H) as [?|[?|[?|?]]]; auto; discriminate). intros [?|?]; discriminate. }
    unfold timplement_dispatch. set (s2 := tsee _ _).
    assert (Z2 : tzinv s2 (tsince (k_tr s2)) /\ k_queue s2 <> [] /\ k_user s2 = UIdle /\ k_disp s2 = k_disp s).
    { unfold s2. destruct (k_open s); krecs; (split; [|split; [destruct (k_queue s); discriminate|auto]]);
      constructor; krecs; thist; rewrite ?U, ?X; auto; try discriminate; try (intros [?|?]; discriminate); try (intros _; right; left; destruct (k_queue s); discriminate). }
    destruct Z2 as (Z2 & Q2 & U2 & D2). clearbody s2.
    destruct (match k_disp s2 with [] => true | _ => false end && _ && _) eqn:CD; [|exact Z2].
    destruct (tzinv_write bytes nr s2 _ A Z2 Q2) as (e' & Z3 & ->); try congruence; [destruct (k_disp s2); [reflexivity|discriminate]|].
    rewrite twrite_eq in *. krecs. rewrite tsince_snoc. exact Z3.
  - destruct (k_user s) eqn:U, (k_exc s) eqn:X, (k_open s); try discriminate. injection ST as <-.
    constructor; krecs; auto; try discriminate; try (intros H; destruct (z_handed0 H) as [?|[?|[?|?]]]; auto; discriminate); try (intros [?|?]; discriminate).
    intros H; destruct (z_disp0 H) as [?|[?|[?|?]]]; auto; discriminate.
  - destruct (k_user s) eqn:U; try discriminate. injection ST as <-. unfold tflush. krecs.
    assert (Z2 : tzinv (tput_flush s true) (tsince (k_tr s))) by (constructor; krecs; rewrite ?U; auto).
    assert (P : k_queue s = [] \/ k_disp s <> [] -> tzinv (tput_user (tput_flush s true) UWait) (tsince (k_tr s))).
    { intros H. constructor; krecs; auto; try discriminate.
      - intros H2; destruct (z_handed0 H2) as [?|[?|[?|?]]]; auto; discriminate.
      - intros H2; destruct (z_disp0 H2) as [?|[?|[?|?]]]; auto; discriminate.
      - intros _ H2. destruct H; [contradiction|assumption]. }
    destruct (k_queue s) eqn:Q; [apply P; auto|]. destruct (k_disp s) eqn:D; [|apply P; right; discriminate].
    destruct (tzinv_write bytes nr (tput_flush s true) _ A Z2) as (e' & Z3 & ->); krecs; try congruence.
    krecs. rewrite twrite_eq in *. krecs. rewrite tsince_snoc. rewrite D in *. cbn [app] in *. destruct Z3.
    assert (CN : chunk_of nr (tput_flush s true) <> []) by (apply chunk_ne; [exact A|krecs; congruence]).
    constructor; krecs; auto; try discriminate.
  - destruct (k_user s) eqn:U, (k_done s) eqn:D; try discriminate. injection ST as <-.
    constructor; krecs; auto; try discriminate; try (intros H; destruct (z_handed0 H) as [?|[?|[?|?]]]; auto; discriminate).
    intros H; destruct (z_disp0 H) as [?|[?|[?|?]]]; auto; try discriminate.
  - destruct (k_user s) eqn:U; try discriminate. injection ST as <-. destruct (k_exc s) eqn:X.
    + constructor; krecs; auto; try discriminate; try (intros H; destruct (z_handed0 H) as [?|[?|[?|?]]]; auto; discriminate); try (intros [?|?]; discriminate).
    + constructor; krecs; thist; auto; try discriminate; try (intros H; destruct (z_handed0 H) as [?|[?|[?|?]]]; auto; discriminate); try (intros [?|?]; discriminate).
      intros H; destruct (z_disp0 H) as [?|[?|[?|?]]]; auto; discriminate.
  - destruct (k_user s) eqn:U; try discriminate; injection ST as <-; unfold thandler; rewrite U.
    + assert (P : tzinv (tput_user s UH2) (tsince (k_tr s))).
      { constructor; krecs; auto; try discriminate; try (intros H; destruct (z_handed0 H) as [?|[?|[?|?]]]; auto; discriminate); try (intros [?|?]; discriminate).
        intros H; destruct (z_disp0 H) as [?|[?|[?|?]]]; auto; discriminate. }
      destruct (k_open s); [|exact P]. destruct P. constructor; krecs; auto.
      intros [H|[H|H]]; try (exfalso; apply H; reflexivity). apply z_fin0. destruct (k_acts s), (k_actr s); cbn [repeat app] in H; rewrite ?app_nil_r in H; auto.
    + constructor; krecs; auto; try discriminate; try (intros [?|?]; discriminate).
    + constructor; krecs; auto; try discriminate; try (intros [?|?]; discriminate).
    + constructor; krecs; thist; auto; try discriminate; try congruence; try (intros [?|?]; discriminate).
  - destruct (k_acts s) eqn:E; [discriminate|]. injection ST as <-. constructor; krecs; auto.
  - destruct (k_actr s) eqn:E; [discriminate|]. injection ST as <-. constructor; krecs; auto.
  - destruct (k_fin s) eqn:F; try discriminate. injection ST as <-. constructor; unfold tcheck_deadline; krecs; auto.
  - destruct (nth_error (k_rdy s) i) as [c|] eqn:NT; [|discriminate].
    assert (NE : k_rdy s <> []) by (intros E; rewrite E in NT; destruct i; discriminate).
    assert (F := z_fin0 (or_intror (or_intror NE))).
    assert (P : forall a b, tzinv (tput_cnt (tput_ops s (k_acts s) (k_actr s) (drop_nth (k_rdy s) i)) a b) (tsince (k_tr s))) by (intros; constructor; krecs; auto).
    injection ST as <-. destruct c; [unfold twrite_callback|unfold tread_callback]; krecs; rewrite F; krecs.
    + destruct (k_exc s) eqn:X; [destruct (P 0 0); constructor; krecs; auto|]. assert (Y := tzinv_store _ _ (P 0 0)). krecs. rewrite tsince_snoc. destruct Y. constructor; krecs; auto.
    + destruct (k_exc s) eqn:X; [destruct (P 0 0); constructor; krecs; auto|]. assert (Y := tzinv_store _ _ (P 0 0)). krecs. rewrite tsince_snoc. destruct Y. constructor; krecs; auto.
Qed.

(** As C49: after setTimeoutPeriod(0) no reply is ever looked at, and a dispatch
    with at least one packet never returns normally, whatever the schedule. *)
Theorem C67_zero_timeout_refuted : forall bytes room nr max ls s, (1 <= nr)%nat -> krun bytes room nr max true init_tcp ls = Some s ->
  tchecks (k_tr s) = [] /\
  (forall s', kstep bytes room nr max true s KFlushed = Some s' -> k_tr s' = k_tr s ++ [TReturn] -> thanded (tsince (k_tr s)) = []).
Proof.
  intros bytes room nr max ls s A R. assert (Z : tzinv s (tsince (k_tr s))).
  { eapply tzero_inv; [exact A|exact R|]. constructor; cbn; auto; try discriminate; try congruence. intros [H|[H|H]]; congruence. }
  destruct Z. split; [assumption|]. intros s' ST TR. cbn [kstep] in ST.
  destruct (k_user s) eqn:U; try discriminate. injection ST as <-. destruct (k_exc s) eqn:X.
  { exfalso. krecs. rewrite <- app_nil_r in TR at 1. apply app_inv_head in TR. discriminate. }
  destruct (thanded (tsince (k_tr s))) as [|h t]; [reflexivity|exfalso].
  assert (D : k_disp s <> []) by (destruct z_handed0 as [H|[H|[H|H]]]; try discriminate; auto).
  destruct (z_disp0 D) as [?|[?|[?|?]]]; try discriminate. destruct (z_wake0 eq_refl); congruence.
Qed.

(** *** Examples *)

Definition exbytes (p : pkt) : list N := repeat (N.of_nat p) 8.
Lemma exbytes_short : short exbytes 3.
Proof. exists 8. split; [intros p; unfold psize, exbytes; rewrite repeat_length; lia|unfold W32; lia]. Qed.

(** ControlHub: four packets; a chunk of three, then one of one at Flush. *)
Definition hub_run : list tlab :=
  [KDispatch 5; KDispatch 6; KDispatch 7; KDispatch 8; KFlush; KSentBytes false 28; KCallback 0; KHeader false 4 402653184; KSentBytes false 12; KCallback 1;
   KCallback 0; KMiddle; KBody false 24; KValidate true; KValidate true; KValidate true; KLast;
   KHeader false 4 134217728; KCallback 0; KMiddle; KBody false 8; KValidate true; KLast; KWaited]%nat.
Example tcp_hub : exists s, treached exbytes (fun _ => 100) 3 60 false s /\ k_exc s = false /\
  chunks (tsince (k_tr s)) = [[5; 6; 7]; [8]]%nat /\ nth 1 (frames (tsince (k_tr s))) [] = [0; 0; 0; 8; 8; 8; 8; 8; 8; 8; 8; 8] /\
  exists s', kstep exbytes (fun _ => 100) 3 60 false s KFlushed = Some s' /\ k_tr s' = k_tr s ++ [TReturn].
Proof.
  eexists. split; [exists hub_run; split; [vm_compute; reflexivity|apply no_handler; vm_compute; reflexivity]|].
  repeat split; try (vm_compute; reflexivity). eexists. split; vm_compute; reflexivity.
Qed.
Example tcp_hub_stream : deframe 2 [0; 0; 0; 3; 7; 8; 9; 0; 0; 0; 1; 5] = Some [[7; 8; 9]; [5]]. Proof. reflexivity. Qed.

(** A dispatch waiting for its reply. *)
Example tcp_waiting : exists s, treached exbytes (fun _ => 100) 1 16 false s /\ k_user s = UWait /\ k_done s = false /\ tsteps_left s = 18%nat.
Proof. eexists. split; [exists [KDispatch 1; KFlush]%nat; split; [vm_compute; reflexivity|apply no_handler; vm_compute; reflexivity]|]. repeat split. Qed.

(** The header of the reply arrives, the body does not. *)
Example tcp_stalled : exists s c, treached exbytes (fun _ => 100) 1 16 false s /\ k_io s = TBody c /\ k_user s = UWait /\ k_done s = false /\ k_fin s = true /\
  exists s', krun exbytes (fun _ => 100) 1 16 false s [KBody false 8; KValidate true; KLast; KWaited; KFlushed] = Some s' /\ k_user s' = UIdle.
Proof.
  eexists. eexists. split; [exists [KDispatch 1; KFlush; KSentBytes false 12; KCallback 0; KHeader false 4 134217728; KCallback 0; KMiddle]%nat; split; [vm_compute; reflexivity|apply no_handler; vm_compute; reflexivity]|].
  repeat split. eexists. split; vm_compute; reflexivity.
Qed.

(** A timeout, a clean handler, and a new dispatch. *)
Definition tcp_timeout_run : list tlab :=
  [KDispatch 1; KFlush; KSentBytes false 12; KCallback 0; KDeadline; KCallback 0; KWaited; KFlushed; KHandler; KHandler; KHandler]%nat.
Example tcp_timeout : exists s, treached exbytes (fun _ => 100) 1 16 false s /\ In TFail (tsince (k_tr s)) /\ k_user s = UH4 /\
  exists s', krun exbytes (fun _ => 100) 1 16 false s [KHandler; KDispatch 3; KFlush; KSentBytes false 12; KCallback 0; KHeader false 4 134217728; KCallback 0; KMiddle; KBody false 8; KValidate true; KLast; KWaited; KFlushed]%nat = Some s' /\
  k_user s' = UIdle /\ tchecks (tsince (k_tr s')) = [(3%nat, true)].
Proof.
  eexists. split; [exists tcp_timeout_run; split; [vm_compute; reflexivity|vm_compute; repeat split; try discriminate; intros; repeat split; try discriminate]|].
  split; [vm_compute; tauto|]. split; [reflexivity|]. eexists. split; [vm_compute; reflexivity|]. split; vm_compute; reflexivity.
Qed.

(** The failure of a check, before the handler. *)
Example tcp_failed : exists s, treached exbytes (fun _ => 100) 1 16 false s /\ In TFail (tsince (k_tr s)) /\ k_user s = UH1 /\ k_exc s = true /\
  tchecks (tsince (k_tr s)) = [(1%nat, false)].
Proof.
  eexists. split; [exists [KDispatch 1; KDispatch 2; KSentBytes false 12; KCallback 0; KHeader false 4 134217728; KCallback 0; KMiddle; KBody false 8; KValidate false; KFlush; KWaited; KFlushed]%nat; split; [vm_compute; reflexivity|apply no_handler; vm_compute; reflexivity]|].
  split; [vm_compute; tauto|]. split; [reflexivity|]. split; [reflexivity|]. vm_compute. reflexivity.
Qed.

(** Zero timeout: the dispatch raises although the packet was sent. *)
Example tcp_zero : exists s, krun exbytes (fun _ => 100) 1 16 true init_tcp [KDispatch 1; KFlush; KSentBytes false 12; KCallback 0; KWaited; KFlushed]%nat = Some s /\ k_user s = UH1.
Proof. eexists. split; vm_compute; reflexivity. Qed.

Print Assumptions C46_frame.
Print Assumptions C46_order.
Print Assumptions C46_stream.
Print Assumptions C47_bound_partial.
Print Assumptions C47_refuted.
Print Assumptions C48_recovered_partial.
Print Assumptions C48_refuted.
Print Assumptions C64_order_partial.
Print Assumptions C64_places_partial.
Print Assumptions C65_raise.
Print Assumptions C65_fail_kept_partial.
Print Assumptions C65_return_partial.
Print Assumptions C65_progress_partial.
Print Assumptions C65_terminates.
Print Assumptions C66_stalled_refuted.
Print Assumptions C67_zero_timeout_refuted.
Print Assumptions C65_return_refuted.
Print Assumptions C64_order_refuted.
