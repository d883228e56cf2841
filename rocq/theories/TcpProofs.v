(** Invariants of the TCP transport. *)
From Coq Require Import NArith ZArith List Bool Lia PeanoNat ZifyBool ZifyNat ZifyN.
From Verif Require Import Word Udp Tcp.
Import ListNotations.
Open Scope N_scope.
Ltac Zify.zify_post_hook ::= Z.div_mod_to_equations.

(** ** Specification: functions of the history *)

(** The events after the last exception. *)
Definition tsince (tr : list tobs) : list tobs :=
  fold_left (fun acc o => match o with TThrow => [] | _ => acc ++ [o] end) tr [].

(** Packets handed over, chunks of packets sent, bytes sent for each chunk,
    number of reply chunks received, packets checked. *)
Definition thanded (e : list tobs) : list pkt := flat_map (fun o => match o with THanded p => [p] | _ => [] end) e.
Definition chunks (e : list tobs) : list (list pkt) := flat_map (fun o => match o with TSent c _ => [c] | _ => [] end) e.
Definition frames (e : list tobs) : list (list N) := flat_map (fun o => match o with TSent _ b => [b] | _ => [] end) e.
Definition trecvd (e : list tobs) : nat := List.length (filter (fun o => match o with TRecv _ => true | _ => false end) e).
Definition tchecks (e : list tobs) : list (pkt * bool) :=
  flat_map (fun o => match o with TChecked p v => [(p, v)] | _ => [] end) e.

(** The packets of the chunks that have not been answered. *)
Definition unanswered (e : list tobs) : list pkt := concat (skipn (trecvd e) (chunks e)).

Definition tprefix {A} (l m : list A) : Prop := exists r, m = l ++ r.

(** An execution in which, when the handler clears a stored exception (line 612),
    no callback is outstanding and mReplyQueue is empty. *)
Definition tquiet (s : tcp) : Prop := k_acts s = O /\ k_actr s = O /\ k_rdy s = [] /\ k_io s = TIdle.
Definition tclean (s : tcp) : Prop := tquiet s /\ k_rqueue s = [].
Fixpoint clean_handlers bytes room nr max zero (s : tcp) (ls : list tlab) : Prop :=
  match ls with
  | [] => True
  | l :: t => (l = KHandler -> k_user s = UH2 -> tclean s) /\
              match kstep bytes room nr max zero s l with
              | Some s' => clean_handlers bytes room nr max zero s' t
              | None => True
              end
  end.

(** ** Lemmas on lists and histories *)

Lemma tsince_snoc tr o : tsince (tr ++ [o]) = match o with TThrow => [] | _ => tsince tr ++ [o] end.
Proof. unfold tsince. rewrite fold_left_app. reflexivity. Qed.
Lemma thanded_app a b : thanded (a ++ b) = thanded a ++ thanded b. Proof. apply flat_map_app. Qed.
Lemma chunks_app a b : chunks (a ++ b) = chunks a ++ chunks b. Proof. apply flat_map_app. Qed.
Lemma frames_app a b : frames (a ++ b) = frames a ++ frames b. Proof. apply flat_map_app. Qed.
Lemma tchecks_app a b : tchecks (a ++ b) = tchecks a ++ tchecks b. Proof. apply flat_map_app. Qed.
Lemma trecvd_app a b : trecvd (a ++ b) = (trecvd a + trecvd b)%nat.
Proof. unfold trecvd. rewrite filter_app, app_length. reflexivity. Qed.

Definition kS (l : list tcompl) : nat := List.length (filter (fun c => match c with KSend _ _ => true | _ => false end) l).
Definition kR (l : list tcompl) : nat := List.length (filter (fun c => match c with KRecv _ _ => true | _ => false end) l).
Lemma kS_app a b : kS (a ++ b) = (kS a + kS b)%nat.
Proof. unfold kS. rewrite filter_app, app_length. reflexivity. Qed.
Lemma kR_app a b : kR (a ++ b) = (kR a + kR b)%nat.
Proof. unfold kR. rewrite filter_app, app_length. reflexivity. Qed.
Lemma tclosed_ops a b : kS (repeat (KSend true 0) a ++ repeat (KRecv true 0) b) = a /\
  kR (repeat (KSend true 0) a ++ repeat (KRecv true 0) b) = b.
Proof.
  rewrite kS_app, kR_app. split.
  - assert (X : kS (repeat (KSend true 0) a) = a) by (induction a; cbn; auto).
    assert (Y : kS (repeat (KRecv true 0) b) = O) by (induction b; cbn; auto). lia.
  - assert (X : kR (repeat (KSend true 0) a) = O) by (induction a; cbn; auto).
    assert (Y : kR (repeat (KRecv true 0) b) = b) by (induction b; cbn; auto). lia.
Qed.
Lemma tdrop_counts : forall l i c, nth_error l i = Some c ->
  kS l = (kS (drop_nth l i) + kS [c])%nat /\ kR l = (kR (drop_nth l i) + kR [c])%nat.
Proof.
  induction l as [|x l IH]; intros [|i] c E; cbn in E; try discriminate.
  - injection E as ->. cbn [drop_nth]. change (c :: l) with ([c] ++ l). rewrite kS_app, kR_app. lia.
  - cbn [drop_nth]. destruct (IH i c E) as (A & B). change (x :: l) with ([x] ++ l). change (x :: drop_nth l i) with ([x] ++ drop_nth l i).
    rewrite !kS_app, !kR_app. lia.
Qed.

Ltac krecs := cbn [k_exc k_disp k_queue k_reply k_rqueue k_infl k_flush k_done k_fin k_open k_scnt k_rcnt k_acts k_actr k_rdy k_io k_user k_tr
  tput_exc tput_disp tput_reply tput_infl tput_flush tput_fin tput_open tput_cnt tput_ops tput_io tput_user tsee tnotify tclose tstore
  tread negb] in *.
Ltac thist := rewrite ?tsince_snoc in *; rewrite ?thanded_app, ?chunks_app, ?frames_app, ?tchecks_app, ?trecvd_app in *;
  cbn [thanded chunks frames trecvd tchecks flat_map filter List.length app] in *; rewrite ?app_nil_r in *.

Section Inv.
Variable bytes : pkt -> list N.
Variable room : pkt -> N.
Variable nr : nat.
Variable max : N.
Variable zero : bool.
Hypothesis nr_pos : (1 <= nr)%nat.

Notation step := (kstep bytes room nr max zero).

(** What write puts on the wire. *)
Definition frame_of (c : list pkt) : list N := mem4 (swap32 (count bytes c)) ++ flat_map bytes c.

(** Effect of write. *)
Definition chunk_of (s : tcp) : list pkt := firstn (Nat.min (List.length (k_queue s)) nr) (k_queue s).
Definition rest_of (s : tcp) : list pkt := skipn (Nat.min (List.length (k_queue s)) nr) (k_queue s).
Lemma twrite_eq s : twrite bytes nr zero s =
  mkT (k_exc s) (k_disp s ++ chunk_of s) (rest_of s) (k_reply s) (k_rqueue s)
      (add32 (k_infl s) (N.of_nat (List.length (k_disp s ++ chunk_of s)))) (k_flush s) false (negb zero) (k_open s)
      (swap32 (count bytes (chunk_of s))) (k_rcnt s) (S (k_acts s)) (k_actr s) (k_rdy s) (k_io s) (k_user s)
      (k_tr s ++ [TSent (chunk_of s) (frame_of (chunk_of s))]).
Proof. reflexivity. Qed.
Lemma chunk_split s : chunk_of s ++ rest_of s = k_queue s.
Proof. apply firstn_skipn. Qed.
Lemma chunk_len s : List.length (chunk_of s) = Nat.min (List.length (k_queue s)) nr.
Proof using. unfold chunk_of. rewrite firstn_length. clear. lia. Qed.
Lemma chunk_ne s : k_queue s <> [] -> chunk_of s <> [].
Proof using nr_pos. intros Q E. assert (L := chunk_len s). rewrite E in L. destruct (k_queue s); [congruence|]. cbn [List.length] in L. clear - L nr_pos. lia. Qed.

(** ** Framing: every execution *)

Record finv (s : tcp) : Prop := {
  f_ord : if match k_user s with UH4 => true | _ => false end
          then k_queue s = [] /\ tprefix (concat (chunks (tsince (k_tr s)))) (thanded (tsince (k_tr s)))
          else thanded (tsince (k_tr s)) = concat (chunks (tsince (k_tr s))) ++ k_queue s;
  f_frames : Forall (fun o => match o with
                              | TSent c b => c <> [] /\ (List.length c <= nr)%nat /\ b = frame_of c
                              | _ => True end) (k_tr s)
}.

Lemma finv_write s : finv s -> k_queue s <> [] -> finv (twrite bytes nr zero s).
Proof.
  intros [A B] Q. rewrite twrite_eq. constructor; krecs.
  - thist. destruct (k_user s); try (destruct A; congruence); rewrite A, concat_app; cbn [concat]; rewrite app_nil_r, <- app_assoc, chunk_split; reflexivity.
  - apply Forall_app. split; [exact B|]. constructor; [|constructor]. split; [apply chunk_ne; exact Q|]. split; [rewrite chunk_len; lia|reflexivity].
Qed.

(** A step that touches neither queue nor history, or only adds an event that is
    not counted. *)
Lemma finv_same s s' : finv s -> k_queue s' = k_queue s ->
  (k_tr s' = k_tr s \/ exists o, k_tr s' = k_tr s ++ [o] /\ match o with TSent _ _ | THanded _ | TThrow => False | _ => True end) ->
  match k_user s' with UH4 => k_user s = UH4 | _ => k_user s <> UH4 end -> finv s'.
Proof.
  intros [A B] Q T U. assert (E : thanded (tsince (k_tr s')) = thanded (tsince (k_tr s)) /\ chunks (tsince (k_tr s')) = chunks (tsince (k_tr s))).
  { destruct T as [->|(o & -> & O)]; [auto|]. rewrite tsince_snoc. destruct o; try contradiction; thist; auto. }
  destruct E as (E1 & E2). constructor.
  - rewrite E1, E2, Q. destruct (k_user s') eqn:U', (k_user s) eqn:U0; try congruence; exact A.
  - destruct T as [->|(o & -> & O)]; [exact B|]. apply Forall_app. split; [exact B|]. constructor; [|constructor]. destruct o; auto; contradiction.
Qed.

Lemma want_ne s : want_write nr max s = true -> k_queue s <> [].
Proof using nr_pos. unfold want_write. intros W E. rewrite E in W. destruct (k_flush s); cbn [List.length] in W; [discriminate|]. destruct nr; [clear - nr_pos; lia|discriminate]. Qed.

Lemma finv_step s l s' : finv s -> step s l = Some s' -> finv s'.
Proof.
  intros F ST. destruct l; cbn [kstep] in ST.
  - destruct (k_user s) eqn:U; try discriminate. destruct (k_exc s); injection ST as <-.
    { eapply finv_same; [exact F|reflexivity|left; reflexivity|]. krecs. rewrite U. discriminate. }
    unfold timplement_dispatch. set (s1 := if k_open s then s else _).
    assert (E1 : k_user s1 = UIdle /\ k_queue s1 = k_queue s /\ k_tr s1 = k_tr s) by (unfold s1; destruct (k_open s); krecs; auto).
    destruct E1 as (E1 & E2 & E3). set (s2 := tsee _ _).
    assert (G : finv s2).
    { destruct F as [A B]. rewrite U in A. constructor; unfold s2; krecs.
      - rewrite E1, E2, E3. thist. rewrite A, app_assoc. reflexivity.
      - rewrite E3. apply Forall_app. split; [exact B|]. repeat constructor. }
    destruct (_ && _); [|exact G]. apply finv_write; [exact G|]. unfold s2. krecs. destruct (k_queue s1); discriminate.
  - destruct (k_user s) eqn:U, (k_exc s), (k_open s); try discriminate. injection ST as <-.
    eapply finv_same; [exact F|reflexivity|left; reflexivity|]. krecs. rewrite U. discriminate.
  - destruct (k_user s) eqn:U; try discriminate. injection ST as <-. unfold tflush. krecs.
    assert (G : finv (tput_flush s true)) by (eapply finv_same; [exact F|reflexivity|left; reflexivity|]; krecs; rewrite U; discriminate).
    destruct (k_queue s) eqn:Q, (k_disp s); krecs;
      try (eapply finv_same; [exact G|reflexivity|left; reflexivity|]; krecs; rewrite U; discriminate).
    assert (G2 : finv (twrite bytes nr zero (tput_flush s true))) by (apply finv_write; [exact G|krecs; rewrite Q; discriminate]).
    rewrite twrite_eq in *. eapply finv_same; [exact G2|reflexivity|left; reflexivity|]. krecs. rewrite U. discriminate.
  - destruct (k_user s) eqn:U; try discriminate. destruct (k_done s); [|discriminate]. injection ST as <-.
    eapply finv_same; [exact F|reflexivity|left; reflexivity|]. krecs. rewrite U. discriminate.
  - destruct (k_user s) eqn:U; try discriminate. injection ST as <-. destruct (k_exc s).
    + eapply finv_same; [exact F|reflexivity|left; reflexivity|]. krecs. rewrite U. discriminate.
    + eapply finv_same; [exact F|reflexivity|right; eexists; split; [reflexivity|exact I]|]. krecs. rewrite U. discriminate.
  - destruct (k_user s) eqn:U; try discriminate; injection ST as <-; unfold thandler; rewrite U.
    + destruct (k_open s); eapply finv_same; try exact F; try reflexivity; try (left; reflexivity); krecs; rewrite U; discriminate.
    + eapply finv_same; [exact F|reflexivity|left; reflexivity|]. krecs. rewrite U. discriminate.
    + destruct F as [A B]. rewrite U in A. constructor; krecs; [|exact B]. split; [reflexivity|]. eexists. exact A.
    + destruct F as [A B]. rewrite U in A. constructor; krecs.
      * thist. cbn. symmetry. tauto.
      * apply Forall_app. split; [exact B|]. repeat constructor.
  - destruct (k_acts s); [discriminate|]. injection ST as <-. eapply finv_same; [exact F|reflexivity|left; reflexivity|]. krecs. destruct (k_user s); congruence.
  - destruct (k_actr s); [discriminate|]. injection ST as <-. eapply finv_same; [exact F|reflexivity|left; reflexivity|]. krecs. destruct (k_user s); congruence.
  - destruct (k_io s), (k_fin s); try discriminate. injection ST as <-. eapply finv_same; [exact F|reflexivity|left; reflexivity|]. unfold tcheck_deadline. krecs. destruct (k_user s); congruence.
  - destruct (k_io s); try discriminate. destruct (_ <=? _); [|discriminate]. injection ST as <-. unfold tread_body. destruct (_ || _).
    + eapply finv_same; [exact F|reflexivity|right; eexists; split; [reflexivity|exact I]|]. krecs. destruct (k_user s); congruence.
    + eapply finv_same; [exact F|reflexivity|right; eexists; split; [reflexivity|exact I]|]. krecs. destruct (k_user s); congruence.
  - destruct (k_io s); try discriminate. destruct (nth_error (k_rdy s) i) as [c|]; [|discriminate]. injection ST as <-.
    set (s1 := tput_ops _ _ _ _). assert (F1 : finv s1) by (eapply finv_same; [exact F|reflexivity|left; reflexivity|]; unfold s1; krecs; destruct (k_user s); congruence).
    clearbody s1. clear F s. destruct c.
    + unfold twrite_callback. set (s2 := tput_cnt _ _ _). assert (F2 : finv s2) by (eapply finv_same; [exact F1|reflexivity|left; reflexivity|]; unfold s2; krecs; destruct (k_user s1); congruence).
      clearbody s2. clear F1 s1. destruct (k_exc s2); [|destruct (negb _); [|destruct (_ || _)]].
      * eapply finv_same; [exact F2|reflexivity|left; reflexivity|]. krecs. destruct (k_user s2); congruence.
      * eapply finv_same; [exact F2|reflexivity|right; eexists; split; [reflexivity|exact I]|]. krecs. destruct (k_user s2); congruence.
      * eapply finv_same; [exact F2|reflexivity|right; eexists; split; [reflexivity|exact I]|]. krecs. destruct (k_user s2); congruence.
      * set (s3 := match k_reply s2 with [] => _ | _ => _ end).
        assert (F3 : finv (tput_disp s3 [] (k_queue s3))).
        { eapply finv_same; [exact F2|unfold s3; destruct (k_reply s2); reflexivity|left; unfold s3; destruct (k_reply s2); reflexivity|]. krecs. replace (k_user s3) with (k_user s2) by (unfold s3; destruct (k_reply s2); reflexivity). destruct (k_user s2); congruence. }
        destruct (want_write _ _ _) eqn:WW; [|exact F3]. apply finv_write; [exact F3|]. eapply want_ne; exact WW.
    + unfold tread_callback. destruct (k_exc s1); [|destruct (negb _)].
      * eapply finv_same; [exact F1|reflexivity|left; reflexivity|]. krecs. destruct (k_user s1); congruence.
      * eapply finv_same; [exact F1|reflexivity|right; eexists; split; [reflexivity|exact I]|]. krecs. destruct (k_user s1); congruence.
      * eapply finv_same; [exact F1|reflexivity|left; reflexivity|]. krecs. destruct (k_user s1); congruence.
  - destruct (k_io s); try discriminate. injection ST as <-. unfold tread_header. destruct (_ || _).
    + eapply finv_same; [exact F|reflexivity|right; eexists; split; [reflexivity|exact I]|]. krecs. destruct (k_user s); congruence.
    + eapply finv_same; [exact F|reflexivity|left; reflexivity|]. krecs. destruct (k_user s); congruence.
  - destruct (k_io s) as [| | |[|p c]|]; try discriminate. injection ST as <-. unfold tcheck.
    assert (F1 : finv (tsee s (TChecked p v))) by (eapply finv_same; [exact F|reflexivity|right; eexists; split; [reflexivity|exact I]|]; krecs; destruct (k_user s); congruence).
    destruct v.
    + eapply finv_same; [exact F1|reflexivity|left; reflexivity|]. krecs. destruct (k_user s); congruence.
    + eapply finv_same; [exact F1|reflexivity|right; eexists; split; [reflexivity|exact I]|]. krecs. destruct (k_user s); congruence.
  - destruct (k_io s); try discriminate. injection ST as <-. unfold tread_end. set (s1 := tput_infl _ _).
    assert (F1 : finv s1) by (eapply finv_same; [exact F|reflexivity|left; reflexivity|]; unfold s1; krecs; destruct (k_user s); congruence).
    clearbody s1. clear F s. set (s2 := match k_rqueue s1 with [] => _ | _ => _ end).
    assert (F2 : finv s2).
    { eapply finv_same; [exact F1|unfold s2; destruct (k_rqueue s1); reflexivity|left; unfold s2; destruct (k_rqueue s1); reflexivity|]. replace (k_user s2) with (k_user s1) by (unfold s2; destruct (k_rqueue s1); reflexivity). destruct (k_user s1); congruence. }
    clearbody s2. clear F1 s1. set (s3 := match k_disp s2 with [] => _ | _ => _ end).
    assert (F3 : finv s3). { unfold s3. destruct (k_disp s2); [|exact F2]. destruct (want_write _ _ _) eqn:WW; [|exact F2]. apply finv_write; [exact F2|]. eapply want_ne; exact WW. }
    clearbody s3. destruct (k_disp s3), (k_reply s3); try exact F3. eapply finv_same; [exact F3|reflexivity|left; reflexivity|]. krecs. destruct (k_user s3); congruence.
Qed.

Lemma finv_run : forall ls s s', finv s -> krun bytes room nr max zero s ls = Some s' -> finv s'.
Proof.
  induction ls as [|l ls IH]; intros s s' F R; cbn [krun] in R; [injection R as <-; exact F|].
  destruct (step s l) eqn:ST; [|discriminate]. eapply IH; [|exact R]. eapply finv_step; eauto.
Qed.
Lemma finv_init : finv init_tcp.
Proof. constructor; cbn; auto. Qed.
End Inv.
