(** C59: reused packet buffers carry nothing over. *)
From Verif Require Import Word Bits Header WordLemmas ValMem Client Tx E2E NetProofs2 Pool.
From Coq Require Import NArith ZArith List Lia Bool PeanoNat ZifyBool ZifyNat ZifyN.
Import ListNotations.
Open Scope N_scope.
Ltac Zify.zify_post_hook ::= Z.div_mod_to_equations.

(** ** Specification: what a packet contains, from the calls that built it, with
    no memory array and no counters. *)
Definition packet_call (c : list N * list dest * N * list nat) (m : meth) :=
  let '(bs, rs, n, vs) := c in
  match m with
  | MSend ws => (bs ++ flat_map le4 ws, rs, n, vs)
  | MRecv d => (bs, rs ++ [d], n + 4 * dest_words d, vs)
  | MAdd v => (bs, rs, n, vs ++ [v])
  | MCount =>
      if (8 <=? length bs)%nat then
        let k := swap16 (((N.of_nat (length bs) - 8) / 4) mod 65536) in
        (firstn 6 bs ++ [k mod 256; k / 256] ++ skipn 8 bs, rs, n, vs)
      else (bs, rs, n, vs)
  end.
Definition packet_of (ms : list meth) := fold_left packet_call ms ([], [], 0, []).

Lemma memcpy_length mem p bs : (p + length bs <= length mem)%nat -> length (memcpy mem p bs) = length mem.
Proof. intros H. unfold memcpy. rewrite !app_length, firstn_length, skipn_length. lia. Qed.

Lemma le4_length ws : length (flat_map le4 ws) = (4 * length ws)%nat.
Proof. induction ws; [reflexivity|]. cbn [flat_map]. rewrite app_length, IHws. cbn [length le4]. lia. Qed.

(** Well-formed object: the counter is a multiple of 4 inside the array. *)
Definition o_wf (o : bobj) : Prop :=
  o_sctr o mod 4 = 0 /\ o_sctr o <= N.of_nat (length (o_mem o)).

Lemma o_call_ok o m o' : o_wf o -> o_call o m = Some o' ->
  o_wf o' /\ length (o_mem o') = length (o_mem o) /\ content o' = packet_call (content o) m.
Proof.
  intros (W1 & W2) E. destruct m as [ws|d|c|]; cbn [o_call] in E.
  - destruct (N.of_nat (length (o_mem o)) <? o_sctr o + N.of_nat (length (flat_map le4 ws))) eqn:B; [discriminate|].
    injection E as <-. assert (L := le4_length ws).
    assert (ML : length (memcpy (o_mem o) (N.to_nat (o_sctr o)) (flat_map le4 ws)) = length (o_mem o))
      by (apply memcpy_length; lia).
    split; [split; cbn [o_sctr o_mem]; lia|]. split; [exact ML|].
    unfold content. cbn [o_sctr o_mem o_reply o_rctr o_vals packet_call].
    assert (Q : firstn (N.to_nat (o_sctr o + N.of_nat (length (flat_map le4 ws))))
                  (memcpy (o_mem o) (N.to_nat (o_sctr o)) (flat_map le4 ws)) =
                firstn (N.to_nat (o_sctr o)) (o_mem o) ++ flat_map le4 ws).
    { unfold memcpy. rewrite app_assoc, firstn_app.
      rewrite firstn_all2 by (rewrite app_length, firstn_length; lia).
      replace (_ - _)%nat with 0%nat by (rewrite app_length, firstn_length; lia).
      rewrite app_nil_r. reflexivity. }
    rewrite Q. reflexivity.
  - injection E as <-. repeat split; assumption.
  - injection E as <-. repeat split; assumption.
  - destruct (N.of_nat (length (o_mem o)) <? 8) eqn:B; [discriminate|]. injection E as <-.
    set (k := swap16 _).
    assert (ML : length (memcpy (o_mem o) 6 [k mod 256; k / 256]) = length (o_mem o))
      by (apply memcpy_length; cbn [length]; lia).
    split; [split; cbn [o_sctr o_mem]; lia|]. split; [exact ML|].
    unfold content. cbn [o_sctr o_mem o_reply o_rctr o_vals packet_call].
    assert (LF : length (firstn (N.to_nat (o_sctr o)) (o_mem o)) = N.to_nat (o_sctr o))
      by (rewrite firstn_length; lia).
    rewrite LF. destruct (Nat.leb_spec 8 (N.to_nat (o_sctr o))) as [H|H].
    + rewrite N2Nat.id. fold k. f_equal; f_equal; f_equal.
      unfold memcpy. rewrite firstn_app, firstn_firstn.
      replace (Nat.min (N.to_nat (o_sctr o)) 6) with 6%nat by lia.
      rewrite firstn_length. replace (Nat.min 6 (length (o_mem o))) with 6%nat by lia.
      rewrite firstn_firstn. replace (Nat.min 6 (N.to_nat (o_sctr o))) with 6%nat by lia.
      f_equal. rewrite firstn_app, firstn_all2 by (cbn [length]; lia). f_equal.
      cbn [length plus]. rewrite skipn_firstn_comm. f_equal. lia.
    + f_equal; f_equal; f_equal. unfold memcpy. rewrite firstn_app, firstn_firstn.
      replace (Nat.min (N.to_nat (o_sctr o)) 6) with (N.to_nat (o_sctr o)) by lia.
      rewrite firstn_length. replace (N.to_nat (o_sctr o) - _)%nat with 0%nat by lia.
      rewrite firstn_O. apply app_nil_r.
Qed.

Lemma o_calls_ok ms : forall o o', o_wf o -> o_calls o ms = Some o' ->
  o_wf o' /\ length (o_mem o') = length (o_mem o) /\ content o' = fold_left packet_call ms (content o).
Proof.
  induction ms as [|m t IH]; intros o o' W E; cbn [o_calls] in E.
  - injection E as <-. auto.
  - destruct (o_call o m) as [o1|] eqn:C; [|discriminate].
    destruct (o_call_ok _ _ _ W C) as (W1 & L1 & C1).
    destruct (IH _ _ W1 E) as (W2 & L2 & C2). split; [exact W2|]. split; [congruence|].
    cbn [fold_left]. rewrite <- C1. exact C2.
Qed.

Lemma clear_wf o : o_wf (o_clear o).
Proof. split; cbn; lia. Qed.

Lemma content_clear o : content (o_clear o) = ([], [], 0, []).
Proof. reflexivity. Qed.

(** C59 for one object: whatever the object held before, after clear() it holds
    what the calls since then put in it, and it has room for as much as a new
    one. *)
Theorem C59_reused_object : forall o ms,
  (forall o', o_calls (o_clear o) ms = Some o' -> content o' = packet_of ms) /\
  (o_calls (o_clear o) ms = None <-> o_calls (o_new (N.of_nat (length (o_mem o)))) ms = None).
Proof.
  intros o ms. split.
  - intros o' E. destruct (o_calls_ok ms _ _ (clear_wf o) E) as (_ & _ & C). exact C.
  - assert (X : forall o1 o2, o_wf o1 -> o_wf o2 -> o_sctr o1 = o_sctr o2 -> length (o_mem o1) = length (o_mem o2) ->
      (o_calls o1 ms = None <-> o_calls o2 ms = None)).
    { clear. induction ms as [|m t IH]; intros o1 o2 W1 W2 S L; cbn [o_calls]; [split; discriminate|].
      assert (Q : match o_call o1 m, o_call o2 m with
                  | Some p1, Some p2 => o_sctr p1 = o_sctr p2
                  | None, None => True | _, _ => False end).
      { destruct m; cbn [o_call]; rewrite <- ?L, <- ?S.
        - destruct (_ <? _); [exact I|reflexivity].
        - first [exact S|reflexivity].
        - first [exact S|reflexivity].
        - destruct (_ <? _); [exact I|first [exact S|reflexivity]]. }
      destruct (o_call o1 m) as [p1|] eqn:E1; destruct (o_call o2 m) as [p2|] eqn:E2; try contradiction; [|tauto].
      destruct (o_call_ok _ _ _ W1 E1) as (V1 & L1 & _). destruct (o_call_ok _ _ _ W2 E2) as (V2 & L2 & _).
      apply IH; trivial. congruence. }
    apply X; [apply clear_wf|split; cbn; lia|reflexivity|].
    cbn [o_clear o_new o_mem]. rewrite repeat_length, Nat2N.id. reflexivity.
Qed.

(** ** The pool *)
Definition in_use (s : pool) : list nat := match l_cur s with Some i => [i] | None => [] end ++ l_out s.

(** Each packet in the transport, in the object that holds it. *)
Definition holds (objs : list bobj) (i : nat) (ms : list meth) : Prop :=
  exists o, nth_error objs i = Some o /\ o_wf o /\ content o = packet_of ms.

Record pinv (s : pool) : Prop := {
  p_range : Forall (fun i => (i < length (l_objs s))%nat) (l_free s ++ in_use s);
  p_nodup : l_fail s = false -> NoDup (l_free s ++ in_use s);
  p_cur : forall i, l_cur s = Some i -> holds (l_objs s) i (l_gcur s);
  p_out : l_fail s = false -> Forall2 (holds (l_objs s)) (l_out s) (l_gout s)
}.

Lemma pinv_init : pinv init_pool.
Proof. constructor; cbn; try discriminate; constructor. Qed.

Lemma holds_other objs i f j ms : holds objs j ms -> j <> i -> holds (upd objs i f) j ms.
Proof.
  intros (o & E & W & C) N. exists o. split; [|auto].
  revert i j E N. induction objs as [|x t IH]; intros [|i] [|j] E N; cbn in *; try discriminate; try congruence.
  apply IH; congruence.
Qed.

Lemma holds_app objs e j ms : holds objs j ms -> holds (objs ++ e) j ms.
Proof.
  intros (o & E & W & C). exists o. split; [|auto]. rewrite nth_error_app1; [exact E|].
  apply nth_error_Some. congruence.
Qed.

Lemma Forall2_holds_upd objs i f l gs : ~ In i l -> Forall2 (holds objs) l gs -> Forall2 (holds (upd objs i f)) l gs.
Proof.
  intros N F. induction F as [|j g l gs H F IH]; [constructor|].
  cbn [In] in N. constructor; [apply holds_other; [exact H|intros ->; apply N; left; reflexivity]|].
  apply IH. intros X. apply N. right. exact X.
Qed.

Lemma NoDup_app_l {A} (a b : list A) : NoDup (a ++ b) -> NoDup a.
Proof. induction a as [|x t IH]; cbn; intros H; [constructor|]. inversion H; subst. constructor; [|apply IH; assumption].
  intros X. apply H2. apply in_or_app. left. exact X. Qed.

Lemma seq_range n k m : (n + k <= m)%nat -> Forall (fun i => (i < m)%nat) (seq n k).
Proof. intros H. apply Forall_forall. intros x Hx. apply in_seq in Hx. lia. Qed.

Lemma pinv_step max s e s' : pinv s -> pstep max s e = Some s' -> pinv s'.
Proof.
  intros [R ND C O] ST. destruct e as [|m| | | | |]; cbn [pstep] in ST.
  - (* take *)
    destruct (l_cur s) eqn:LC; [discriminate|]. unfold in_use in *. rewrite LC in *. cbn [app] in *.
    assert (TK : forall objs i rest,
       Forall (fun j => (j < length objs)%nat) (i :: rest ++ l_out s) ->
       (l_fail s = false -> NoDup (i :: rest ++ l_out s)) ->
       (l_fail s = false -> Forall2 (holds objs) (l_out s) (l_gout s)) ->
       pinv (mkPool (upd objs i o_clear) rest (Some i) (l_out s) (l_fail s) [] (l_gout s))).
    { intros objs i rest R1 N1 H1. inversion R1 as [|? ? Ri Rr]; subst.
      constructor; unfold in_use; cbn [l_objs l_free l_cur l_out l_fail l_gcur l_gout app].
      - rewrite upd_length. apply Forall_app. apply Forall_app in Rr. destruct Rr. split; [assumption|].
        constructor; assumption.
      - intros F. specialize (N1 F). apply NoDup_cons_iff in N1. apply NoDup_Add with (a := i) (l := rest ++ l_out s).
        + apply Add_app.
        + tauto.
      - intros j X. injection X as <-. destruct (nth_error objs i) as [o|] eqn:E.
        + exists (o_clear o). split; [apply nth_upd_same; exact E|]. split; [apply clear_wf|reflexivity].
        + apply nth_error_None in E. lia.
      - intros F. apply Forall2_holds_upd; [|exact (H1 F)].
        specialize (N1 F). apply NoDup_cons_iff in N1. intros X. apply (proj1 N1), in_or_app. right. exact X. }
    destruct (l_free s) as [|i rest] eqn:LF.
    + cbn [seq] in ST. injection ST as <-. cbn [app] in *.
      apply TK.
      * change (length (l_objs s) :: ?x ++ l_out s) with (seq (length (l_objs s)) 10 ++ l_out s).
        apply Forall_app. split; [apply seq_range; rewrite app_length; cbn [repeat length]; lia|].
        eapply Forall_impl; [|exact R]. intros j X. cbn beta in X. rewrite app_length. lia.
      * intros F. change (length (l_objs s) :: ?x ++ l_out s) with (seq (length (l_objs s)) 10 ++ l_out s).
        assert (N := ND F). clear -N R. set (n := length (l_objs s)) in *. revert N R. generalize (l_out s). intros l N R.
        assert (DS : forall k m, (n <= m)%nat -> NoDup (seq m k ++ l)).
        { induction k as [|k IH]; intros m H; [exact N|]. cbn [seq app]. constructor; [|apply IH; lia].
          intros X. apply in_app_or in X. destruct X as [X|X]; [apply in_seq in X; lia|].
          rewrite Forall_forall in R. specialize (R _ X). cbn beta in R. lia. }
        apply DS. lia.
      * intros F. specialize (O F). clear -O. induction O; constructor; trivial. apply holds_app. assumption.
    + injection ST as <-. apply TK; assumption.
  - (* call *)
    destruct (l_cur s) as [i|] eqn:LC; [|discriminate].
    destruct (nth_error (l_objs s) i) as [o|] eqn:E; [|discriminate].
    destruct (o_call o m) as [o'|] eqn:CM; [|discriminate]. injection ST as <-.
    unfold in_use in *. rewrite LC in *. cbn [app] in *.
    constructor; unfold in_use; cbn [l_objs l_free l_cur l_out l_fail l_gcur l_gout app]; rewrite ?upd_length; trivial.
    + intros j X. injection X as <-. destruct (C _ eq_refl) as (o1 & E1 & W1 & C1).
      rewrite E in E1. injection E1 as <-. destruct (o_call_ok _ _ _ W1 CM) as (W2 & _ & C2).
      exists o'. split; [apply (nth_upd_same _ _ (fun _ => o') _ E)|]. split; [exact W2|].
      unfold packet_of. rewrite fold_left_app. cbn [fold_left]. fold (packet_of (l_gcur s)). congruence.
    + intros F. apply Forall2_holds_upd; [|exact (O F)].
      specialize (ND F). apply NoDup_remove_2 in ND. intros X. apply ND, in_or_app. right. exact X.
  - (* send *)
    destruct (l_cur s) as [i|] eqn:LC; [|discriminate]. destruct (l_fail s) eqn:LF; [discriminate|]. injection ST as <-.
    unfold in_use in *. rewrite LC in *. cbn [app] in *.
    constructor; unfold in_use; cbn [l_objs l_free l_cur l_out l_fail l_gcur l_gout app].
    + apply Forall_app in R. destruct R as (R1 & R2). inversion R2; subst.
      apply Forall_app. split; [assumption|]. apply Forall_app. split; [assumption|]. constructor; [assumption|constructor].
    + intros _. specialize (ND eq_refl).
      rewrite app_assoc. apply (NoDup_Add (a := i) (l := l_free s ++ l_out s)).
      * replace ((l_free s ++ l_out s) ++ [i]) with ((l_free s ++ l_out s) ++ i :: []) by reflexivity.
        replace (Add i (l_free s ++ l_out s)) with (Add i ((l_free s ++ l_out s) ++ [])) by (rewrite app_nil_r; reflexivity).
        apply Add_app.
      * split; [apply (NoDup_remove_1 _ _ _ ND)|apply (NoDup_remove_2 _ _ _ ND)].
    + discriminate.
    + intros _. apply Forall2_app; [exact (O eq_refl)|]. constructor; [apply C; reflexivity|constructor].
  - (* done *)
    destruct (l_out s) as [|i q] eqn:LO; [discriminate|]. destruct (l_fail s) eqn:LF; [discriminate|]. injection ST as <-.
    unfold in_use in *. rewrite LO in *.
    constructor; unfold in_use; cbn [l_objs l_free l_cur l_out l_fail l_gcur l_gout]; trivial.
    + rewrite !Forall_app in *. destruct R as (R1 & R2 & R3). inversion R3; subst. repeat split; trivial.
      constructor; [assumption|constructor].
    + intros _. specialize (ND eq_refl).
      set (c := match l_cur s with Some i0 => [i0] | None => [] end) in *.
      assert (ND' : NoDup ((l_free s ++ c) ++ i :: q)) by (rewrite <- app_assoc; exact ND).
      assert (A1 := NoDup_remove_1 _ _ _ ND'). assert (A2 := NoDup_remove_2 _ _ _ ND').
      rewrite <- app_assoc in A1, A2. rewrite <- app_assoc. cbn [app].
      apply (NoDup_Add (a := i) (l := l_free s ++ (c ++ q))); [apply Add_app|auto].
    + intros _. specialize (O eq_refl). inversion O; subst. assumption.
  - (* refused *)
    destruct (l_out s) as [|i q] eqn:LO; [discriminate|]. destruct (l_fail s) eqn:LF; [discriminate|]. injection ST as <-.
    unfold in_use in *. rewrite LO in *.
    constructor; unfold in_use; cbn [l_objs l_free l_cur l_out l_fail l_gcur l_gout]; trivial; try discriminate.
    rewrite !Forall_app in *. destruct R as (R1 & R2 & R3). inversion R3; subst. repeat split; trivial.
    constructor; [assumption|constructor].
  - (* lost *)
    destruct (l_out s) eqn:LO; [discriminate|]. injection ST as <-.
    unfold in_use in *. rewrite LO in *.
    constructor; unfold in_use; cbn [l_objs l_free l_cur l_out l_fail l_gcur l_gout]; trivial; discriminate.
  - injection ST as <-. constructor; cbn; try discriminate; constructor.
Qed.

Lemma pinv_run max es : forall s s', pinv s -> prun max s es = Some s' -> pinv s'.
Proof.
  induction es as [|e t IH]; intros s s' I R; cbn [prun] in R.
  - injection R as <-. exact I.
  - destruct (pstep max s e) as [s1|] eqn:E; [|discriminate]. exact (IH _ _ (pinv_step _ _ _ _ I E) R).
Qed.

(** C59 for the client: at every moment of every history of packets sent,
    answered, refused, lost and of exceptions, with buffers recycled in between,
    the packet being built holds exactly what was put in since its buffer was
    taken from the pool, and so does every packet in the hands of the transport
    as long as no failure is stored (after a failure nothing more is sent until
    the exception handler has dropped them all); no two of them share a buffer. *)
Theorem C59_pool : forall max es s, prun max init_pool es = Some s ->
  (forall i, l_cur s = Some i -> exists o, nth_error (l_objs s) i = Some o /\ content o = packet_of (l_gcur s)) /\
  (l_fail s = false ->
     NoDup (l_free s ++ in_use s) /\ length (l_out s) = length (l_gout s) /\
     forall k i ms, nth_error (l_out s) k = Some i -> nth_error (l_gout s) k = Some ms ->
       exists o, nth_error (l_objs s) i = Some o /\ content o = packet_of ms) /\
  (l_fail s = true -> pstep max s PSend = None).
Proof.
  intros max es s R. destruct (pinv_run max es _ _ pinv_init R) as [A B C O]. split; [|split].
  - intros i E. destruct (C i E) as (o & X & _ & Y). exists o. auto.
  - intros F. split; [exact (B F)|]. specialize (O F). split; [clear -O; induction O; cbn [length]; congruence|].
    clear -O. induction O as [|j g l gs H O IH]; intros [|k] i ms E1 E2; try discriminate.
    + injection E1 as ->. injection E2 as ->. destruct H as (o & X & _ & Y). exists o. auto.
    + exact (IH k i ms E1 E2).
  - intros F. cbn [pstep]. rewrite F. destruct (l_cur s); reflexivity.
Qed.

(** ** Link to the client model of [Client.v], which uses fresh buffers. *)

(** The same calls on the buffers of [Client.v]. *)
Definition buf_call (b : buf) (m : meth) : buf :=
  match m with
  | MSend ws => mkBuf (b_send b ++ ws) (b_reply b) (b_vals b)
  | MRecv d => mkBuf (b_send b) (b_reply b ++ [d]) (b_vals b)
  | MAdd c => mkBuf (b_send b) (b_reply b) (b_vals b ++ [c])
  | MCount =>
      match b_send b with
      | ip :: port :: rest =>
          mkBuf (ip :: port mod 65536 + 65536 * swap16 (((send_counter b - 8) / 4) mod 65536) :: rest)
                (b_reply b) (b_vals b)
      | _ => b
      end
  end.

(** What the transport sees of a buffer of [Client.v]. *)
Definition buf_content (b : buf) : list N * list dest * N * list nat :=
  (flat_map le4 (b_send b), b_reply b, reply_counter b, b_vals b).

Lemma buf_call_content b m : packet_call (buf_content b) m = buf_content (buf_call b m).
Proof.
  unfold buf_content. destruct m as [ws|d|c|]; cbn [packet_call buf_call b_send b_reply b_vals].
  - rewrite flat_map_app. reflexivity.
  - unfold reply_counter. cbn [b_reply]. rewrite dests_words_app. cbn [dests_words]. rewrite N.add_0_r.
    rewrite N.mul_add_distr_l. reflexivity.
  - reflexivity.
  - rewrite le4_length. destruct (b_send b) as [|ip [|port rest]] eqn:BS.
    + rewrite BS. reflexivity.
    + rewrite BS. reflexivity.
    + unfold send_counter. rewrite BS. cbn [length b_send b_reply b_vals].
      replace (8 <=? 4 * S (S (length rest)))%nat with true by (symmetry; apply Nat.leb_le; lia).
      unfold reply_counter. cbn [b_reply].
      replace (N.of_nat (4 * S (S (length rest)))) with (4 * N.of_nat (S (S (length rest)))) by lia.
      set (k := swap16 _). assert (K : k < 65536).
      { unfold k, swap16. generalize ((4 * N.of_nat (S (S (length rest))) - 8) / 4). intros z. lia. }
      f_equal. f_equal. f_equal. cbn [flat_map le4 app firstn skipn].
      repeat (f_equal; try lia).
Qed.

(** Every function of the client that touches the buffer is such a sequence of
    calls. *)
Theorem C59_client_calls : forall g s,
  (forall s' b, preamble g s = Ok s' b -> exists w, b = fold_left buf_call
     (match g_hub g with
      | Some (ip, port) => [MSend [ip; port]; MRecv DHub; MRecv DHub; MRecv DHub] | None => [] end ++
      [MSend [w]; MRecv (match g_ver g with V1 => DHdr | V2 => DPkt end)]) (mkBuf [] [] [])) /\
  (forall b t wc body rep s', s_cur s = Some b -> push_tx g s t wc body rep = Ok s' tt -> exists h,
     s_cur s' = Some (fold_left buf_call (MSend [h] :: MSend body :: map MRecv rep) b)) /\
  (forall b c, s_cur s = Some b -> s_cur (add_val s c) = Some (buf_call b (MAdd c))) /\
  (forall b b', predispatch g b = Some b' -> exists w n, b' = fold_left buf_call
     (MSend (repeat w n) :: map MRecv (repeat DHdr n) ++ match g_hub g with Some _ => [MCount] | None => [] end) b).
Proof.
  assert (MR : forall rep b, fold_left buf_call (map MRecv rep) b = mkBuf (b_send b) (b_reply b ++ rep) (b_vals b)).
  { induction rep as [|d t IH]; intros b; cbn [map fold_left].
    - rewrite app_nil_r. destruct b; reflexivity.
    - rewrite IH. cbn [buf_call b_send b_reply b_vals]. rewrite <- app_assoc. reflexivity. }
  intros g s. split; [|split; [|split]].
  - intros s' b E. unfold preamble in E. destruct (g_ver g).
    + destruct (calc_header V1 BOT 0 (s_ctr s) (req_info V1)) as [w|]; [|discriminate]. exists w.
      destruct (g_hub g) as [[ip port]|]; injection E as _ <-; reflexivity.
    + exists 0x200000F0. destruct (g_hub g) as [[ip port]|]; injection E as _ <-; reflexivity.
  - intros b t wc body rep s' C E. unfold push_tx in E. rewrite C in E.
    destruct (calc_header _ _ _ _ _) as [h|]; [|discriminate]. destruct (_ <? _); [discriminate|].
    injection E as <-. exists h. cbn [set_cur s_cur fold_left]. rewrite MR. cbn [buf_call b_send b_reply b_vals].
    rewrite <- app_assoc. reflexivity.
  - intros b c C. unfold add_val. rewrite C. reflexivity.
  - intros b b' E. unfold predispatch in E.
    assert (P : exists w n, (match g_ver g with
            | V2 => b
            | V1 =>
                match calc_header V1 BOT 0 0 0 with
                | Some w => mkBuf (b_send b ++ repeat w (N.to_nat (7 + preamble_size g - N.of_nat (length (b_send b)))))
                                  (b_reply b ++ repeat DHdr (N.to_nat (7 + preamble_size g - N.of_nat (length (b_send b))))) (b_vals b)
                | None => b
                end
            end) = fold_left buf_call (MSend (repeat w n) :: map MRecv (repeat DHdr n)) b).
    { destruct (g_ver g).
      - destruct (calc_header V1 BOT 0 0 0) as [w|].
        + eexists w, _. cbn [fold_left]. rewrite MR. reflexivity.
        + exists 0, 0%nat. cbn. rewrite app_nil_r. destruct b; reflexivity.
      - exists 0, 0%nat. cbn. rewrite app_nil_r. destruct b; reflexivity. }
    destruct P as (w & n & P). cbv zeta in E. rewrite P in E. clear P. exists w, n.
    rewrite app_comm_cons, fold_left_app.
    set (b1 := fold_left buf_call (MSend (repeat w n) :: map MRecv (repeat DHdr n)) b) in *.
    destruct (_ <? _); [discriminate|]. destruct (g_hub g) as [hp|]; cbn [fold_left buf_call].
    + destruct (b_send b1) as [|ip [|port rest]]; try discriminate. injection E as <-. reflexivity.
    + injection E as <-. reflexivity.
Qed.

(** Hence a packet of [Client.v] that fits the limit is, byte for byte, what a
    recycled object of that size holds after the same calls. *)
Theorem C59_client_packets : forall o ms,
  let b := fold_left buf_call ms (mkBuf [] [] []) in
  8 <= N.of_nat (length (o_mem o)) -> send_counter b <= N.of_nat (length (o_mem o)) ->
  exists o', o_calls (o_clear o) ms = Some o' /\ content o' = buf_content b.
Proof.
  intros o ms b M S.
  assert (X : forall ms o b0, o_wf o -> 8 <= N.of_nat (length (o_mem o)) -> o_sctr o = send_counter b0 ->
     send_counter (fold_left buf_call ms b0) <= N.of_nat (length (o_mem o)) -> exists o', o_calls o ms = Some o').
  { clear. induction ms as [|m t IH]; intros o b W M C S; [eexists; reflexivity|]. cbn [o_calls fold_left] in *.
    assert (MONO : forall ms b, send_counter b <= send_counter (fold_left buf_call ms b)).
    { clear. induction ms as [|m t IH]; intros b; cbn [fold_left]; [lia|].
      etransitivity; [|apply IH]. destruct m; unfold send_counter; cbn [buf_call b_send].
      - rewrite app_length. lia.
      - lia.
      - lia.
      - destruct (b_send b) as [|ip [|port rest]] eqn:E; cbn [b_send length]; rewrite ?E; cbn [length]; lia. }
    specialize (MONO t (buf_call b m)).
    destruct m as [ws|d|c|]; cbn [o_call].
    - rewrite le4_length. unfold send_counter in *. cbn [buf_call b_send] in MONO, S |- *. rewrite app_length in MONO.
      replace (_ <? _) with false by lia.
      apply (IH _ (buf_call b (MSend ws))); cbn [o_sctr o_mem buf_call b_send]; trivial.
      + destruct W. split; cbn [o_sctr o_mem]; rewrite ?memcpy_length; rewrite ?le4_length; lia.
      + rewrite memcpy_length by (rewrite le4_length; lia). exact M.
      + unfold send_counter. cbn [b_send]. rewrite app_length. lia.
      + rewrite memcpy_length by (rewrite le4_length; lia). exact S.
    - apply (IH _ (buf_call b (MRecv d))); trivial.
    - apply (IH _ (buf_call b (MAdd c))); trivial.
    - replace (_ <? 8) with false by lia.
      apply (IH _ (buf_call b MCount)); cbn [o_sctr o_mem]; rewrite ?memcpy_length; cbn [length]; try lia; trivial.
      + destruct W. split; cbn [o_sctr o_mem]; rewrite ?memcpy_length; cbn [length]; lia.
      + unfold send_counter in *. cbn [buf_call]. destruct (b_send b) as [|ip [|port rest]] eqn:E; cbn [b_send length] in *; rewrite ?E; cbn [length]; lia. }
  destruct (X ms (o_clear o) (mkBuf [] [] []) (clear_wf o) M eq_refl S) as (o' & E).
  exists o'. split; [exact E|]. rewrite (proj1 (C59_reused_object o ms) o' E).
  assert (Y : forall ms b0, fold_left packet_call ms (buf_content b0) = buf_content (fold_left buf_call ms b0)).
  { clear. induction ms as [|m t IH]; intros b0; [reflexivity|]. cbn [fold_left]. rewrite buf_call_content. apply IH. }
  exact (Y ms (mkBuf [] [] [])).
Qed.

(** A buffer used for one packet, returned and used again; the second packet is
    shorter and the old bytes are still in the array. *)
Definition p_es : list pevent :=
  [PTake; PCall (MSend [0x200000F0; 0x11111111]); PCall (MSend [0x22222222; 0x33333333]); PCall (MRecv DPkt); PCall (MAdd 3);
   PSend; PDone] ++ flat_map (fun _ => [PTake; PSend; PDone]) (seq 0 9) ++
  [PTake; PCall (MSend [0x200000F0]); PCall (MSend [0x44444444]); PCall (MRecv DHdr); PSend].

Example C59_case :
  option_map (fun s => (l_out s, length (l_free s), map (fun o => firstn 10 (o_mem o)) (firstn 1 (l_objs s)),
                        map content (firstn 1 (l_objs s)))) (prun 32 init_pool p_es) =
  Some ([0%nat], 9%nat, [[0xF0; 0; 0; 0x20; 0x44; 0x44; 0x44; 0x44; 0x22; 0x22]],
        [([0xF0; 0; 0; 0x20; 0x44; 0x44; 0x44; 0x44], [DHdr], 4, [])]).
Proof. vm_compute. reflexivity. Qed.

(** A ControlHub packet in a recycled object full of old bytes. *)
Definition p_ms : list meth :=
  [MSend [0x0200000A; 0x0000D9C3]; MRecv DHub; MRecv DHub; MRecv DHub; MSend [0x200000F0]; MRecv DPkt;
   MSend [0x2000010F]; MSend [0x1234]; MRecv DHdr; MAdd 0; MCount].
Definition p_old : bobj := mkBobj 40 (repeat 0xEE 40) 12 [DHdr] [7%nat].

Example C59_client_case :
  8 <= N.of_nat (length (o_mem p_old)) /\
  send_counter (fold_left buf_call p_ms (mkBuf [] [] [])) <= N.of_nat (length (o_mem p_old)) /\
  option_map (fun o => (content o, nth 20 (o_mem o) 0)) (o_calls (o_clear p_old) p_ms) =
  Some (([0x0A; 0; 0; 2; 0xC3; 0xD9; 0; 3; 0xF0; 0; 0; 0x20; 0x0F; 1; 0; 0x20; 0x34; 0x12; 0; 0],
         [DHub; DHub; DHub; DPkt; DHdr], 20, [0%nat]), 0xEE).
Proof. vm_compute. repeat split; discriminate. Qed.

Print Assumptions C59_reused_object.
Print Assumptions C59_pool.
Print Assumptions C59_client_calls.
Print Assumptions C59_client_packets.
