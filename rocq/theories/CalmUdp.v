(** Invariant of the UDP transport while the network does nothing wrong (C103). *)
From Coq Require Import NArith ZArith List Bool Lia PeanoNat ZifyBool ZifyNat ZifyN.
From Verif Require Import Word Udp UdpProofs Prop_Udp.
Import ListNotations.
Open Scope N_scope.
Ltac Zify.zify_post_hook ::= Z.div_mod_to_equations.

(** ** Specification *)

(** What the network and the device do right: connect() succeeds, every datagram
    is sent in full, no receive fails, no deadline passes before its datagram is
    there, every reply is found valid. *)
Definition fine (l : ulabel) : Prop :=
  match l with
  | LConnectFail | LSent false | LRecvErr | LDeadline | LMiddle false => False
  | _ => True
  end.

(** A client at rest: new, or after an exception whose callbacks have all run. *)
Definition at_rest (s : ust) : Prop := u_user s = UIdle /\ u_exc s = false /\ quiet s.

(** Nothing went wrong in this part of the history. *)
Definition calm (e : list obs) : Prop := ~ In OFail e /\ ~ In OThrow e.

(** ** Invariant *)

Definition good_c (c : compl) : Prop := c = CSend true \/ c = CRecv false.

Record sound (s : ust) : Prop := {
  d_exc : u_exc s = false;
  d_ub : u_ub s = false;
  d_user : u_user s = UIdle \/ u_user s = UWait \/ u_user s = UWake;
  d_rdy : Forall good_c (u_rdy s);
  d_io : u_io s <> IORead true;
  d_s : (u_acts s + nS (u_rdy s))%nat = List.length (olist (u_disp s));
  d_r : (u_actr s + nR (u_rdy s) + io_busy (u_io s))%nat = List.length (olist (u_reply s));
  d_fin : u_disp s <> None \/ u_reply s <> None -> u_fin s = true /\ u_open s = true
}.

Lemma good_drop : forall l i, Forall good_c l -> Forall good_c (drop_nth l i).
Proof. induction l as [|x l IH]; intros [|i] F; cbn [drop_nth]; auto; inversion F; auto. Qed.

Lemma rest_sound max s : 1 <= max -> max < W32 -> reached max false s -> at_rest s -> sound s.
Proof.
  intros A B R (U & X & Q1 & Q2 & Q3 & Q4). assert (W := reached_inv _ _ _ A B R). assert (M := w_mode _ _ _ W).
  unfold mode in M. rewrite U, X in M. destruct M as [[] _ _ _]. rewrite Q1, Q2, Q3, Q4 in *. cbn in v_s, v_r.
  constructor; rewrite ?Q1, ?Q2, ?Q3, ?Q4; auto; try discriminate.
  - exact (w_ub _ _ _ W).
  - destruct (u_disp s), (u_reply s); cbn [olist List.length] in *; try lia. intros [H|H]; congruence.
Qed.

Ltac calm_end := first [exists []; rewrite app_nil_r; split; [reflexivity|split; intros []]
  | eexists [_]; split; [reflexivity|split; intros [H|[]]; discriminate]
  | eexists [_; _]; split; [rewrite <- app_assoc; reflexivity|split; intros [H|[H|[]]]; discriminate]].

Lemma sound_step max s l s' : sound s -> fine l -> ustep max false s l = Some s' ->
  sound s' /\ exists e, u_tr s' = u_tr s ++ e /\ calm e.
Proof.
  intros D F ST. destruct D. destruct s. unfold ustep in ST. recs. subst. destruct l; try contradiction F.
  - destruct u_user; try discriminate. injection ST as <-. unfold implement_dispatch. recs. destruct u_disp as [d|]; recs.
    + split; [constructor; recs; auto|calm_end]. intros _. split; [apply d_fin0; left; discriminate|reflexivity].
    + destruct (_ =? _); recs.
      * split; [constructor; recs; auto|calm_end]. intros H. split; [apply d_fin0; exact H|reflexivity].
      * split; [constructor; recs; auto|calm_end]. cbn [olist List.length] in *. lia.
  - destruct u_user; try discriminate. injection ST as <-. split; [constructor; recs; auto|calm_end].
  - destruct u_user, u_done; try discriminate. injection ST as <-. split; [constructor; recs; auto|calm_end].
  - destruct u_user; try discriminate. injection ST as <-. split; [constructor; recs; auto|calm_end].
  - destruct u_user; try discriminate; destruct d_user0 as [H|[H|H]]; discriminate.
  - destruct u_acts; [discriminate|]. injection ST as <-. destruct ok; [|contradiction F].
    split; [constructor; recs; auto|calm_end].
    + apply Forall_app. split; [assumption|]. constructor; [left; reflexivity|constructor].
    + rewrite nS_app. cbn [nS filter List.length]. lia.
    + rewrite nR_app. cbn [nR filter List.length]. lia.
  - destruct u_actr, u_open; try discriminate. injection ST as <-.
    split; [constructor; recs; auto|calm_end].
    + apply Forall_app. split; [assumption|]. constructor; [right; reflexivity|constructor].
    + rewrite nS_app. cbn [nS filter List.length]. lia.
    + rewrite nR_app. cbn [nR filter List.length]. lia.
  - destruct u_io; try discriminate. destruct (nth_error u_rdy i) as [c|] eqn:NT; [|discriminate].
    destruct (drop_counts _ _ _ NT) as (C1 & C2 & _). assert (G := good_drop u_rdy i d_rdy0).
    assert (GC : good_c c) by (apply nth_error_In in NT; rewrite Forall_forall in d_rdy0; auto).
    injection ST as <-. destruct GC as [-> | ->]; cbn [nS nR filter List.length] in C1, C2.
    + unfold write_callback. recs. destruct u_disp as [d|]; cbn [olist List.length] in d_s0; [|lia].
      destruct d_fin0 as (-> & ->); [left; discriminate|]. recs.
      destruct u_reply as [r|]; recs; destruct u_queue as [|p q]; recs.
      * split; [constructor; recs; auto; cbn [olist List.length io_busy] in *; lia|calm_end].
      * destruct (_ =? _); recs; split; try calm_end; constructor; recs; auto; cbn [olist List.length io_busy] in *; lia.
      * split; [constructor; recs; auto; cbn [olist List.length io_busy] in *; lia|calm_end].
      * destruct (_ =? _); recs; split; try calm_end; constructor; recs; auto; cbn [olist List.length io_busy] in *; lia.
    + unfold read_callback. recs. destruct u_reply as [r|]; cbn [olist List.length] in d_r0; [|lia].
      destruct d_fin0 as (-> & ->); [right; discriminate|]. recs.
      split; [constructor; recs; auto; try discriminate; cbn [olist List.length io_busy] in *; lia|calm_end].
  - destruct u_io as [|err|]; try discriminate. injection ST as <-. destruct err; [congruence|]. destruct v; [|contradiction F].
    unfold read_middle. recs. destruct u_reply as [r|]; cbn [olist List.length io_busy] in d_r0; [|lia]. recs.
    split; [constructor; recs; auto; discriminate|calm_end].
  - destruct u_io as [|err|]; try discriminate. injection ST as <-. unfold read_end. recs.
    destruct u_reply as [r|]; cbn [olist List.length io_busy] in d_r0; [|lia].
    destruct d_fin0 as (-> & ->); [right; discriminate|].
    destruct u_rqueue as [|x rq], u_disp as [d|], u_queue as [|p q]; recs; try destruct (sub32 u_infl 1 =? max)%N; recs;
    (split; [constructor; recs; auto; try discriminate; cbn [olist List.length io_busy] in *; try lia|calm_end]).
Qed.

Lemma sound_run max : forall ls s s', sound s -> Forall fine ls -> urun max false s ls = Some s' ->
  sound s' /\ exists e, u_tr s' = u_tr s ++ e /\ calm e.
Proof.
  induction ls as [|l ls IH]; intros s s' D F R; cbn [urun] in R.
  { injection R as <-. split; [exact D|]. exists []. rewrite app_nil_r. split; [reflexivity|split; intros []]. }
  destruct (ustep max false s l) as [s1|] eqn:ST; [|discriminate]. inversion F as [|? ? F1 F2]; subst.
  destruct (sound_step _ _ _ _ D F1 ST) as (D1 & e1 & E1 & C1 & C1'). destruct (IH _ _ D1 F2 R) as (D2 & e2 & E2 & C2 & C2').
  split; [exact D2|]. exists (e1 ++ e2). rewrite E2, E1, <- app_assoc. split; [reflexivity|].
  split; intros H; apply in_app_iff in H; destruct H; auto.
Qed.

Lemma sound_quiet max : forall ls s, sound s -> Forall fine ls -> quiet_handlers max false s ls.
Proof.
  induction ls as [|l ls IH]; intros s D F; cbn [quiet_handlers]; [exact I|]. inversion F as [|? ? F1 F2]; subst. split.
  - intros _ U. destruct (d_user _ D) as [H|[H|H]]; congruence.
  - destruct (ustep max false s l) as [s1|] eqn:ST; [|exact I]. apply IH; [|exact F2]. exact (proj1 (sound_step _ _ _ _ D F1 ST)).
Qed.

Lemma urun_app max zero : forall a b s, urun max zero s (a ++ b) = match urun max zero s a with Some s1 => urun max zero s1 b | None => None end.
Proof. induction a as [|l a IH]; intros b s; cbn [urun app]; [reflexivity|]. destruct (ustep max zero s l); auto. Qed.

Lemma quiet_app max zero : forall a b s s1, urun max zero s a = Some s1 -> quiet_handlers max zero s a -> quiet_handlers max zero s1 b ->
  quiet_handlers max zero s (a ++ b).
Proof.
  induction a as [|l a IH]; intros b s s1 R Q1 Q2; cbn [urun quiet_handlers app] in *; [injection R as <-; exact Q2|].
  destruct Q1 as (Q & Q1). split; [exact Q|]. destruct (ustep max zero s l) as [s2|]; [|discriminate]. eapply IH; eassumption.
Qed.

Lemma sound_reached max ls s s' : reached max false s -> sound s -> Forall fine ls -> urun max false s ls = Some s' -> reached max false s'.
Proof.
  intros (l0 & R0 & Q0) D F R. exists (l0 ++ ls). split; [rewrite urun_app, R0; exact R|].
  eapply quiet_app; [exact R0|exact Q0|]. apply sound_quiet; assumption.
Qed.
