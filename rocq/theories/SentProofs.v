(** Proof layer: invariant of the packets sent. *)
From Verif Require Import Word Bits Header WordLemmas HeaderProofs ValMem Client
  Validate Target Spec SpecLemmas System Tx E2E Sent WireSpec.
From Coq Require Import NArith ZArith List Lia Bool ZifyBool ZifyNat ZifyN.
Import ListNotations.
Open Scope N_scope.
Ltac Zify.zify_post_hook ::= Z.div_mod_to_equations.

Definition nul_rd (d : unit) (a : N) : unit * N := (tt, 0).
Definition nul_wr (d : unit) (a x : N) : unit := tt.

Section Sent.
Variable g : cfg.
Hypothesis G : cfg_ok g.
Variable strict : bool.
Notation v := (g_ver g).
Notation inv := (inv unit nul_rd nul_wr nul_rd (dev_rmw unit nul_rd nul_wr) g strict).
Notation bdy := (bdy unit).

(** Abstract packets: transactions and the number of padding transactions. *)
Definition gpk : Type := pk * nat.
Definition pad (q : gpk) : pk := padded (fst q) (snd q).

Definition Winv (y : st * list buf) : Prop :=
  exists dr go gc qh,
    inv (fst y) [] dr [] go gc /\ bdy [] go gc /\
    Forall2 (repr_out g) (snd y) (map pad qh) /\
    Forall (fun p => wf_pk g p /\ fst p <> []) (map pad qh) /\
    Forall (size_ok g) (snd y) /\
    (strict = true -> dr = real_txs qh).

Lemma Winv_init : Winv (init_st, []).
Proof.
  exists [], [], None, []. cbn [fst snd map].
  split; [|split; [|repeat split; constructor]].
  - constructor; cbn; trivial; try constructor.
    intros _. exists []. split; [reflexivity|]. split; [reflexivity|]. intros [|k] x; discriminate.
  - split; [auto|discriminate].
Qed.

Lemma pad0 go : map pad (map (fun p => (p, 0%nat)) go) = go.
Proof.
  rewrite map_map. rewrite <- (map_id go) at 2. apply map_ext. intros [xs vs].
  unfold pad, padded. cbn. rewrite app_nil_r. reflexivity.
Qed.

Lemma Winv_step y c : Winv y ->
  (forall o, c = COp o -> op_ok o) ->
  (strict = true -> v = V1 -> forall a m, c <> COp (OReadCfg a m)) ->
  exists y', client_step g y c = Some y' /\ Winv y'.
Proof.
  intros (dr & go & gc & qh & I & BD & R & W & SZ & DR) OK SR. destruct y as [s hist].
  cbn [fst snd] in *. destruct c as [o|]; cbn [client_step].
  - destruct (run_op_ok unit nul_rd nul_wr nul_rd (dev_rmw unit nul_rd nul_wr) (dev_ext _ _ _) g G strict s [] dr [] go gc tt o I (OK o eq_refl) BD)
      as (OR & go' & gc' & I' & BD' & _).
    { intros S1 S2 a m E. apply (SR S1 S2 a m). congruence. }
    assert (X : exists s', res_state s (run_op g s o) = s' /\
      match run_op g s o with Ok s _ => Some (s, hist) | Exc s _ => Some (s, hist) | Bad => None end
      = Some (s', hist)).
    { destruct (snd (AtomicSpec.atomic_op _ _ _ _ _ _ _ o)).
      - destruct OR as (s' & ->). eexists. split; reflexivity.
      - destruct OR as (s' & e & ->). eexists. split; reflexivity. }
    destruct X as (s' & X1 & X2). rewrite X1 in I'. eexists. split; [exact X2|].
    exists dr, go', gc', qh. cbn [fst snd]. auto 10.
  - unfold dispatch_send. destruct (s_cur s) as [b|] eqn:C.
    + destruct gc as [p|]; [|pose proof (i_cur _ _ _ _ _ _ _ _ _ _ _ _ _ I) as X; rewrite C in X; contradiction].
      destruct (send_current_ok unit nul_rd nul_wr nul_rd (dev_rmw unit nul_rd nul_wr) g G strict s [] dr [] go b p I C)
        as (s' & n & E & I' & H' & C').
      { apply BD. reflexivity. }
      rewrite E. eexists. split; [reflexivity|].
      assert (Q : exists qs, go ++ [padded p n] = map pad qs /\
         (strict = true -> ids_ok (dr ++ real_txs qs) (s_ctr s'))).
      { pose proof (i_ids _ _ _ _ _ _ _ _ _ _ _ _ _ I') as IDS.
        destruct strict.
        - destruct (IDS eq_refl) as (qs & Q1 & Q2). exists qs. cbn [map app] in Q1.
          split; [exact Q1|]. intros _. cbn [cur_txs] in Q2. rewrite app_nil_r in Q2. exact Q2.
        - exists (map (fun p => (p, 0%nat)) (go ++ [padded p n])).
          split; [symmetry; apply pad0|discriminate]. }
      destruct Q as (qs & Q1 & Q2).
      exists (dr ++ real_txs qs), [], None, (qh ++ qs). cbn [fst snd].
      destruct I'. split; [|split; [split; [auto|discriminate]|split; [|split; [|split]]]].
      * constructor; cbn [s_out s_cur s_heap s_budget s_ctr]; trivial; try constructor.
        intros ST. exists []. split; [reflexivity|]. cbn [real_txs flat_map cur_txs app].
        rewrite app_nil_r. apply Q2, ST.
      * rewrite map_app. apply Forall2_app; [assumption|]. rewrite <- Q1. assumption.
      * rewrite map_app. apply Forall_app. split; [assumption|]. rewrite <- Q1. assumption.
      * apply Forall_app. auto.
      * intros ST. unfold real_txs at 2. rewrite flat_map_app. rewrite (DR ST). reflexivity.
    + eexists. split; [reflexivity|].
      assert (gc = None).
      { pose proof (i_cur _ _ _ _ _ _ _ _ _ _ _ _ _ I) as X. rewrite C in X.
        destruct gc; [contradiction|reflexivity]. }
      subst gc. destruct BD as (BD1 & BD2). destruct (BD1 eq_refl) as (-> & _).
      assert (O : s_out s = []).
      { pose proof (i_out _ _ _ _ _ _ _ _ _ _ _ _ _ I) as X. inversion X. reflexivity. }
      rewrite O, app_nil_r. exists dr, [], None, qh. cbn [fst snd].
      split; [|split; [split; auto|auto]].
      destruct s as [ctr cur heap out bud]; cbn [s_ctr s_cur s_heap s_out s_budget] in *. subst out. exact I.
Qed.

Lemma Winv_run cs : forall y, Winv y ->
  Forall op_ok (cmd_ops cs) ->
  (strict = true -> v = V1 -> forall a m, ~ In (OReadCfg a m) (cmd_ops cs)) ->
  exists y', client_run g y cs = Some y' /\ Winv y'.
Proof.
  induction cs as [|c t IH]; intros y W F SR.
  - eexists. split; [reflexivity|exact W].
  - cbn [cmd_ops flat_map] in F, SR. apply Forall_app in F. destruct F as (F1 & F2).
    destruct (Winv_step y c W) as (y1 & E & W1).
    + intros o ->. inversion F1. assumption.
    + intros S1 S2 a m ->. apply (SR S1 S2 a m). left. reflexivity.
    + cbn [client_run]. rewrite E. apply IH; trivial.
      intros S1 S2 a m X. apply (SR S1 S2 a m). apply in_or_app. right. exact X.
Qed.

(** All packets, and the numbers of the transactions in them. *)
Lemma sent_inv cs :
  Forall op_ok (cmd_ops cs) ->
  (strict = true -> v = V1 -> forall a m, ~ In (OReadCfg a m) (cmd_ops cs)) ->
  exists bs qs, sent g cs = Some bs /\
    Forall2 (repr_out g) bs (map pad qs) /\
    Forall (fun p => wf_pk g p /\ fst p <> []) (map pad qs) /\
    Forall (size_ok g) bs /\
    (strict = true -> forall k x, nth_error (real_txs qs) k = Some x -> x_id x = N.of_nat k mod W32).
Proof.
  intros F SR. destruct (Winv_run cs _ Winv_init F SR) as ([s hist] & E & W).
  unfold sent. rewrite E. cbn [option_map fst snd].
  destruct W as (dr & go & gc & qh & I & BD & R & W & SZ & DR). cbn [fst snd] in *.
  destruct I.
  assert (Q : exists qs, go = map pad qs /\
         (strict = true -> ids_ok (dr ++ real_txs qs ++ cur_txs gc) (s_ctr s))).
  { destruct strict.
    - destruct (i_ids eq_refl) as (qs & Q1 & Q2). exists qs. cbn [map app] in Q1. auto.
    - exists (map (fun p => (p, 0%nat)) go). split; [symmetry; apply pad0|discriminate]. }
  destruct Q as (qs & -> & Q2).
  exists (hist ++ s_out s), (qh ++ qs). split; [reflexivity|].
  rewrite map_app. split; [apply Forall2_app; assumption|]. split; [apply Forall_app; auto|].
  split; [apply Forall_app; auto|].
  intros ST k x N. destruct (Q2 ST) as (_ & B). apply B. rewrite (DR ST).
  unfold real_txs in *. rewrite flat_map_app in N. rewrite app_assoc.
  rewrite nth_error_app1; [exact N|]. apply nth_error_Some. intros X. discriminate (eq_trans (eq_sym N) X).
Qed.

(** From abstract transactions to those of [WireSpec]. *)
Definition to_w (x : tx) : wtx := mkWtx (x_type x) (x_wc x) (x_id x) (x_body x).

Lemma to_w_words x : wf_tx v x -> enc v x = wtx_words v (to_w x) /\ wtx_ok v (to_w x).
Proof.
  intros (T & C & H). unfold enc, wtx_words, wtx_ok, to_w.
  cbn [wt_type wt_count wt_id wt_words].
  assert (TS : type_code v (x_type x) =
    option_map (fun n => n * match v with V1 => 8 | V2 => 16 end) (spec_type v (x_type x)))
    by (destruct v, (x_type x); reflexivity).
  destruct (spec_type v (x_type x)) as [ty|] eqn:S; [|rewrite TS in T; destruct (T eq_refl)].
  cbn [option_map] in TS.
  assert (CW : x_wc x < spec_counts v) by (unfold max_wc in C; unfold spec_counts; destruct v; lia).
  split.
  - f_equal. unfold hdrw. rewrite (calc_header_wire _ _ _ _ _ _ TS).
    unfold wire_header, spec_header, req_info, spec_ids, wc_mod, id_mod, info_mod in *.
    unfold spec_counts in CW. destruct v.
    + rewrite (N.mod_small (x_wc x)) by exact CW. reflexivity.
    + rewrite (N.mod_small (x_wc x)) by exact CW. reflexivity.
  - split; [discriminate|]. split; [exact CW|].
    split.
    + destruct x as [id|[] id a n e|id a e|[] id a ws|id a y e|id a m o e]; cbn [x_body x_type request_words length x_wc]; lia.
    + destruct x as [id|[] id a n e|id a e|[] id a ws|id a y e|id a m o e]; cbn [x_type x_wc]; intuition discriminate.
Qed.

Definition reply_total (xs : list wtx) : N :=
  fold_right (fun x n => reply_words (wt_type x) (wt_count x) + n) 0 xs.

Lemma dsts_reply x : wf_tx v x -> dests_words (dsts x) = reply_words (x_type x) (x_wc x).
Proof.
  intros (_ & _ & H).
  destruct x as [id|[] id a n e|id a e|[] id a ws|id a y e|id a m o e];
    cbn [dsts x_dst dests_words x_type x_wc reply_words dest_words] in *; lia.
Qed.

Lemma dsts_total xs : Forall (wf_tx v) xs ->
  dests_words (flat_map dsts xs) = reply_total (map to_w xs).
Proof.
  induction 1 as [|x t W F IH]; [reflexivity|].
  cbn [flat_map map reply_total fold_right]. rewrite dests_words_app, (dsts_reply x W).
  rewrite IH. reflexivity.
Qed.

Lemma enc_words xs : Forall (wf_tx v) xs ->
  flat_map (enc v) xs = flat_map (wtx_words v) (map to_w xs) /\ Forall (wtx_ok v) (map to_w xs).
Proof.
  induction 1 as [|x t W F [IH1 IH2]]; [split; [reflexivity|constructor]|].
  destruct (to_w_words x W) as (A & B). cbn [flat_map map].
  split; [rewrite A, IH1; reflexivity|constructor; assumption].
Qed.

Lemma exec_txs_length D rd wr cf xs : forall d, Forall (wf_tx v) xs ->
  N.of_nat (length (snd (exec_txs D rd wr cf (dev_rmw D rd wr) v d xs))) = dests_words (flat_map dsts xs).
Proof.
  induction xs as [|x t IH]; intros d F; [reflexivity|].
  inversion F as [|? ? W Ft]; subst. cbn [exec_txs flat_map].
  assert (L := exec_tx_length D rd wr cf (dev_rmw D rd wr) v d x W).
  destruct (exec_tx D rd wr cf (dev_rmw D rd wr) v d x) as [d1 data]. cbn [snd] in L.
  specialize (IH d1 Ft). destruct (exec_txs D rd wr cf (dev_rmw D rd wr) v d1 t) as [d2 r]. cbn [snd] in *.
  rewrite dests_words_app. unfold reply_tx. change (dsts x) with (DHdr :: x_dst x). cbn [app length dests_words dest_words].
  rewrite app_length. lia.
Qed.

Lemma repr_out_target D rd wr cf b p (d : D) : repr_out g b p -> wf_pk g p -> fst p <> [] ->
  exists d' r, target_packet D rd wr cf g d (b_send b) = (d', r, true) /\
    reply_counter b = 4 * N.of_nat (length r).
Proof.
  intros ((hw & HW & S) & R & V) (W & _) N0. destruct p as [xs vals]. cbn [fst snd] in *.
  assert (L := exec_txs_length D rd wr cf xs d W).
  assert (RC : reply_counter b = 4 * (N.of_nat (length (hubd g) + length (pkw g)) +
             N.of_nat (length (snd (exec_txs D rd wr cf (dev_rmw D rd wr) v d xs))))).
  { unfold reply_counter. rewrite R, !dests_words_app, L.
    unfold hubd, pkd, pkw. destruct (g_hub g), v; cbn [dests_words dest_words length]; lia. }
  assert (TR := target_ipbus_repr D rd wr cf (dev_rmw D rd wr) g xs d N0 W).
  change (TargetRm.ipbus_rm D rd wr cf (dev_rmw D rd wr)) with (target_ipbus D rd wr cf) in TR.
  unfold target_packet, hub_ok, hubd in *. rewrite S.
  destruct (g_hub g) as [[ip port]|].
  - destruct HW as (w & -> & _). cbn [app]. rewrite TR.
    eexists _, _. split; [reflexivity|]. rewrite RC. cbn [length]. rewrite app_length. lia.
  - subst hw. cbn [app]. rewrite TR.
    eexists _, _. split; [reflexivity|]. rewrite RC. rewrite app_length. cbn [length]. lia.
Qed.

(** Padding exists only in IPbus 1.3. *)
Lemma no_padding_v2 q : v = V2 -> wf_pk g (pad q) -> snd q = 0%nat.
Proof.
  intros V (W & _). unfold pad, padded in W. destruct q as [p n]. cbn [fst snd] in *.
  destruct n as [|n]; [reflexivity|]. exfalso.
  apply Forall_app in W. destruct W as (_ & W). inversion W as [|? ? (T & _) _]; subst.
  rewrite V in T. apply T. reflexivity.
Qed.
End Sent.
