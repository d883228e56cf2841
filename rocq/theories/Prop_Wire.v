(** C10-C13, C55: the packets handed to the transport, for every sequence of
    operations and dispatches.  Stated with the wire format of [WireSpec.v]. *)
From Verif Require Import Word Bits Header WordLemmas HeaderProofs ValMem Client
  Validate Target Spec SpecLemmas System Tx E2E Sent WireSpec SentProofs.
From Coq Require Import NArith ZArith List Lia Bool ZifyBool ZifyNat ZifyN.
Import ListNotations.
Open Scope N_scope.
Ltac Zify.zify_post_hook ::= Z.div_mod_to_equations.

(** The words of packet [b] are: two words for the ControlHub if there is one,
    the packet header (IPbus 2.0), and the well-formed transactions [xs], at
    least one. *)
Definition packet (g : cfg) (b : buf) (xs : list wtx) : Prop :=
  xs <> [] /\ Forall (wtx_ok (g_ver g)) xs /\
  exists pre, length pre = match g_hub g with Some _ => 2%nat | None => 0%nat end /\
    b_send b = pre ++ packet_header (g_ver g) ++ flat_map (wtx_words (g_ver g)) xs.

(** Words of the reply a conforming target sends to these transactions. *)
Definition reply_length (g : cfg) (xs : list wtx) : N :=
  match g_hub g with Some _ => 3 | None => 0 end +
  match g_ver g with V1 => 0 | V2 => 1 end +
  fold_right (fun x n => reply_words (wt_type x) (wt_count x) + n) 0 xs.

Lemma repr_packet g b p : repr_out g b p -> wf_pk g p -> fst p <> [] ->
  packet g b (map to_w (fst p)) /\ reply_counter b = 4 * reply_length g (map to_w (fst p)).
Proof.
  intros ((hw & HW & S) & R & V) (W & _) N0. destruct p as [xs vals]. cbn [fst snd] in *.
  destruct (enc_words g xs W) as (A & B). split.
  - split; [destruct xs; [congruence|discriminate]|]. split; [exact B|].
    exists hw. split.
    + unfold hub_ok in HW. destruct (g_hub g) as [[? ?]|]; [destruct HW as (w & -> & _); reflexivity|].
      subst hw. reflexivity.
    + rewrite S, A. unfold pkw, packet_header. destruct (g_ver g); reflexivity.
  - unfold reply_counter, reply_length. rewrite R, !dests_words_app, (dsts_total g xs W).
    unfold reply_total, hubd, pkd. destruct (g_hub g), (g_ver g); cbn [dests_words dest_words]; lia.
Qed.

Lemma sent_packets g cs : cfg_ok g -> Forall op_ok (cmd_ops cs) ->
  exists bs, sent g cs = Some bs /\
    Forall (fun b => size_ok g b /\ exists p, repr_out g b p /\ wf_pk g p /\ fst p <> []) bs.
Proof.
  intros G F. destruct (sent_inv g G false cs F) as (bs & qs & E & R & W & S & _); [discriminate|].
  exists bs. split; [exact E|]. clear E.
  revert W S. induction R as [|b p bs ps Rb Rs IH]; intros W S; [constructor|].
  inversion W as [|? ? (W1 & W2) W3]; inversion S; subst. constructor; [|auto].
  split; [assumption|]. exists p. auto.
Qed.

(** C10. *)
Theorem C10_word_counts : forall g cs, cfg_ok g -> Forall op_ok (cmd_ops cs) ->
  exists bs, sent g cs = Some bs /\ Forall (fun b => exists xs, packet g b xs /\
    Forall (fun x => wt_count x <= match g_ver g with V1 => 511 | V2 => 255 end) xs) bs.
Proof.
  intros g cs G F. destruct (sent_packets g cs G F) as (bs & E & P). exists bs. split; [exact E|].
  eapply Forall_impl; [|exact P]. intros b (_ & p & R & W & N0).
  destruct (repr_packet g b p R W N0) as (A & _). exists (map to_w (fst p)). split; [exact A|].
  destruct A as (_ & A & _). eapply Forall_impl; [|exact A].
  intros x (_ & C & _). unfold spec_counts in C. destruct (g_ver g); lia.
Qed.

(** C11, complete for IPbus 2.0. *)
Theorem C11_packet_sizes_v2 : forall g cs, cfg_ok g -> g_ver g = V2 -> Forall op_ok (cmd_ops cs) ->
  exists bs, sent g cs = Some bs /\ Forall (fun b => exists xs, packet g b xs /\
    4 * N.of_nat (length (b_send b)) <= g_maxsend g /\ 4 * reply_length g xs <= g_maxreply g) bs.
Proof.
  intros g cs G V F. destruct (sent_packets g cs G F) as (bs & E & P). exists bs. split; [exact E|].
  eapply Forall_impl; [|exact P]. intros b ((S1 & S2) & p & R & W & N0).
  destruct (repr_packet g b p R W N0) as (A & B). exists (map to_w (fst p)). split; [exact A|].
  rewrite <- B. rewrite V in S2. unfold send_counter in S1. lia.
Qed.

(** C11 for IPbus 1.3: the send limit holds, the reply limit can be exceeded by
    up to 20 bytes because the padding added just before sending is not counted
    ([C11_reply_limit_v1_refuted]).  Missing: the reply limit itself. *)
Theorem C11_packet_sizes_v1_partial : forall g cs, cfg_ok g -> g_ver g = V1 -> Forall op_ok (cmd_ops cs) ->
  exists bs, sent g cs = Some bs /\ Forall (fun b => exists xs, packet g b xs /\
    4 * N.of_nat (length (b_send b)) <= g_maxsend g /\ 4 * reply_length g xs <= g_maxreply g + 20) bs.
Proof.
  intros g cs G V F. destruct (sent_packets g cs G F) as (bs & E & P). exists bs. split; [exact E|].
  eapply Forall_impl; [|exact P]. intros b ((S1 & S2) & p & R & W & N0).
  destruct (repr_packet g b p R W N0) as (A & B). exists (map to_w (fst p)). split; [exact A|].
  rewrite <- B. rewrite V in S2. unfold send_counter in S1. lia.
Qed.

(** C13: the room provided for the reply is what a conforming target sends, and
    the model's target, on any device, sends exactly that. *)
Theorem C13_reply_size : forall g cs, cfg_ok g -> Forall op_ok (cmd_ops cs) ->
  exists bs, sent g cs = Some bs /\ Forall (fun b =>
    (exists xs, packet g b xs /\ reply_counter b = 4 * reply_length g xs) /\
    forall D rd wr cf (d : D), exists d' r,
      target_packet D rd wr cf g d (b_send b) = (d', r, true) /\
      reply_counter b = 4 * N.of_nat (length r)) bs.
Proof.
  intros g cs G F. destruct (sent_packets g cs G F) as (bs & E & P). exists bs. split; [exact E|].
  eapply Forall_impl; [|exact P]. intros b (_ & p & R & W & N0). split.
  - destruct (repr_packet g b p R W N0) as (A & B). eauto.
  - intros. apply (repr_out_target g D rd wr cf b p d R W N0).
Qed.

Lemma map_repeat {A B} (f : A -> B) x n : map f (repeat x n) = repeat (f x) n.
Proof. induction n; cbn; congruence. Qed.

(** C12: [fst p] are the transactions of a packet, [snd p] the number of padding
    transactions (IPbus 1.3 byte-order transactions with ID 0) at its end.
    Configuration-space reads, which IPbus 1.3 does not have, raise an exception
    and are excluded there: see [C12_v1_config_read_refuted]. *)
Definition padding : wtx := mkWtx BOT 0 0 [].
Theorem C12_ids : forall g cs, cfg_ok g -> Forall op_ok (cmd_ops cs) ->
  (g_ver g = V1 -> forall a m, ~ In (OReadCfg a m) (cmd_ops cs)) ->
  exists bs ps, sent g cs = Some bs /\
    Forall2 (fun b p => packet g b (fst p ++ repeat padding (snd p))) bs ps /\
    (g_ver g = V2 -> Forall (fun p => snd p = 0%nat) ps) /\
    forall k x, nth_error (flat_map fst ps) k = Some x ->
      wt_id x mod spec_ids (g_ver g) = N.of_nat k mod spec_ids (g_ver g).
Proof.
  intros g cs G F NC.
  destruct (sent_inv g G true cs F (fun _ => NC)) as (bs & qs & E & R & W & S & IDS).
  exists bs, (map (fun q => (map to_w (fst (fst q)), snd q)) qs).
  split; [exact E|]. split; [|split].
  - clear E S IDS. revert bs R W. induction qs as [|q qs IH]; intros bs R W; inversion R as [|b p bs' ps' Rb Rs]; subst;
      [constructor|]. inversion W as [|? ? (W1 & W2) W3]; subst. cbn [map]. constructor; [|auto].
    cbn [fst snd]. destruct (repr_packet g b (pad q) Rb W1 W2) as (A & _).
    unfold pad, padded in A. cbn [fst] in A. rewrite map_app, map_repeat in A. exact A.
  - intros V. clear E S IDS R. induction qs as [|q qs IH]; [constructor|].
    inversion W as [|? ? (W1 & W2) W3]; subst. cbn [map]. constructor; [|auto].
    apply (no_padding_v2 g q V W1).
  - intros k x H. specialize (IDS eq_refl).
    assert (X : flat_map fst (map (fun q => (map to_w (fst (fst q)), snd q)) qs) = map to_w (real_txs qs)).
    { clear. unfold real_txs. induction qs as [|q t IH]; [reflexivity|].
      cbn [map flat_map fst]. rewrite map_app. f_equal. exact IH. }
    rewrite X in H. rewrite nth_error_map in H.
    destruct (nth_error (real_txs qs) k) as [y|] eqn:Y; [|discriminate]. injection H as <-.
    cbn [to_w wt_id]. rewrite (IDS k y Y). unfold spec_ids, W32. destruct (g_ver g); lia.
Qed.

(** C55. *)
Theorem C55_hub_preamble : forall g ip port cs, cfg_ok g -> g_hub g = Some (ip, port) ->
  Forall op_ok (cmd_ops cs) ->
  exists bs, sent g cs = Some bs /\ Forall (fun b => exists w rest,
    b_send b = ip :: w :: rest /\ w < 2 ^ 32 /\ w mod 2 ^ 16 = port /\
    (* big-endian 16-bit number in the upper half of the (little-endian) word *)
    (w / 2 ^ 16) mod 256 * 256 + w / 2 ^ 24 = N.of_nat (length rest) mod 2 ^ 16 /\
    (g_maxsend g < 2 ^ 18 -> (w / 2 ^ 16) mod 256 * 256 + w / 2 ^ 24 = N.of_nat (length rest))) bs.
Proof.
  intros g ip port cs G H F. destruct (sent_packets g cs G F) as (bs & E & P). exists bs. split; [exact E|].
  eapply Forall_impl; [|exact P]. intros b ((S1 & _) & p & ((hw & HW & S) & _) & _).
  unfold hub_ok in HW. rewrite H in HW. destruct HW as (w & -> & Hw & Hn).
  eexists w, _. split; [exact S|].
  unfold send_counter in S1. rewrite S in S1. cbn [app length] in S1.
  set (n := N.of_nat (length (pkw g ++ flat_map (enc (g_ver g)) (fst p)))) in *.
  assert (N1 : 4 * (n + 2) <= g_maxsend g) by lia. clearbody n.
  unfold swap16 in Hn. destruct G as (_ & _ & _ & _ & _ & PB). rewrite H in PB.
  set (m := n mod 65536) in *. assert (M : m < 65536) by (apply N.mod_lt; discriminate).
  assert (MM : m = n mod 65536) by reflexivity. clearbody m.
  split; [|split; [exact Hw|]]; [lia|].
  assert (X : (w / 2 ^ 16) mod 256 * 256 + w / 2 ^ 24 = m).
  { change (2 ^ 16) with 65536. change (2 ^ 24) with (65536 * 256).
    rewrite <- N.div_div by discriminate. rewrite Hn. lia. }
  rewrite X. change (2 ^ 16) with 65536. split; [exact MM|]. intros L.
  rewrite MM. apply N.mod_small. lia.
Qed.

(** ** Cases *)

(** IPbus 2.0 through a ControlHub: block of 300 words (more than 255, more than
    one packet of 368 bytes), masked write, dispatch, configuration read. *)
Definition wire_cfg : cfg := mkCfg V2 368 368 (Some (0x0100A8C0, 0x51C3)).
Definition wire_cs : list cmd :=
  [COp (OReadBlock 0x1000 300 true); COp (OWriteMask 5 1 0x10); CDispatch; CDispatch; COp (OReadCfg 1 0xFFFFFFFF);
   COp (OWriteBlock 7 (repeat 9 100) false); CDispatch].
Example wire_case_hyps : cfg_ok wire_cfg /\ g_ver wire_cfg = V2 /\ Forall op_ok (cmd_ops wire_cs).
Proof.
  split; [unfold cfg_ok; cbn; repeat split; try lia; discriminate|]. split; [reflexivity|].
  repeat constructor; cbn; lia.
Qed.
Example C10_C11_C13_C55_case :
  option_map (map (fun b => (firstn 5 (b_send b), send_counter b, reply_counter b))) (sent wire_cfg wire_cs) =
  Some [([0x0100A8C0; 0x030051C3; 0x200000F0; 0x2000570F; 0x1000], 20, 368);
        ([0x0100A8C0; 0x030051C3; 0x200000F0; 0x2001570F; 0x1057], 20, 368);
        ([0x0100A8C0; 0x030051C3; 0x200000F0; 0x2002570F; 0x10AE], 20, 368);
        ([0x0100A8C0; 0x070051C3; 0x200000F0; 0x2003270F; 0x1105], 36, 184);
        ([0x0100A8C0; 0x5A0051C3; 0x200000F0; 0x2005016F; 1], 368, 28);
        ([0x0100A8C0; 0x120051C3; 0x200000F0; 0x20070F3F; 7], 80, 20)].
Proof. vm_compute. reflexivity. Qed.

(** IPbus 1.3: two packets with running IDs; a padding transaction at the end. *)
Definition v1_cfg : cfg := mkCfg V1 64 64 None.
Definition v1_cs : list cmd :=
  [COp (OWrite 1 2); COp (ORead 3 0xFF); CDispatch; COp (ORmwSum 4 5); COp (OWrite 6 7); COp (OReadBlock 9 3 true)].
Example C12_case : cfg_ok v1_cfg /\ Forall op_ok (cmd_ops v1_cs) /\
  option_map (map b_send) (sent v1_cfg (v1_cs ++ [CDispatch])) =
  Some [[0x100000F8; 0x10020120; 1; 2; 0x10040118; 3; 0x100000F8; 0x100000F8];
        [0x100600F8; 0x10080130; 4; 5; 0x100A0120; 6; 7; 0x100C0318; 9]].
Proof.
  split; [unfold cfg_ok; cbn; repeat split; lia|]. split; [repeat constructor; cbn; lia|].
  vm_compute. reflexivity.
Qed.

(** C17 for the packets handed to the transport: in every client state, after a
    dispatch nothing is queued, and dispatching again hands over no packet and
    changes nothing. *)
Theorem C17_sends_nothing : forall g s h s' h', client_step g (s, h) CDispatch = Some (s', h') ->
  s_cur s' = None /\
  exists s'' h'', client_step g (s', h') CDispatch = Some (s'', h'') /\
    h'' ++ s_out s'' = h' ++ s_out s' /\
    s_ctr s'' = s_ctr s' /\ s_cur s'' = s_cur s' /\ s_heap s'' = s_heap s'.
Proof.
  intros g s h s' h' H.
  assert (C : s_cur s' = None).
  { cbn [client_step] in H. unfold dispatch_send in H. destruct (s_cur s) as [b|] eqn:Q.
    - unfold send_current in H. destruct (predispatch g b) as [b'|]; [|discriminate H].
      destruct (s_budget s) as [[|k]|]; injection H as <- _; reflexivity.
    - injection H as <- _. exact Q. }
  split; [exact C|]. cbn [client_step]. unfold dispatch_send. rewrite C.
  do 2 eexists. split; [reflexivity|]. cbn [s_out s_ctr s_cur s_heap]. rewrite app_nil_r. auto.
Qed.

Example C17_sends_nothing_case : option_map (map b_send) (sent v1_cfg (v1_cs ++ [CDispatch; CDispatch; CDispatch])) =
  option_map (map b_send) (sent v1_cfg (v1_cs ++ [CDispatch])) /\
  sent v1_cfg [CDispatch] = Some [] /\
  client_run v1_cfg (init_st, []) (v1_cs ++ [CDispatch]) <> None.
Proof. vm_compute. repeat split. discriminate. Qed.

(** ** What does not hold *)

(** IPbus 1.3: a five-word read in 32-byte packets; the padding makes the target
    reply with 48 bytes. *)
Theorem C11_reply_limit_v1_refuted : exists g cs b xs,
  cfg_ok g /\ Forall op_ok (cmd_ops cs) /\ sent g cs = Some [b] /\ packet g b xs /\
  g_maxreply g < 4 * reply_length g xs /\ reply_counter b = 4 * reply_length g xs.
Proof.
  exists (mkCfg V1 32 32 None), [COp (OReadBlock 1 5 true); CDispatch].
  eexists. exists (mkWtx BOT 0 0 [] :: mkWtx READ 5 1 [1] :: repeat padding 5).
  split; [unfold cfg_ok; cbn; repeat split; lia|]. split; [repeat constructor; cbn; lia|].
  split; [reflexivity|]. split; [|split; reflexivity].
  split; [discriminate|]. split.
  - repeat constructor; try discriminate; cbn; intuition discriminate.
  - exists []. split; reflexivity.
Qed.

(** IPbus 1.3: a refused configuration-space read uses up an ID: the IDs of the
    three transactions sent are 0, 1 and 3. *)
Theorem C12_v1_config_read_refuted : exists g cs ws,
  cfg_ok g /\ Forall op_ok (cmd_ops cs) /\
  option_map (map b_send) (sent g cs) = Some [ws] /\
  ws = flat_map (wtx_words V1) [mkWtx BOT 0 0 []; mkWtx WRITE 1 1 [1; 2]; mkWtx WRITE 1 3 [3; 4]; padding].
Proof.
  exists (mkCfg V1 64 64 None), [COp (OWrite 1 2); COp (OReadCfg 0 1); COp (OWrite 3 4); CDispatch].
  eexists. split; [unfold cfg_ok; cbn; repeat split; lia|]. split; [repeat constructor; cbn; lia|].
  split; reflexivity.
Qed.

Print Assumptions C10_word_counts.
Print Assumptions C17_sends_nothing.
Print Assumptions C11_packet_sizes_v2.
Print Assumptions C11_packet_sizes_v1_partial.
Print Assumptions C13_reply_size.
Print Assumptions C12_ids.
Print Assumptions C55_hub_preamble.
Print Assumptions C11_reply_limit_v1_refuted.
Print Assumptions C12_v1_config_read_refuted.
