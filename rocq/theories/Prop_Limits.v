(** C18 and C19: what happens outside the range of block sizes and of packet
    limits for which the other theorems hold.  Both properties are false of the
    code; the theorems below exhibit the executions. *)
From Verif Require Import Word Bits Header WordLemmas ValMem Client Validate Target System Spec Net
  WireSpec Prop_Valid.
From Coq Require Import NArith ZArith List Bool Lia ZifyBool ZifyNat ZifyN.
Import ListNotations.
Open Scope N_scope.
Ltac Zify.zify_post_hook ::= Z.div_mod_to_equations.

(** An ordinary configuration: IPbus 2.0 with packets of up to 1500 bytes. *)
Definition lcfg : cfg := mkCfg V2 1500 1500 None.

(** The whole conversation of one call and one dispatch. *)
Definition exchange (o : op) (ws : list N) : list nlabel := [NOp o; NDispatch; NReply ws; NReturn].

(** Space found by the first call on a fresh client. *)
Lemma first_space h rs rr :
  check_space lcfg (mkSt 0 None h [] None) rs rr =
  Ok (mkSt 0 (Some (mkBuf [0x200000F0] [DPkt] [])) h [] None)
     (if (rs <=? 1496) && (rr <=? 1496) then (rs, rr) else (1496, 1496)).
Proof.
  unfold check_space. change (update_current lcfg (mkSt 0 None h [] None)) with
    (Ok (mkSt 0 (Some (mkBuf [0x200000F0] [DPkt] [])) h [] None) (mkBuf [0x200000F0] [DPkt] [])).
  cbn [bind].
  change (sub32 (g_maxsend lcfg) (send_counter (mkBuf [0x200000F0] [DPkt] []))) with 1496.
  change (sub32 (g_maxreply lcfg) (reply_counter (mkBuf [0x200000F0] [DPkt] []))) with 1496.
  destruct ((rs <=? 1496) && (rr <=? 1496)); reflexivity.
Qed.

(** State after queueing a block read of which only [k] words were requested. *)
Definition queued_read (k n : N) : net :=
  mkNet (mkSt 1 (Some (mkBuf [0x200000F0; v_hdr READ k 0 0xF; 0] [DPkt; DHdr; DVec 0 0 k] [0%nat]))
             [CVec false (repeat 0 (N.to_nat n))] [] None) false false false 0 0 false.

Lemma huge_read k n : n <= 2 ^ 30 ->
  k = (if n =? 2 ^ 30 then 0 else 255) -> 2 ^ 29 + 255 <= n -> n <= 2 ^ 30 - 3 \/ n = 2 ^ 30 ->
  nstep lcfg init_net (NOp (OReadBlock 0 n true)) = Some (queued_read k n).
Proof.
  intros H K L NW. unfold nstep. cbn [n_wait init_net run_op n_c n_fail].
  unfold implement_read_block, alloc, set_budget. cbn [s_heap s_ctr s_cur s_out s_budget init_st length app].
  set (v := repeat 0 (N.to_nat n)). cbn [read_loop].
  assert (P : wrap32 (4 * n) = if n =? 2 ^ 30 then 0 else 4 * n).
  { unfold wrap32, W32. destruct (n =? 2 ^ 30) eqn:E; lia. }
  rewrite P, first_space. cbn [bind].
  destruct (n =? 2 ^ 30) eqn:E.
  - change (add32 4 0) with 4. change ((8 <=? 1496) && (4 <=? 1496)) with true. cbn [snd].
    change (chunk_bytes (g_ver lcfg) 4 4) with 0. subst k. change (0 + 0 / 4) with 0.
    replace (n <? 0) with false by lia. reflexivity.
  - assert (A : add32 4 (4 * n) = 4 + 4 * n) by (unfold add32, W32; lia). rewrite A.
    replace ((8 <=? 1496) && (4 + 4 * n <=? 1496)) with false by lia. cbn [snd].
    change (chunk_bytes (g_ver lcfg) 1496 4) with 1020. subst k.
    change (1020 / 4) with 255. replace (n <? 0 + 255) with false by lia.
    assert (S : sub32 (4 * n) 1020 = 4 * n - 1020) by (unfold sub32, W32; lia). rewrite S.
    assert (Q : pos_i32 (4 * n - 1020) = false) by (unfold pos_i32; lia). rewrite Q.
    reflexivity.
Qed.

Lemma huge_read_reply (k : nat) v words : (k = 0 \/ k = 255)%nat -> length words = k ->
  receive_packet lcfg [CVec false v]
    (mkBuf [0x200000F0; v_hdr READ (N.of_nat k) 0 0xF; 0] [DPkt; DHdr; DVec 0 0 (N.of_nat k)] [0%nat])
    (0x200000F0 :: v_hdr READ (N.of_nat k) 0 0 :: words) = ([CVec true (words ++ skipn k v)], VOk).
Proof.
  intros K L. unfold receive_packet. cbn [b_reply b_send b_vals scatter dest_words].
  change (N.to_nat 1) with 1%nat. cbn [firstn skipn].
  rewrite Nat2N.id, (firstn_all2 words) by lia.
  assert (V : forall z, validate_packet lcfg
    (mkBuf [0x200000F0; v_hdr READ (N.of_nat k) 0 0xF; 0] [DPkt; DHdr; DVec 0 0 (N.of_nat k)] [0%nat])
    [(DPkt, [0x200000F0]); (DHdr, [v_hdr READ (N.of_nat k) 0 0]); (DVec 0 0 (N.of_nat k), z)] = VOk).
  { intros z. destruct K as [-> | ->]; reflexivity. }
  rewrite V. cbn [fill fold_left fill_cell upd overwrite N.to_nat firstn app plus].
  rewrite L. reflexivity.
Qed.

(** C18 is false for reads: for every size from 2^29+255 to 2^30-3 the client asks
    for the first 255 words only, for 2^30 it asks for none; the target answers
    what it was asked, no exception is raised, and the handle becomes readable
    with zeroes in place of the words never read. *)
Theorem C18_read_refuted : forall n, 2 ^ 29 + 255 <= n <= 2 ^ 30 - 3 \/ n = 2 ^ 30 ->
  let k := if n =? 2 ^ 30 then 0%nat else 255%nat in
  forall words, length words = k -> exists y,
  nrun lcfg init_net (exchange (OReadBlock 0 n true)
     (0x200000F0 :: v_hdr READ (N.of_nat k) 0 0 :: words)) = Some y /\
  n_exc y = 0%nat /\ n_bad y = false /\
  option_map vec_value (nth_error (s_heap (n_c y)) 0) =
    Some (Some (words ++ repeat 0 (N.to_nat n - k))).
Proof.
  intros n R k words LW.
  assert (L : 2 ^ 29 + 255 <= n) by lia. assert (H : n <= 2 ^ 30) by lia. unfold exchange. cbn [nrun].
  rewrite (huge_read (N.of_nat k) n H); [|unfold k; destruct (n =? 2 ^ 30); reflexivity|exact L|lia].
  assert (LV : (length words <= N.to_nat n)%nat) by (unfold k in LW; destruct (n =? 2 ^ 30); lia).
  assert (SK : skipn k (repeat 0 (N.to_nat n)) = repeat 0 (N.to_nat n - k)).
  { replace (N.to_nat n) with (k + (N.to_nat n - k))%nat at 1 by lia.
    rewrite repeat_app, skipn_app, repeat_length, Nat.sub_diag.
    rewrite skipn_all2 by (rewrite repeat_length; lia). reflexivity. }
  rewrite <- SK. clear SK. unfold queued_read. generalize (repeat 0 (N.to_nat n)). intros v.
  assert (K : (k = 0 \/ k = 255)%nat) by (unfold k; destruct (n =? 2 ^ 30); auto).
  set (y := mkNet _ false false false 0 0 false).
  assert (S1 : nstep lcfg y NDispatch = Some (mkNet (mkSt 1 None [CVec false v]
     [mkBuf [0x200000F0; v_hdr READ (N.of_nat k) 0 0xF; 0] [DPkt; DHdr; DVec 0 0 (N.of_nat k)] [0%nat]] None)
     false true false 0 0 false)).
  { unfold y. destruct K as [-> | ->]; reflexivity. }
  rewrite S1. cbn [nstep n_fail n_c s_out s_heap]. rewrite (huge_read_reply k v words K LW).
  eexists. split; [reflexivity|]. repeat split.
Qed.

(** The same for writes: only the first 255 words (none for 2^30 words) are
    sent, and the acknowledgement becomes readable. *)
Theorem C18_write_refuted : forall src,
  2 ^ 29 + 255 <= N.of_nat (length src) <= 2 ^ 30 - 3 \/ N.of_nat (length src) = 2 ^ 30 ->
  let k := if N.of_nat (length src) =? 2 ^ 30 then 0%nat else 255%nat in exists y y',
  nrun lcfg init_net [NOp (OWriteBlock 0 src true); NDispatch] = Some y /\
  map b_send (s_out (n_c y)) = [0x200000F0 :: v_hdr WRITE (N.of_nat k) 0 0xF :: 0 :: firstn k src] /\
  nrun lcfg y [NReply [0x200000F0; v_hdr WRITE (N.of_nat k) 0 0]; NReturn] = Some y' /\
  n_exc y' = 0%nat /\ n_bad y' = false /\
  option_map cell_valid (nth_error (s_heap (n_c y')) 0) = Some true.
Proof.
  intros src R k.
  assert (L : 2 ^ 29 + 255 <= N.of_nat (length src)) by lia.
  assert (H : N.of_nat (length src) <= 2 ^ 30) by lia.
  assert (S1 : nstep lcfg init_net (NOp (OWriteBlock 0 src true)) =
    Some (mkNet (mkSt 1 (Some (mkBuf (0x200000F0 :: v_hdr WRITE (N.of_nat k) 0 0xF :: 0 :: firstn k src)
                                    [DPkt; DHdr] [0%nat])) [CHdr false] [] None) false false false 0 0 false)).
  { unfold nstep. cbn [n_wait init_net run_op n_c n_fail].
    unfold implement_write_block, alloc, set_budget. cbn [s_heap s_ctr s_cur s_out s_budget init_st length app].
    assert (P : wrap32 (4 * N.of_nat (length src)) =
                if N.of_nat (length src) =? 2 ^ 30 then 0 else 4 * N.of_nat (length src)).
    { unfold wrap32, W32. destruct (N.of_nat (length src) =? 2 ^ 30) eqn:E; lia. }
    rewrite P. destruct src as [|x t]; [cbn in L; lia|]. set (src := x :: t) in *.
    cbn [write_loop]. rewrite first_space. cbn [bind].
    destruct (N.of_nat (length src) =? 2 ^ 30) eqn:E; subst k.
    - change (add32 8 0) with 8. change ((8 <=? 1496) && (4 <=? 1496)) with true. cbn [fst].
      change (chunk_bytes (g_ver lcfg) 8 8) with 0. change (0 / 4) with 0. cbn [N.to_nat].
      replace (true && Nat.ltb (length src) 0) with false by reflexivity. reflexivity.
    - assert (A : add32 8 (4 * N.of_nat (length src)) = 8 + 4 * N.of_nat (length src)) by (unfold add32, W32; lia). rewrite A.
      replace ((8 + 4 * N.of_nat (length src) <=? 1496) && (4 <=? 1496)) with false by lia. cbn [fst].
      change (chunk_bytes (g_ver lcfg) 1496 8) with 1020. change (1020 / 4) with 255.
      change (N.to_nat 255) with 255%nat.
      replace (true && Nat.ltb (length src) 255) with false by (symmetry; cbn [andb]; apply Nat.ltb_ge; lia).
      assert (S : sub32 (4 * N.of_nat (length src)) 1020 = 4 * N.of_nat (length src) - 1020) by (unfold sub32, W32; lia). rewrite S.
      assert (Q : pos_i32 (4 * N.of_nat (length src) - 1020) = false) by (unfold pos_i32; lia). rewrite Q.
      unfold push_tx. cbn [s_cur b_send b_reply b_vals app].
      assert (C : (g_maxsend lcfg <? send_counter (mkBuf (0x200000F0 :: v_hdr WRITE 255 0 0xF :: 0 :: firstn 255 src) [DPkt; DHdr] [])) = false).
      { unfold send_counter. cbn [b_send length]. rewrite firstn_length. change (g_maxsend lcfg) with 1500. lia. }
      change (calc_header (g_ver lcfg) WRITE 255 _ _) with (Some (v_hdr WRITE 255 0 0xF)). cbv iota. rewrite C.
      reflexivity. }
  cbn [nrun]. rewrite S1. 
  assert (SC : (g_maxsend lcfg <? 4 * N.of_nat (length (0x200000F0 :: v_hdr WRITE (N.of_nat k) 0 0xF :: 0 :: firstn k src))) = false).
  { cbn [length]. rewrite firstn_length. change (g_maxsend lcfg) with 1500. unfold k. destruct (_ =? _); lia. }
  assert (S2 : forall body, (g_maxsend lcfg <? 4 * N.of_nat (length (0x200000F0 :: v_hdr WRITE (N.of_nat k) 0 0xF :: 0 :: body))) = false ->
    nstep lcfg (mkNet (mkSt 1 (Some (mkBuf (0x200000F0 :: v_hdr WRITE (N.of_nat k) 0 0xF :: 0 :: body)
                                    [DPkt; DHdr] [0%nat])) [CHdr false] [] None) false false false 0 0 false) NDispatch =
    Some (mkNet (mkSt 1 None [CHdr false] [mkBuf (0x200000F0 :: v_hdr WRITE (N.of_nat k) 0 0xF :: 0 :: body)
                                    [DPkt; DHdr] [0%nat]] None) false true false 0 0 false)).
  { intros body B. cbn [nstep n_wait n_c s_cur]. unfold dispatch_send, set_budget. cbn [s_cur s_ctr s_heap s_out n_c n_fail].
    unfold send_current, predispatch. cbn [g_ver lcfg]. unfold send_counter. cbn [b_send]. rewrite B. reflexivity. }
  rewrite S2 by exact SC. eexists.
  assert (W : word_count V2 (v_hdr WRITE (N.of_nat k) 0 0xF) = N.of_nat k) by (unfold k; destruct (_ =? _); reflexivity).
  assert (RP : receive_packet lcfg [CHdr false] (mkBuf (0x200000F0 :: v_hdr WRITE (N.of_nat k) 0 0xF :: 0 :: firstn k src)
                                    [DPkt; DHdr] [0%nat]) [0x200000F0; v_hdr WRITE (N.of_nat k) 0 0] = ([CHdr true], VOk)).
  { assert (LF : length (firstn k src) = k) by (rewrite firstn_length; unfold k; destruct (_ =? _); lia).
    revert LF. generalize (firstn k src). unfold k. destruct (_ =? _); intros l LF.
    - destruct l; [reflexivity|discriminate].
    - unfold receive_packet. cbn [b_reply scatter dest_words].
      change (N.to_nat 1) with 1%nat. cbn [firstn skipn b_send b_vals].
      assert (VV : validate_core (S (S (length l))) V2 (v_hdr WRITE (N.of_nat 255) 0 0xF :: 0 :: l) [(DHdr, [v_hdr WRITE (N.of_nat 255) 0 0])] = VOk).
      { cbn [validate_core]. unfold slot_word. cbn [snd hd].
        assert (H1 : extract_header V2 (v_hdr WRITE (N.of_nat 255) 0 0xF) = Some (mkHdr WRITE 255 0 0xF)) by reflexivity.
        assert (H2 : extract_header V2 (v_hdr WRITE (N.of_nat 255) 0 0) = Some (mkHdr WRITE 255 0 0)) by reflexivity.
        rewrite H1, H2.
        cbn [h_id h_type h_info h_wc send_advance reply_advance].
        change (N.to_nat (2 + 255)) with 257%nat. rewrite skipn_all2 by (cbn [length]; lia).
        cbn [length]. rewrite LF. reflexivity. }
      unfold validate_packet, validate_ipbus. cbn [g_hub lcfg g_ver b_send length].
      change (negb _) with false. cbv iota. rewrite VV. reflexivity. }
  eexists. split; [reflexivity|]. split; [reflexivity|].
  cbn [nrun nstep n_fail n_c s_out s_heap]. rewrite RP. split; [reflexivity|]. repeat split.
Qed.

(** An instance of the hypotheses of both theorems exists, and is allowed by the
    interface (sizes are uint32_t). *)
Example C18_case : (2 ^ 29 + 255 <= 600000000 <= 2 ^ 30 - 3) /\ 600000000 < 2 ^ 32 /\
  exists src : list N, 2 ^ 29 + 255 <= N.of_nat (length src) <= 2 ^ 30 - 3.
Proof.
  split; [lia|]. split; [lia|]. exists (repeat 0 (N.to_nat 600000000)).
  rewrite repeat_length, N2Nat.id. lia.
Qed.

(** C19 is false: [max_payload_size] can be set to anything in the URI
    (ProtocolUDP.cpp 60-93), and with a small value packing a single read (or one
    single IPbus 1.3 write) runs past the end of the send buffer. *)
Theorem C19_v2_refuted : forall m r, m < 12 -> 12 <= r < 2 ^ 32 -> exists o,
  op_ok o /\ run_op (mkCfg V2 m r None) init_st o = Bad.
Proof.
  intros m r M R. exists (ORead 0 0xFFFFFFFF). split; [exact I|].
  assert (P : forall h q, update_current (mkCfg V2 m r None) (mkSt 0 None h q None) =
    if 4 <=? m then Ok (mkSt 0 (Some (mkBuf [0x200000F0] [DPkt] [])) h q None) (mkBuf [0x200000F0] [DPkt] []) else Bad).
  { intros h q. unfold update_current. cbn [s_cur preamble g_ver g_hub b_send b_reply app bind g_maxsend g_maxreply].
    change (send_counter _) with 4. change (reply_counter _) with 4.
    replace (4 <=? r) with true by lia. rewrite andb_true_r. reflexivity. }
  cbn [run_op]. unfold implement_word, check_space, init_st. rewrite P.
  destruct (4 <=? m) eqn:E; [|reflexivity]. cbn [bind g_maxsend g_maxreply].
  change (send_counter (mkBuf [0x200000F0] [DPkt] [])) with 4.
  change (reply_counter (mkBuf [0x200000F0] [DPkt] [])) with 4.
  assert (S1 : sub32 m 4 = m - 4) by (apply sub32_le; unfold W32; lia). rewrite !S1.
  assert (S2 : sub32 r 4 = r - 4) by (apply sub32_le; unfold W32; lia). rewrite !S2.
  cbn [length]. change (8 + 4 * N.of_nat 0) with 8.
  replace ((8 <=? m - 4) && (8 <=? r - 4)) with false by lia.
  replace ((16 <? m - 4) && (16 <? r - 4)) with false by lia.
  unfold send_current, predispatch. cbn [g_ver g_maxsend g_hub].
  change (send_counter (mkBuf [0x200000F0] [DPkt] [])) with 4.
  replace (m <? 4) with false by lia. cbn [s_budget bind].
  rewrite P. cbn [bind].
  change (send_counter (mkBuf [0x200000F0] [DPkt] [])) with 4.
  change (reply_counter (mkBuf [0x200000F0] [DPkt] [])) with 4.
  rewrite !S1, !S2. replace ((8 <=? m - 4) && (8 <=? r - 4)) with false by lia. cbn [bind].
  unfold push_tx. cbn [s_cur s_ctr]. change (calc_header _ READ 1 _ _) with (Some (v_hdr READ 1 0 0xF)).
  cbv iota. replace (g_maxsend _ <? send_counter _) with true; [reflexivity|].
  cbn [g_maxsend b_send app]. symmetry. apply N.ltb_lt. unfold send_counter. cbn [b_send length]. lia.
Qed.

(** IPbus 1.3: any limit below 32 bytes, because of the padding of short packets. *)
Theorem C19_v1_refuted : forall m, 12 <= m < 32 -> exists s c,
  run_op (mkCfg V1 m 1500 None) init_st (ORead 0 0xFFFFFFFF) = Ok s c /\
  dispatch_send (mkCfg V1 m 1500 None) s = Bad.
Proof.
  intros m M.
  assert (In m (map N.of_nat (seq 12 20))) as Q.
  { apply in_map_iff. exists (N.to_nat m). split; [lia|]. apply in_seq. lia. }
  cbn [seq map] in Q. repeat (destruct Q as [<-|Q]; [eexists _, _; split; vm_compute; reflexivity|]).
  destruct Q.
Qed.

(** The smallest limits for which nothing goes wrong are those of [cfg_ok]; e.g. an
    IPbus 2.0 client with a limit of 21 bytes is covered by all other theorems. *)
Example C19_case : cfg_ok (mkCfg V2 21 21 None) /\ cfg_ok (mkCfg V1 32 21 None) /\ (8 < 12 /\ 12 <= 1500 < 2 ^ 32).
Proof. unfold cfg_ok. cbn. repeat split; try lia; discriminate. Qed.

Print Assumptions C18_read_refuted.
Print Assumptions C18_write_refuted.
Print Assumptions C19_v2_refuted.
Print Assumptions C19_v1_refuted.
