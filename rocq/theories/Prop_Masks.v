(** C01-C04: bit masks. *)
From Verif Require Import Word Bits Header WordLemmas BitsProofs ValMem Client Validate Target Spec
  SpecLemmas Devices System Tx E2E E2ECor DeviceLemmas.
From Coq Require Import NArith ZArith List Lia Bool ZifyBool ZifyNat ZifyN.
Import ListNotations.
Open Scope N_scope.

(** C01: the shift is the number of trailing zeros. *)
Theorem C01_mask_shift : forall m, 0 < m < 2 ^ 32 ->
  N.divide (2 ^ trailing_right_bits m) m /\
  ~ N.divide (2 ^ (trailing_right_bits m + 1)) m /\
  trailing_right_bits m < 32.
Proof.
  intros m H. destruct (trb_odd_part m ltac:(lia) ltac:(apply H)) as (q & E & L).
  set (k := trailing_right_bits m) in *. clearbody k. subst m.
  split; [|split; [|exact L]].
  - exists (2 * q + 1). lia.
  - intros (z & Z). replace (2 ^ (k + 1)) with (2 * 2 ^ k) in Z
      by (rewrite N.add_1_r, N.pow_succ_r'; reflexivity).
    assert (P : 0 < 2 ^ k) by (apply N.neq_0_lt_0, N.pow_nonzero; discriminate).
    assert (2 ^ k * (2 * q + 1) = 2 ^ k * (2 * z)) as E by lia.
    apply N.mul_cancel_l in E; lia.
Qed.

Example C01_case : 0 < 0x00FF0000 < 2 ^ 32 /\ trailing_right_bits 0x00FF0000 = 16.
Proof. split; [lia|reflexivity]. Qed.

(** C02: a validated word read through a mask shows exactly the field. *)
Theorem C02_masked_read : forall w m, 0 < m < 2 ^ 32 ->
  exists y, word_value (CWord true w m) = Some y /\
  forall i, N.testbit y i =
    N.testbit w (i + lowest_bit m) && N.testbit m (i + lowest_bit m).
Proof.
  intros w m H. eexists. split; [reflexivity|]. intros i.
  rewrite masked_value_bits, lowest_bit_trb by exact H. reflexivity.
Qed.

Example C02_case : word_value (CWord true 0xDEADBEEF 0x0FF0) = Some 0xEE /\ lowest_bit 0x0FF0 = 4.
Proof. split; reflexivity. Qed.

(** [x] fits the field of mask [m]: moved up to the lowest bit of the mask it
    stays a 32-bit word and sets only bits of the mask. *)
Definition fits (x m : N) : Prop :=
  x * 2 ^ lowest_bit m < 2 ^ 32 /\
  forall i, N.testbit (x * 2 ^ lowest_bit m) i = true -> N.testbit m i = true.

Lemma fits_iff x m : x < 2 ^ 32 -> 0 < m < 2 ^ 32 -> fits x m <-> mask_fits x m = true.
Proof.
  intros Hx Hm. unfold fits. rewrite <- N.shiftl_mul_pow2.
  assert (S := mask_fits_spec x m Hx). split.
  - intros (_ & H). apply S. intros i Hi. apply H.
    rewrite N.shiftl_spec_high' by lia. replace (i + lowest_bit m - lowest_bit m) with i by lia.
    exact Hi.
  - intros F. assert (F1 := proj1 S F).
    assert (SB : forall i, N.testbit (N.shiftl x (lowest_bit m)) i = true -> N.testbit m i = true).
    { intros i Hi. destruct (N.lt_ge_cases i (lowest_bit m)) as [Q|Q].
      - rewrite N.shiftl_spec_low in Hi by assumption. discriminate.
      - rewrite N.shiftl_spec_high' in Hi by assumption. apply F1 in Hi.
        replace (i - lowest_bit m + lowest_bit m) with i in Hi by lia. exact Hi. }
    split; [|exact SB]. apply lt_pow2_bits. intros i Hi.
    destruct (N.testbit (N.shiftl x (lowest_bit m)) i) eqn:E; [|reflexivity].
    apply SB in E. rewrite (testbit_high m 32) in E by (try apply Hm; assumption). discriminate.
Qed.

(** C03: refused exactly when it does not fit, and then the client is
    unchanged: nothing is queued.  When it fits, the call is the
    read-modify-write that puts the value in the field. *)
Theorem C03_masked_write_check : forall g s a x m,
  x < 2 ^ 32 -> 0 < m < 2 ^ 32 ->
  (~ fits x m -> run_op g s (OWriteMask a x m) = Exc s EBitMask) /\
  (fits x m -> exists y z,
     run_op g s (OWriteMask a x m) = run_op g s (ORmwBits a y z) /\
     forall old, old < 2 ^ 32 -> forall i,
       N.testbit (N.lor (N.land old y) z) i =
       if N.testbit m i then N.testbit (x * 2 ^ lowest_bit m) i else N.testbit old i).
Proof.
  intros g s a x m Hx Hm. assert (FI := fits_iff x m Hx Hm).
  assert (M := masked_write_direct x m Hx Hm). cbn [run_op]. unfold masked_write.
  destruct (mask_fits x m) eqn:F.
  - split; [intros NF; destruct NF; apply FI; reflexivity|]. intros FT.
    destruct M as (y & z & -> & MU). exists y, z. split; [reflexivity|].
    intros old Ho i. change (N.lor (N.land old y) z) with (rmw_bits_word old y z).
    rewrite MU. destruct (masked_update_bits old x m Ho Hx Hm F) as (_ & B1 & _).
    destruct (N.testbit m i) eqn:E; [|apply B1; exact E].
    unfold masked_update. rewrite N.lor_spec, N.ldiff_spec, E, andb_false_r.
    rewrite <- N.shiftl_mul_pow2. reflexivity.
  - split; [|intros FT; apply FI in FT; discriminate]. intros _. rewrite M. reflexivity.
Qed.

(** A client with a read already queued; 5 does not fit a two-bit field, 3 does. *)
Definition c03_state : st :=
  match run_op (mkCfg V2 1472 1472 None) init_st (ORead 0x10 0xFFFFFFFF) with
  | Ok s _ => s | _ => init_st end.

Example C03_case :
  s_cur c03_state <> None /\ fits 3 0x300 /\ ~ fits 5 0x300 /\
  run_op (mkCfg V2 1472 1472 None) c03_state (OWriteMask 0x20 5 0x300) = Exc c03_state EBitMask.
Proof.
  split; [discriminate|]. split; [apply fits_iff; [lia|lia|reflexivity]|].
  split; [intros F; apply fits_iff in F; [discriminate|lia|lia]|reflexivity].
Qed.

(** C04: on a memory, whatever was queued before: after the dispatch the masked
    read returns the value, the bits outside the mask and all other registers
    are as they were when the masked write was reached. *)
Theorem C04_masked_write_effect : forall g m0 pre a x m ls y,
  cfg_ok g -> mem_ok m0 -> Forall op_ok pre ->
  x < 2 ^ 32 -> 0 < m < 2 ^ 32 -> fits x m ->
  calls ls = pre ++ [OWriteMask a x m; ORead a m] ->
  run mem mem_rd mem_wr mem_cf g (init_sys mem m0) (ls ++ [LReturn]) = Some y ->
  let before := fst (direct mem mem_rd mem_wr mem_cf (g_ver g) m0 pre) in
  let after := y_dev mem y in
  (forall b, b <> a -> after b = before b) /\
  (forall i, N.testbit m i = false -> N.testbit (after a) i = N.testbit (before a) i) /\
  (forall i, N.testbit m i = true -> N.testbit (after a) i = N.testbit (x * 2 ^ lowest_bit m) i) /\
  exists k, last (s_heap (y_c mem y)) (CHdr false) = k /\ word_value k = Some x.
Proof.
  intros g m0 pre a x m ls y G M0 P Hx Hm F C R before after.
  assert (F1 := proj1 (fits_iff x m Hx Hm) F).
  assert (OKS : Forall op_ok (calls ls)).
  { rewrite C. apply Forall_app. split; [assumption|].
    constructor; [cbn; lia|]. constructor; [exact I|constructor]. }
  destruct (return_quiescent mem mem_rd mem_wr mem_cf g G m0 ls y OKS R)
    as (_ & _ & _ & _ & _ & E).
  rewrite C in E. change ([OWriteMask a x m; ORead a m]) with ([OWriteMask a x m] ++ [ORead a m]) in E.
  rewrite app_assoc, direct_snoc in E. rewrite direct_snoc in E. fold before in E.
  assert (BO : mem_ok before) by (apply mem_direct_ok; assumption).
  cbn [direct_op] in E. rewrite F1 in E. unfold spec_rmw in E. cbn [mem_rd fst snd] in E.
  injection E as E1 E2. subst after. rewrite E1.
  destruct (masked_update_bits (before a) x m (BO a) Hx Hm F1) as (B0 & B1 & B2).
  assert (AA : mem_wr before a (masked_update (before a) x m) a = masked_update (before a) x m).
  { unfold mem_wr. rewrite N.eqb_refl. apply N.mod_small. exact B0. }
  rewrite AA. split; [|split; [|split]].
  - intros b Hb. unfold mem_wr. apply N.eqb_neq in Hb. rewrite Hb. reflexivity.
  - exact B1.
  - intros i Hi. unfold masked_update. rewrite N.lor_spec, N.ldiff_spec, Hi, andb_false_r.
    rewrite <- N.shiftl_mul_pow2. reflexivity.
  - eexists. split; [reflexivity|]. rewrite E2, last_last, AA. cbn [word_value]. f_equal.
    apply N.bits_inj. intros i. rewrite masked_value_bits, lowest_bit_trb by exact Hm. apply B2.
Qed.

Example C04_case :
  option_map (fun y => (map word_value (s_heap (y_c mem y)), y_dev mem y 5))
    (run mem mem_rd mem_wr mem_cf (mkCfg V2 32 32 None) (init_sys mem (fun a => a mod 2 ^ 32))
      ([LOp (OWrite 5 0xABCDEF01); LOp (OWriteMask 5 0x77 0xFF00); LOp (ORead 5 0xFF00);
        LTarget; LDispatch; LReply; LTarget; LReply] ++ [LReturn])) =
  Some ([None; Some 0xABCDEF01; Some 0x77], 0xABCD7701).
Proof. vm_compute. reflexivity. Qed.

Example C04_case_cfg : cfg_ok (mkCfg V2 32 32 None) /\ mem_ok (fun a => a mod 2 ^ 32) /\ fits 0x77 0xFF00.
Proof.
  split; [unfold cfg_ok; cbn; repeat split; try lia; discriminate|].
  split; [intros a; apply N.mod_lt; discriminate|apply fits_iff; [lia|lia|reflexivity]].
Qed.

Print Assumptions C01_mask_shift.
Print Assumptions C02_masked_read.
Print Assumptions C03_masked_write_check.
Print Assumptions C04_masked_write_effect.
