(** Proofs about the bit-mask arithmetic. *)
From Verif Require Import Word Bits WordLemmas.
From Coq Require Import NArith ZArith List Lia Bool ZifyBool ZifyNat ZifyN.
Import ListNotations.
Open Scope N_scope.

Lemma odd_part : forall m, m <> 0 -> exists k q, m = 2 ^ k * (2 * q + 1).
Proof.
  intros m. induction m as [m IH] using (well_founded_induction N.lt_wf_0).
  intros H. destruct (N.even m) eqn:E.
  - apply N.even_spec in E. destruct E as (h & ->).
    destruct (IH h) as (k & q & ->); [lia|lia|].
    exists (N.succ k), q. rewrite N.pow_succ_r'. lia.
  - assert (O : N.Odd m) by (apply N.odd_spec; rewrite <- N.negb_even, E; reflexivity).
    destruct O as (q & ->). exists 0, q. cbn [N.pow]. lia.
Qed.

Lemma land_neg_isolates k q :
  2 ^ k * (2 * q + 1) < W32 ->
  N.land (2 ^ k * (2 * q + 1)) (sub32 0 (2 ^ k * (2 * q + 1))) = 2 ^ k.
Proof.
  intros H. set (m := 2 ^ k * (2 * q + 1)) in *.
  assert (Hk : k < 32).
  { rewrite W32_pow in H. apply (N.pow_lt_mono_r_iff 2); [lia|].
    unfold m in H. nia. }
  assert (Hm0 : m <> 0). { unfold m. assert (2 ^ k <> 0) by (apply N.pow_nonzero; lia). nia. }
  assert (E : W32 = 2 ^ k * (2 * 2 ^ (31 - k))).
  { rewrite W32_pow. rewrite <- N.pow_succ_r'. rewrite <- N.pow_add_r.
    f_equal. lia. }
  assert (P0 : 2 ^ k <> 0) by (apply N.pow_nonzero; lia).
  assert (Q : q < 2 ^ (31 - k)) by (unfold m in H; rewrite E in H; nia).
  assert (S : sub32 0 m = 2 ^ k * (2 * (2 ^ (31 - k) - 1 - q) + 1)).
  { unfold sub32. rewrite (N.mod_small m) by assumption.
    rewrite N.mod_small by lia. rewrite N.add_0_l. unfold m.
    rewrite E. nia. }
  rewrite S. unfold m.
  rewrite !(N.mul_comm (2 ^ k)). rewrite <- !N.shiftl_mul_pow2.
  rewrite <- N.shiftl_land.
  assert (L : N.land (2 * q + 1) (2 * (2 ^ (31 - k) - 1 - q) + 1) = 1).
  { apply N.bits_inj. intros n. rewrite N.land_spec.
    destruct n as [|p _] using N.peano_ind.
    - rewrite !N.testbit_odd_0. reflexivity.
    - rewrite !N.testbit_odd_succ by lia.
      replace (2 ^ (31 - k) - 1) with (N.ones (31 - k))
        by (rewrite N.ones_equiv; lia).
      rewrite N.sub_nocarry_ldiff.
      + rewrite N.ldiff_spec.
        change 1 with (2 * 0 + 1). rewrite N.testbit_odd_succ by lia.
        rewrite N.bits_0. destruct (N.testbit q p); [|reflexivity].
        rewrite andb_false_r; reflexivity.
      + apply N.bits_inj_0. intros j. rewrite N.ldiff_spec.
        destruct (N.lt_ge_cases j (31 - k)).
        * rewrite N.ones_spec_low by assumption. apply andb_false_r.
        * rewrite (testbit_high q (31 - k)) by assumption. reflexivity. }
  rewrite L. apply N.shiftl_1_l.
Qed.

(** The cascade of tests, for an isolated bit [2^k]. *)
Definition cascade (v : N) : N :=
  let t (m : N) := negb (N.land v m =? 0) in
  let r := 32 in
  let r := if negb (v =? 0) then r - 1 else r in
  let r := if t 0x0000FFFF then r - 16 else r in
  let r := if t 0x00FF00FF then r - 8 else r in
  let r := if t 0x0F0F0F0F then r - 4 else r in
  let r := if t 0x33333333 then r - 2 else r in
  if t 0x55555555 then r - 1 else r.

Lemma trb_cascade v : trailing_right_bits v = cascade (N.land v (sub32 0 v)).
Proof. reflexivity. Qed.

Lemma cascade_pow k : k < 32 -> cascade (2 ^ k) = k.
Proof.
  intros H.
  assert (A : forallb (fun n => cascade (2 ^ N.of_nat n) =? N.of_nat n)
                (seq 0 32) = true) by (vm_compute; reflexivity).
  rewrite forallb_forall in A.
  specialize (A (N.to_nat k)). rewrite N2Nat.id in A.
  apply N.eqb_eq, A, in_seq. lia.
Qed.

Lemma trb_odd_part m : m <> 0 -> m < W32 ->
  exists q, m = 2 ^ (trailing_right_bits m) * (2 * q + 1)
            /\ trailing_right_bits m < 32.
Proof.
  intros H0 H. destruct (odd_part m H0) as (k & q & E).
  assert (Hk : k < 32).
  { rewrite W32_pow in H. apply (N.pow_lt_mono_r_iff 2); [lia|]. nia. }
  exists q. rewrite trb_cascade. subst m.
  rewrite land_neg_isolates by assumption. rewrite cascade_pow by assumption.
  auto.
Qed.

Lemma trb_testbits m : m <> 0 -> m < W32 ->
  N.testbit m (trailing_right_bits m) = true
  /\ (forall i, i < trailing_right_bits m -> N.testbit m i = false)
  /\ trailing_right_bits m < 32.
Proof.
  intros H0 H. destruct (trb_odd_part m H0 H) as (q & E & L).
  set (k := trailing_right_bits m) in *. clearbody k. subst m.
  rewrite (N.mul_comm (2 ^ k)). repeat split; [| |assumption].
  - rewrite N.mul_pow2_bits_high by lia. rewrite N.sub_diag.
    apply N.testbit_odd_0.
  - intros i Hi. apply N.mul_pow2_bits_low. assumption.
Qed.

Lemma masked_value_bits w mask i :
  N.testbit (masked_value w mask) i =
    N.testbit w (i + trailing_right_bits mask)
    && N.testbit mask (i + trailing_right_bits mask).
Proof. unfold masked_value. rewrite shr32_spec. apply N.land_spec. Qed.

Lemma masked_write_check_spec src mask :
  src < W32 -> mask <> 0 -> mask < W32 ->
  let k := trailing_right_bits mask in
  ((forall i, N.testbit src i = true -> N.testbit mask (i + k) = true) ->
   masked_write_check src mask = MwRmw (not32 mask) (shl32 src k)) /\
  (~ (forall i, N.testbit src i = true -> N.testbit mask (i + k) = true) ->
   masked_write_check src mask = MwRefused).
Proof.
  intros Hs Hm0 Hm k. destruct (trb_testbits mask Hm0 Hm) as (T & F & L).
  fold k in T, F, L.
  assert (MH : forall n, 32 <= n -> N.testbit mask n = false)
    by (intros; apply (testbit_high _ 32); [exact Hm|assumption]).
  assert (EQ1 : shr32 (shl32 src k) k = src <->
                (forall i, N.testbit src i = true -> i + k < 32)).
  { split.
    - intros E i Hi. rewrite <- E in Hi. rewrite shr32_spec, shl32_spec in Hi.
      destruct (i + k <? 32) eqn:X; [lia|discriminate].
    - intros A. apply N.bits_inj. intros i. rewrite shr32_spec, shl32_spec.
      replace (i + k - k) with i by lia. replace (k <=? i + k) with true by lia.
      rewrite andb_true_r. destruct (N.testbit src i) eqn:Y.
      + specialize (A i Y). replace (i + k <? 32) with true by lia. reflexivity.
      + apply andb_false_r. }
  assert (EQ2 : N.land (shl32 src k) (not32 mask) = 0 <->
                (forall i, N.testbit src i = true -> i + k < 32 ->
                           N.testbit mask (i + k) = true)).
  { split.
    - intros E i Hi Hlt.
      assert (B : N.testbit (N.land (shl32 src k) (not32 mask)) (i + k) = false)
        by (rewrite E; apply N.bits_0).
      rewrite N.land_spec, shl32_spec, not32_spec in B.
      replace (i + k - k) with i in B by lia. rewrite Hi in B.
      replace (i + k <? 32) with true in B by lia.
      replace (k <=? i + k) with true in B by lia. cbn in B.
      destruct (N.testbit mask (i + k)); [reflexivity|discriminate].
    - intros A. apply N.bits_inj_0. intros n.
      rewrite N.land_spec, shl32_spec, not32_spec.
      destruct (n <? 32) eqn:X; [|reflexivity].
      destruct (k <=? n) eqn:Y; [|reflexivity].
      destruct (N.testbit src (n - k)) eqn:Z; [|reflexivity].
      specialize (A (n - k) Z). replace (n - k + k) with n in A by lia.
      rewrite A by lia. reflexivity. }
  unfold masked_write_check. fold k. split.
  - intros A.
    assert (A1 : forall i, N.testbit src i = true -> i + k < 32).
    { intros i Hi. destruct (N.lt_ge_cases (i + k) 32); [assumption|].
      specialize (A i Hi). rewrite MH in A by assumption. discriminate. }
    rewrite (proj2 (N.eqb_eq _ _) (proj2 EQ1 A1)). cbn [negb].
    assert (Z : N.land (shl32 src k) (not32 mask) = 0) by (apply EQ2; auto).
    rewrite Z. cbn [negb N.eqb]. f_equal.
    apply N.bits_inj. intros n. rewrite N.land_spec.
    assert (Zb := f_equal (fun x => N.testbit x n) Z). cbn beta in Zb.
    rewrite N.land_spec, not32_spec, N.bits_0 in Zb.
    rewrite shl32_spec in *. destruct (n <? 32) eqn:X; [|reflexivity].
    destruct (N.testbit mask n); [apply andb_true_r|].
    cbn in Zb. rewrite andb_true_r in Zb. cbn. rewrite Zb. reflexivity.
  - intros A.
    destruct (shr32 (shl32 src k) k =? src) eqn:E1; cbn [negb]; [|reflexivity].
    apply N.eqb_eq in E1.
    destruct (N.land (shl32 src k) (not32 mask) =? 0) eqn:E2; cbn [negb]; [|reflexivity].
    apply N.eqb_eq in E2. exfalso. apply A. intros i Hi.
    apply (proj1 EQ2 E2 i Hi). apply (proj1 EQ1 E1 i Hi).
Qed.

Lemma fits_dec src mask k :
  src < W32 ->
  (forall i, N.testbit src i = true -> N.testbit mask (i + k) = true) \/
  ~ (forall i, N.testbit src i = true -> N.testbit mask (i + k) = true).
Proof.
  intros Hs.
  destruct (N.eq_dec (N.ldiff src (N.shiftr mask k)) 0) as [E|E].
  - left. intros i Hi. assert (B := f_equal (fun x => N.testbit x i) E).
    cbn beta in B. rewrite N.ldiff_spec, N.shiftr_spec', N.bits_0, Hi in B.
    destruct (N.testbit mask (i + k)); [reflexivity|discriminate].
  - right. intros A. apply E. apply N.bits_inj_0. intros n.
    rewrite N.ldiff_spec, N.shiftr_spec'. destruct (N.testbit src n) eqn:X; [|reflexivity].
    rewrite (A n X). reflexivity.
Qed.

Lemma rmw_outside old a o mask src :
  masked_write_check src mask = MwRmw a o -> old < W32 -> mask < W32 ->
  forall n, N.testbit mask n = false ->
  N.testbit (rmw_bits_word old a o) n = N.testbit old n.
Proof.
  unfold masked_write_check.
  destruct (negb _); [discriminate|]. destruct (negb _); [discriminate|].
  intros E Ho Hm n Hn. injection E as <- <-.
  unfold rmw_bits_word. rewrite N.lor_spec, !N.land_spec, not32_spec, Hn.
  cbn. rewrite andb_false_r, orb_false_r.
  destruct (n <? 32) eqn:X; cbn; [apply andb_true_r|].
  rewrite andb_false_r. symmetry. apply (testbit_high _ 32); [exact Ho|lia].
Qed.

Lemma rmw_readback old a o mask src :
  masked_write_check src mask = MwRmw a o ->
  src < W32 -> mask <> 0 -> mask < W32 -> old < W32 ->
  masked_value (rmw_bits_word old a o) mask = src.
Proof.
  intros E Hs Hm0 Hm Ho. set (k := trailing_right_bits mask).
  destruct (masked_write_check_spec src mask Hs Hm0 Hm) as (A & B). fold k in A, B.
  destruct (fits_dec src mask k Hs) as [F|F].
  - rewrite (A F) in E. injection E as <- <-.
    apply N.bits_inj. intros i. rewrite masked_value_bits. fold k.
    unfold rmw_bits_word. rewrite N.lor_spec, N.land_spec, not32_spec, shl32_spec.
    replace (i + k - k) with i by lia. replace (k <=? i + k) with true by lia.
    destruct (N.testbit mask (i + k)) eqn:X.
    + destruct (N.lt_ge_cases (i + k) 32) as [L|L].
      * replace (i + k <? 32) with true by lia. cbn.
        rewrite andb_false_r, andb_true_r. reflexivity.
      * rewrite (testbit_high mask 32) in X; [discriminate|exact Hm|assumption].
    + rewrite andb_false_r. destruct (N.testbit src i) eqn:Y; [|reflexivity].
      rewrite (F i Y) in X. discriminate.
  - rewrite (B F) in E. discriminate.
Qed.
