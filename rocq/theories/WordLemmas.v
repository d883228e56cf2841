(** Arithmetic and bitwise lemmas about the definitions of [Word]. *)
From Verif Require Import Word.
From Coq Require Import NArith ZArith List Lia Bool ZifyBool ZifyNat ZifyN.
Import ListNotations.
Open Scope N_scope.

Ltac Zify.zify_post_hook ::= Z.div_mod_to_equations.

Lemma W32_pow : W32 = 2 ^ 32. Proof. reflexivity. Qed.

Lemma W32_pos : W32 <> 0. Proof. discriminate. Qed.

Lemma wrap32_lt x : wrap32 x < W32.
Proof. apply N.mod_lt, W32_pos. Qed.

Lemma add32_lt a b : add32 a b < W32.
Proof. apply N.mod_lt, W32_pos. Qed.

Lemma lor_mul_pow k a b : a < 2 ^ k -> N.lor (b * 2 ^ k) a = b * 2 ^ k + a.
Proof.
  intros H. symmetry. rewrite <- N.lxor_lor, <- N.add_nocarry_lxor; trivial;
  (apply N.bits_inj_0; intros n; rewrite N.land_spec;
   destruct (N.lt_ge_cases n k) as [Hn|Hn];
   [ rewrite N.mul_pow2_bits_low by assumption; reflexivity
   | rewrite <- (N.mod_small a (2^k)) by assumption;
     rewrite N.mod_pow2_bits_high by assumption; apply andb_false_r ]).
Qed.

Lemma testbit_high a k n : a < 2 ^ k -> k <= n -> N.testbit a n = false.
Proof.
  intros H Hn. rewrite <- (N.mod_small a (2^k)) by assumption.
  apply N.mod_pow2_bits_high; assumption.
Qed.

Lemma lt_pow2_bits a k : (forall n, k <= n -> N.testbit a n = false) -> a < 2 ^ k.
Proof.
  intros H. assert (E : a = a mod 2 ^ k).
  { apply N.bits_inj; intros n. destruct (N.lt_ge_cases n k) as [Hn|Hn].
    - rewrite N.mod_pow2_bits_low by assumption; reflexivity.
    - rewrite N.mod_pow2_bits_high by assumption. auto. }
  rewrite E. apply N.mod_lt. apply N.pow_nonzero. discriminate.
Qed.

Lemma land_lt a b k : a < 2 ^ k -> N.land a b < 2 ^ k.
Proof.
  intros H. apply lt_pow2_bits; intros n Hn.
  rewrite N.land_spec, (testbit_high a k n) by assumption. reflexivity.
Qed.

Lemma lor_lt a b k : a < 2 ^ k -> b < 2 ^ k -> N.lor a b < 2 ^ k.
Proof.
  intros Ha Hb. apply lt_pow2_bits; intros n Hn.
  rewrite N.lor_spec, (testbit_high a k n), (testbit_high b k n) by assumption.
  reflexivity.
Qed.

Lemma not32_spec a n : N.testbit (not32 a) n = (n <? 32) && negb (N.testbit a n).
Proof.
  unfold not32. rewrite N.ldiff_spec.
  change 4294967295 with (N.ones 32). f_equal.
  destruct (n <? 32) eqn:E.
  - apply N.ones_spec_low. lia.
  - apply N.ones_spec_high. lia.
Qed.

Lemma not32_lt a : not32 a < W32.
Proof.
  rewrite W32_pow. apply lt_pow2_bits. intros n Hn. rewrite not32_spec.
  replace (n <? 32) with false by lia. reflexivity.
Qed.

Lemma shl32_spec a s n :
  N.testbit (shl32 a s) n = (n <? 32) && (s <=? n) && N.testbit a (n - s).
Proof.
  unfold shl32. rewrite W32_pow.
  destruct (n <? 32) eqn:E.
  - rewrite N.mod_pow2_bits_low by lia. destruct (s <=? n) eqn:F.
    + rewrite N.shiftl_spec_high' by lia. reflexivity.
    + rewrite N.shiftl_spec_low by lia. reflexivity.
  - rewrite N.mod_pow2_bits_high by lia. reflexivity.
Qed.

Lemma shr32_spec a s n : N.testbit (shr32 a s) n = N.testbit a (n + s).
Proof. unfold shr32. apply N.shiftr_spec'. Qed.

Lemma shl32_lt a s : shl32 a s < W32.
Proof. apply N.mod_lt, W32_pos. Qed.

Lemma sub32_le a b : b <= a -> a < W32 -> sub32 a b = a - b.
Proof. unfold sub32, W32. intros. lia. Qed.
