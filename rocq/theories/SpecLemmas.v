(** Proof layer: the specification of masks agrees with the arithmetic of the
    code. *)
From Verif Require Import Word Bits Header WordLemmas BitsProofs ValMem Client Spec.
From Coq Require Import NArith ZArith List Lia Bool ZifyBool ZifyNat ZifyN.
Import ListNotations.
Open Scope N_scope.
Ltac Zify.zify_post_hook ::= Z.div_mod_to_equations.

Lemma bit_positions_in i : In i bit_positions <-> i < 32.
Proof.
  unfold bit_positions. rewrite in_map_iff. split.
  - intros (n & <- & H). apply in_seq in H. lia.
  - intros H. exists (N.to_nat i). split; [lia|]. apply in_seq. lia.
Qed.

Lemma find_first {A} (f : A -> bool) l x : find f l = Some x ->
  exists l1 l2, l = l1 ++ x :: l2 /\ f x = true /\ Forall (fun y => f y = false) l1.
Proof.
  induction l as [|y t IH]; [discriminate|]. cbn. destruct (f y) eqn:E.
  - intros H. injection H as ->. exists [], t. auto.
  - intros H. destruct (IH H) as (l1 & l2 & -> & F & Q). exists (y :: l1), l2. auto.
Qed.

Lemma lowest_bit_spec m : 0 < m < W32 ->
  N.testbit m (lowest_bit m) = true /\ lowest_bit m < 32 /\
  forall i, i < lowest_bit m -> N.testbit m i = false.
Proof.
  intros H. unfold lowest_bit.
  destruct (find (N.testbit m) bit_positions) as [k|] eqn:E.
  - destruct (find_first _ _ _ E) as (l1 & l2 & L & T & Q).
    assert (K : k < 32) by (apply bit_positions_in; rewrite L; apply in_elt).
    split; [assumption|]. split; [assumption|]. intros i Hi.
    assert (K1 : l1 = map N.of_nat (seq 0 (N.to_nat k))).
    { assert (E1 : nth_error bit_positions (length l1) = Some k)
        by (rewrite L, nth_error_app2, Nat.sub_diag by lia; reflexivity).
      unfold bit_positions in E1.
      assert (L1 : (length l1 < 32)%nat).
      { assert (X := f_equal (@length N) L). unfold bit_positions in X.
        rewrite map_length, seq_length, app_length in X. cbn [length] in X. lia. }
      rewrite nth_error_map in E1.
      rewrite (nth_error_nth' _ 0%nat) in E1 by (rewrite seq_length; lia).
      rewrite seq_nth in E1 by lia. cbn in E1. injection E1 as E1.
      assert (l1 = firstn (length l1) bit_positions)
        by (rewrite L, firstn_app, firstn_all, Nat.sub_diag; cbn; rewrite app_nil_r; reflexivity).
      rewrite H0. unfold bit_positions. rewrite firstn_map. f_equal.
      replace (length l1) with (N.to_nat k) by lia.
      replace 32%nat with (N.to_nat k + (32 - N.to_nat k))%nat by lia.
      rewrite seq_app, firstn_app, seq_length, Nat.sub_diag.
      rewrite firstn_all2 by (rewrite seq_length; lia). cbn. apply app_nil_r. }
    rewrite Forall_forall in Q. apply Q. rewrite K1, in_map_iff.
    exists (N.to_nat i). split; [lia|]. apply in_seq. lia.
  - exfalso. assert (m = 0); [|lia]. apply N.bits_inj_0. intros i.
    destruct (N.lt_ge_cases i 32) as [Hi|Hi].
    + apply (find_none _ _ E). apply bit_positions_in. assumption.
    + apply (testbit_high m 32); [apply H|assumption].
Qed.

Lemma lowest_bit_trb m : 0 < m < W32 -> trailing_right_bits m = lowest_bit m.
Proof.
  intros H. destruct (lowest_bit_spec m H) as (A & B & C).
  destruct (trb_testbits m ltac:(lia) ltac:(lia)) as (A' & B' & C').
  destruct (N.lt_trichotomy (trailing_right_bits m) (lowest_bit m)) as [L|[L|L]]; [|exact L|].
  - rewrite (C _ L) in A'. discriminate.
  - rewrite (B' _ L) in A. discriminate.
Qed.

Lemma mask_fits_spec x m : x < W32 ->
  mask_fits x m = true <->
  (forall i, N.testbit x i = true -> N.testbit m (i + lowest_bit m) = true).
Proof.
  intros Hx. unfold mask_fits. rewrite forallb_forall. split.
  - intros H i Hi. assert (Hl : i < 32).
    { destruct (N.lt_ge_cases i 32); [assumption|].
      rewrite (testbit_high x 32) in Hi by assumption. discriminate. }
    specialize (H i (proj2 (bit_positions_in i) Hl)). rewrite Hi in H. exact H.
  - intros H i _. destruct (N.testbit x i) eqn:E; [|reflexivity]. exact (H i E).
Qed.

Lemma masked_write_direct x m : x < W32 -> 0 < m < W32 ->
  if mask_fits x m
  then exists a o, masked_write_check x m = MwRmw a o /\
         forall old, rmw_bits_word old a o = masked_update old x m
  else masked_write_check x m = MwRefused.
Proof.
  intros Hx Hm.
  destruct (masked_write_check_spec x m Hx ltac:(lia) ltac:(lia)) as (A & B).
  rewrite lowest_bit_trb in A, B by assumption.
  destruct (mask_fits x m) eqn:F0.
  - assert (F := proj1 (mask_fits_spec x m Hx) F0). eexists _, _. split; [apply A; exact F|].
    intros old. unfold rmw_bits_word, masked_update. apply N.bits_inj. intros i.
    rewrite !N.lor_spec, N.land_spec, N.ldiff_spec, not32_spec, shl32_spec. f_equal.
    + destruct (N.lt_ge_cases i 32).
      * rewrite N.mod_pow2_bits_low by assumption. replace (i <? 32) with true by lia. reflexivity.
      * rewrite N.mod_pow2_bits_high by assumption. replace (i <? 32) with false by lia.
        cbn. apply andb_false_r.
    + destruct (N.lt_ge_cases i (lowest_bit m)) as [L|L].
      * rewrite N.shiftl_spec_low by assumption. replace (lowest_bit m <=? i) with false by lia.
        rewrite andb_false_r. reflexivity.
      * rewrite N.shiftl_spec_high' by assumption. replace (lowest_bit m <=? i) with true by lia.
        rewrite andb_true_r.
        destruct (i <? 32) eqn:E; [reflexivity|].
        destruct (N.testbit x (i - lowest_bit m)) eqn:T; [|reflexivity].
        apply F in T. replace (i - lowest_bit m + lowest_bit m) with i in T by lia.
        rewrite (testbit_high m 32) in T by (try apply Hm; lia). discriminate.
  - apply B. intros H. assert (H1 := proj2 (mask_fits_spec x m Hx) H). rewrite H1 in F0. discriminate.
Qed.
