(** Proofs about transaction headers. *)
From Verif Require Import Word Header WordLemmas.
From Coq Require Import NArith ZArith List Lia Bool ZifyBool ZifyNat ZifyN.
Import ListNotations.
Open Scope N_scope.

(** Position of the fields in the words of the IPbus specification. *)
Definition id_mod (v : version) : N := match v with V1 => 2048 | V2 => 4096 end.
Definition wc_mod (v : version) : N := match v with V1 => 512 | V2 => 256 end.
Definition info_mod (v : version) : N := match v with V1 => 8 | V2 => 16 end.
Definition vnum (v : version) : N := match v with V1 => 1 | V2 => 2 end.

Definition wire_header (v : version) (ty wc id info : N) : N :=
  match v with
  | V1 => 1 * 2 ^ 28 + id * 2 ^ 17 + wc * 2 ^ 8 + ty + info
  | V2 => 2 * 2 ^ 28 + id * 2 ^ 16 + wc * 2 ^ 8 + ty + info
  end.

Lemma calc_header_wire v t wc id info ty :
  type_code v t = Some ty ->
  calc_header v t wc id info =
    Some (wire_header v ty (wc mod wc_mod v) (id mod id_mod v) (info mod info_mod v)).
Proof.
  intros H. unfold calc_header. rewrite H. f_equal.
  unfold wire_header, wc_mod, id_mod, info_mod.
  assert (forall x a b c, N.lor (N.lor (N.lor x a) b) c = N.lor x (N.lor a (N.lor b c))) as AS
    by (intros; rewrite <- !N.lor_assoc; reflexivity).
  destruct v.
  - change 0x7ff with (N.ones 11). change 0x1ff with (N.ones 9).
    change 0x7 with (N.ones 3). rewrite !N.land_ones, !N.shiftl_mul_pow2.
    change (2 ^ 11) with 2048. change (2 ^ 9) with 512. change (2 ^ 3) with 8.
    set (a := id mod 2048). set (b := wc mod 512). set (c := info mod 8).
    assert (Ha : a < 2048) by (apply N.mod_lt; lia).
    assert (Hb : b < 512) by (apply N.mod_lt; lia).
    assert (Hc : c < 8) by (apply N.mod_lt; lia).
    clearbody a b c.
    assert (T : exists u, ty = u * 2 ^ 3 /\ u < 32).
    { destruct t; cbn in H; try discriminate; injection H as <-;
      [exists 31|exists 3|exists 4|exists 5|exists 6|exists 30|exists 8|exists 9];
      split; reflexivity. }
    destruct T as (u & -> & Hu).
    rewrite <- N.lor_assoc.
    rewrite (lor_mul_pow 3 c u) by (cbn; lia).
    rewrite <- N.lor_assoc.
    rewrite (lor_mul_pow 8 _ b) by (cbn; lia).
    rewrite <- N.lor_assoc.
    rewrite (lor_mul_pow 17 _ a) by (cbn; lia).
    change 0x10000000 with (1 * 2 ^ 28).
    rewrite (lor_mul_pow 28 _ 1) by (cbn; lia). lia.
  - change 0xfff with (N.ones 12). change 0xff with (N.ones 8).
    change 0xF with (N.ones 4). rewrite !N.land_ones, !N.shiftl_mul_pow2.
    change (2 ^ 12) with 4096. change (2 ^ 8) with 256. change (2 ^ 4) with 16.
    set (a := id mod 4096). set (b := wc mod 256). set (c := info mod 16).
    assert (Ha : a < 4096) by (apply N.mod_lt; lia).
    assert (Hb : b < 256) by (apply N.mod_lt; lia).
    assert (Hc : c < 16) by (apply N.mod_lt; lia).
    clearbody a b c.
    assert (T : exists u, ty = u * 2 ^ 4 /\ u < 16).
    { destruct t; cbn in H; try discriminate; injection H as <-;
      [exists 0|exists 1|exists 4|exists 5|exists 2|exists 3|exists 6];
      split; reflexivity. }
    destruct T as (u & -> & Hu).
    rewrite <- N.lor_assoc.
    rewrite (lor_mul_pow 4 c u) by (cbn; lia).
    rewrite <- N.lor_assoc. change 256 with (2 ^ 8).
    rewrite (lor_mul_pow 8 _ b) by (cbn; lia).
    rewrite <- N.lor_assoc.
    rewrite (lor_mul_pow 16 _ a) by (cbn; lia).
    change 0x20000000 with (2 * 2 ^ 28).
    rewrite (lor_mul_pow 28 _ 2) by (cbn; lia). lia.
Qed.

Definition type_field (v : version) (h : N) : N :=
  match v with V1 => (h / 8) mod 32 * 8 | V2 => (h / 16) mod 16 * 16 end.

Lemma land_F8 h : N.land h 0xF8 = (h / 8) mod 32 * 8.
Proof.
  replace 0xF8 with (N.shiftl (N.ones 5) 3) by reflexivity.
  replace ((h / 8) mod 32 * 8) with (N.shiftl ((h / 8) mod 32) 3)
    by (rewrite N.shiftl_mul_pow2; reflexivity).
  apply N.bits_inj. intros n. rewrite N.land_spec.
  destruct (N.lt_ge_cases n 3).
  - rewrite !N.shiftl_spec_low by assumption. apply andb_false_r.
  - rewrite !N.shiftl_spec_high' by assumption.
    change 32 with (2 ^ 5). change 8 with (2 ^ 3).
    rewrite <- N.land_ones, N.land_spec, <- N.shiftr_div_pow2, N.shiftr_spec'.
    f_equal. f_equal. lia.
Qed.

Lemma land_F0 h : N.land h 0xF0 = (h / 16) mod 16 * 16.
Proof.
  replace 0xF0 with (N.shiftl (N.ones 4) 4) by reflexivity.
  replace ((h / 16) mod 16 * 16) with (N.shiftl ((h / 16) mod 16) 4)
    by (rewrite N.shiftl_mul_pow2; reflexivity).
  apply N.bits_inj. intros n. rewrite N.land_spec.
  destruct (N.lt_ge_cases n 4).
  - rewrite !N.shiftl_spec_low by assumption. apply andb_false_r.
  - rewrite !N.shiftl_spec_high' by assumption.
    change 16 with (2 ^ 4).
    rewrite <- N.land_ones, N.land_spec, <- N.shiftr_div_pow2, N.shiftr_spec'.
    f_equal. f_equal. lia.
Qed.

(** [extract_header] in plain arithmetic. *)
Lemma extract_header_arith v h :
  extract_header v h =
  if (h / 2 ^ 28) mod 16 =? vnum v then
    match type_of_code v (type_field v h) with
    | None => None
    | Some t =>
        Some match v with
             | V1 => mkHdr t ((h / 256) mod 512) ((h / 2 ^ 17) mod 2048) (h mod 4)
             | V2 => mkHdr t ((h / 256) mod 256) ((h / 2 ^ 16) mod 4096) (h mod 16)
             end
    end
  else None.
Proof.
  unfold extract_header, shr32, vnum, type_field.
  destruct v.
  - rewrite land_F8. change 0x1ff with (N.ones 9). change 0x7ff with (N.ones 11).
    change 0x3 with (N.ones 2). change 0xF with (N.ones 4).
    rewrite !N.land_ones, !N.shiftr_div_pow2.
    change (2 ^ 4) with 16. change (2 ^ 9) with 512. change (2 ^ 11) with 2048.
    change (2 ^ 2) with 4. change (2 ^ 8) with 256.
    destruct (_ =? 1); cbn [negb]; [|reflexivity].
    destruct (type_of_code _ _); reflexivity.
  - rewrite land_F0. change 0xff with (N.ones 8). change 0xfff with (N.ones 12).
    change 0xf with (N.ones 4).
    rewrite !N.land_ones, !N.shiftr_div_pow2.
    change (2 ^ 4) with 16. change (2 ^ 12) with 4096. change (2 ^ 8) with 256.
    destruct (_ =? 2); cbn [negb]; [|reflexivity].
    destruct (type_of_code _ _); reflexivity.
Qed.

Lemma type_code_inv v t ty : type_code v t = Some ty <-> type_of_code v ty = Some t.
Proof.
  split.
  - intros H. destruct v, t; cbn in H; try discriminate; injection H as <-; reflexivity.
  - unfold type_of_code. destruct v;
    repeat (match goal with |- context [if ?x =? ?y then _ else _] =>
              destruct (N.eqb_spec x y); [intros E; injection E as <-; subst; reflexivity|] end);
    discriminate.
Qed.

Definition info_seen (v : version) (info : N) : N :=
  match v with V1 => info mod 4 | V2 => info mod 16 end.

Lemma extract_calc v t wc id info h :
  calc_header v t wc id info = Some h ->
  extract_header v h =
    Some (mkHdr t (wc mod wc_mod v) (id mod id_mod v) (info_seen v info))
  /\ h < W32.
Proof.
  intros H. destruct (type_code v t) as [ty|] eqn:T.
  2:{ unfold calc_header in H. rewrite T in H. discriminate. }
  rewrite (calc_header_wire _ _ _ _ _ _ T) in H. injection H as <-.
  rewrite extract_header_arith.
  assert (B : exists u, ty = (match v with V1 => 8 | V2 => 16 end) * u /\ u < (match v with V1 => 32 | V2 => 16 end)).
  { destruct v, t; cbn in T; try discriminate; injection T as <-;
      match goal with |- exists u, ?a = ?b * u /\ _ =>
        exists (a / b); split; reflexivity end. }
  destruct B as (u & E & Hu).
  set (a := id mod id_mod v). set (b := wc mod wc_mod v). set (c := info mod info_mod v).
  assert (Ha : a < id_mod v) by (apply N.mod_lt; destruct v; discriminate).
  assert (Hb : b < wc_mod v) by (apply N.mod_lt; destruct v; discriminate).
  assert (Hc : c < info_mod v) by (apply N.mod_lt; destruct v; discriminate).
  assert (Hi : info_seen v info = info_seen v c).
  { unfold c, info_seen, info_mod. destruct v; lia. }
  assert (TF : type_field v (wire_header v ty b a c) = ty).
  { unfold type_field, wire_header, id_mod, wc_mod, info_mod in *.
    destruct v; subst ty; lia. }
  rewrite TF. rewrite (proj1 (type_code_inv _ _ _) T). rewrite Hi. clear Hi.
  clearbody a b c.
  unfold info_seen, wire_header, vnum, id_mod, wc_mod, info_mod, W32 in *.
  destruct v; subst ty.
  - replace ((_ / 2 ^ 28) mod 16 =? 1) with true by (symmetry; apply N.eqb_eq; lia).
    split; [|lia]. f_equal. f_equal; lia.
  - replace ((_ / 2 ^ 28) mod 16 =? 2) with true by (symmetry; apply N.eqb_eq; lia).
    split; [|lia]. f_equal. f_equal; lia.
Qed.

Lemma extract_some_iff v h :
  (exists x, extract_header v h = Some x) <->
  (h / 2 ^ 28) mod 16 = vnum v /\
  exists t, type_code v t = Some (type_field v h).
Proof.
  rewrite extract_header_arith. split.
  - intros (x & H). destruct (N.eqb_spec ((h / 2 ^ 28) mod 16) (vnum v)); [|discriminate].
    split; [assumption|].
    destruct (type_of_code v (type_field v h)) as [t|] eqn:T; [|discriminate].
    exists t. apply type_code_inv; assumption.
  - intros (E & t & T). rewrite E, N.eqb_refl.
    rewrite (proj1 (type_code_inv _ _ _) T). eauto.
Qed.

Lemma extract_type v h x : extract_header v h = Some x ->
  type_code v (h_type x) = Some (type_field v h).
Proof.
  rewrite extract_header_arith. destruct (_ =? _); [|discriminate].
  destruct (type_of_code v (type_field v h)) as [t|] eqn:T; [|discriminate].
  intros E. injection E as <-. apply type_code_inv in T. destruct v; exact T.
Qed.

Lemma extract_fields v h x : extract_header v h = Some x ->
  h_wc x = (h / 256) mod wc_mod v /\
  h_id x = (h / match v with V1 => 2 ^ 17 | V2 => 2 ^ 16 end) mod id_mod v /\
  h_info x = match v with V1 => h mod 4 | V2 => h mod 16 end.
Proof.
  rewrite extract_header_arith. destruct (_ =? _); [|discriminate].
  destruct (type_of_code _ _); [|discriminate].
  intros E. injection E as <-. destruct v; repeat split.
Qed.
