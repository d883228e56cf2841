(** C107: the text of an integer denotes it. *)
From Coq Require Import NArith ZArith List Bool PeanoNat Ascii String Lia ZifyBool ZifyNat ZifyN.
From Verif Require Import Attr Prop_Attr IntText IntTextSpec.
Import ListNotations.
Open Scope Z_scope.

(** ** Values of lists of digits *)
Definition dv (c : ascii) : Z := match digit c with Some d => d | None => 0 end.
Definition isd (base : Z) (c : ascii) : Prop := exists d, digit c = Some d /\ 0 <= d < base.
Fixpoint val (base : Z) (ds : list ascii) : Z :=
  match ds with [] => 0 | c :: t => dv c * base ^ Z.of_nat (List.length t) + val base t end.

Lemma val_denotes base ds : ds <> [] -> Forall (isd base) ds -> denotes base ds (val base ds).
Proof.
  induction ds as [|c ds IH]; intros N F; [congruence|]. inversion F as [|? ? (d & E & D) F']; subst.
  destruct ds as [|c' ds].
  - cbn [val List.length]. unfold dv. rewrite E. replace (d * base ^ Z.of_nat 0 + 0) with d by (cbn [Z.of_nat]; rewrite Z.pow_0_r; lia). constructor; [assumption|lia].
  - cbn [val] in *. unfold dv at 1. rewrite E. apply (D_more base c d (c' :: ds)); [assumption|lia|]. apply IH; [discriminate|assumption].
Qed.
Lemma digit_pos c d : digit c = Some d -> 0 <= d.
Proof.
  unfold digit. set (n := Z.of_N (N_of_ascii c)). destruct ((48 <=? n) && (n <=? 57)) eqn:E; [intros H; injection H as <-; lia|].
  destruct ((65 <=? n) && (n <=? 70)) eqn:E'; [intros H; injection H as <-; lia|discriminate].
Qed.
Lemma denotes_val base ds n : denotes base ds n -> ds <> [] /\ Forall (isd base) ds /\ n = val base ds.
Proof.
  induction 1 as [c d E L|c d ds n E L D (N & F & V)].
  - split; [discriminate|]. assert (P := digit_pos _ _ E). split; [repeat constructor; exists d; auto|]. cbn [val List.length]. unfold dv. rewrite E. cbn [Z.of_nat]. rewrite Z.pow_0_r. lia.
  - split; [discriminate|]. assert (P := digit_pos _ _ E). split; [constructor; [exists d; auto|assumption]|]. cbn [val]. unfold dv. rewrite E, V. reflexivity.
Qed.
Lemma val_bound base ds : 1 < base -> Forall (isd base) ds -> 0 <= val base ds < base ^ Z.of_nat (List.length ds).
Proof.
  intros B. induction 1 as [|c ds (d & E & D) F IH]; [cbn; lia|]. cbn [val List.length]. unfold dv. rewrite E.
  rewrite Nat2Z.inj_succ, Z.pow_succ_r by lia. nia.
Qed.
Lemma val_app base a b : 1 < base -> val base (a ++ b) = val base a * base ^ Z.of_nat (List.length b) + val base b.
Proof.
  intros B. induction a as [|c a IH]; cbn [app val]; [lia|]. rewrite IH, app_length, Nat2Z.inj_add, Z.pow_add_r by lia. ring.
Qed.
Lemma val_zeros base k ds : val base (repeat "0"%char k ++ ds) = val base ds.
Proof. induction k as [|k IH]; [reflexivity|]. cbn [repeat app val]. rewrite IH. change (dv "0"%char) with 0. lia. Qed.
Lemma zeros_digits base k : 1 < base -> Forall (isd base) (repeat "0"%char k).
Proof. intros B. induction k; cbn; constructor; [exists 0; split; [reflexivity|lia]|assumption]. Qed.

(** Leading zeros taken away. *)
Fixpoint strip (ds : list ascii) : list ascii :=
  match ds with [] => [] | c :: t => if dv c =? 0 then strip t else ds end.
Lemma val_strip base ds : val base (strip ds) = val base ds.
Proof. induction ds as [|c ds IH]; [reflexivity|]. cbn [strip val]. destruct (Z.eqb_spec (dv c) 0) as [E|E]; [rewrite IH, E; lia|reflexivity]. Qed.
Lemma strip_digits base ds : Forall (isd base) ds -> Forall (isd base) (strip ds).
Proof. induction 1 as [|c ds D F IH]; [constructor|]. cbn [strip]. destruct (dv c =? 0); [assumption|constructor; assumption]. Qed.
Lemma strip_shortest base ds : val base ds <> 0 -> strip ds <> [] /\ shortest (strip ds).
Proof.
  induction ds as [|c ds IH]; [cbn; lia|]. cbn [strip val]. destruct (Z.eqb_spec (dv c) 0) as [E|E]; [rewrite E; intros H; apply IH; lia|].
  intros _. split; [discriminate|]. right. exists c, ds. split; [reflexivity|]. intros ->. apply E. reflexivity.
Qed.

(** The text of a number of given digits determines it. *)
Lemma val_inj base a b : denotes base a (val base a) -> a = b -> val base a = val base b.
Proof. intros _ ->. reflexivity. Qed.

(** ** Binary *)
Lemma bin_loop_digits bits n x : Forall (isd 2) (bin_loop bits n x) /\ List.length (bin_loop bits n x) = n.
Proof.
  revert x. induction n as [|n IH]; intros x; [split; constructor|]. cbn [bin_loop List.length]. destruct (IH ((2 * x) mod 2 ^ N.of_nat bits)%N) as (A & B). split; [|rewrite B; reflexivity].
  constructor; [|assumption]. destruct (N.testbit _ _); [exists 1|exists 0]; (split; [reflexivity|lia]).
Qed.
Lemma top_bit b x : (0 < b)%nat -> (x < 2 ^ N.of_nat b)%N ->
  let h := 2 ^ Z.of_nat (b - 1) in
  2 ^ Z.of_nat b = 2 * h /\ 0 < h /\
  (if N.testbit x (N.of_nat (b - 1)) then h <= Z.of_N x < 2 * h /\ Z.of_N ((2 * x) mod 2 ^ N.of_nat b) = 2 * (Z.of_N x - h)
   else 0 <= Z.of_N x < h /\ Z.of_N ((2 * x) mod 2 ^ N.of_nat b) = 2 * Z.of_N x).
Proof.
  intros B L h. assert (H2 : 2 ^ Z.of_nat b = 2 * h).
  { unfold h. replace (Z.of_nat b) with (Z.succ (Z.of_nat (b - 1))) by lia. rewrite Z.pow_succ_r by lia. reflexivity. }
  assert (HP : 0 < h) by (apply Z.pow_pos_nonneg; lia).
  assert (NB : Z.of_N (2 ^ N.of_nat b) = 2 * h) by (rewrite N2Z.inj_pow, nat_N_Z; exact H2).
  assert (HN : Z.of_N (2 ^ N.of_nat (b - 1)) = h) by (rewrite N2Z.inj_pow, nat_N_Z; reflexivity).
  assert (XB : 0 <= Z.of_N x < 2 * h) by lia.
  split; [exact H2|]. split; [exact HP|]. rewrite N2Z.inj_mod, N2Z.inj_mul, NB. change (Z.of_N 2) with 2.
  rewrite N.testbit_odd, N.shiftr_div_pow2. rewrite <- N.bit0_odd.
  assert (Q : (x / 2 ^ N.of_nat (b - 1))%N = if (Z.of_N x <? h) then 0%N else 1%N).
  { apply N2Z.inj. rewrite N2Z.inj_div, HN. destruct (Z.ltb_spec (Z.of_N x) h).
    - rewrite Z.div_small by lia. reflexivity.
    - symmetry. apply Z.div_unique with (r := Z.of_N x - h); change (Z.of_N 1) with 1; lia. }
  rewrite Q. destruct (Z.ltb_spec (Z.of_N x) h).
  - change (N.testbit 0 0) with false. cbn iota. split; [lia|]. apply Z.mod_small. lia.
  - change (N.testbit 1 0) with true. cbn iota. split; [lia|]. symmetry. apply Z.mod_unique with (q := 1); lia.
Qed.
Lemma bin_loop_val bits : (0 < bits)%nat -> forall n x, (n <= bits)%nat -> (x < 2 ^ N.of_nat bits)%N ->
  let w := 2 ^ Z.of_nat (bits - n) in val 2 (bin_loop bits n x) * w <= Z.of_N x < (val 2 (bin_loop bits n x) + 1) * w.
Proof.
  intros B. induction n as [|n IH]; intros x L X w.
  - cbn [bin_loop val]. unfold w. rewrite Nat.sub_0_r. assert (Z.of_N x < 2 ^ Z.of_nat bits) by (rewrite <- nat_N_Z, <- (N2Z.inj_pow 2); lia). lia.
  - cbn [bin_loop val]. rewrite (proj2 (bin_loop_digits bits n _)).
    destruct (top_bit bits x B X) as (P1 & P2 & P3). set (h := 2 ^ Z.of_nat (bits - 1)) in *.
    assert (X' : ((2 * x) mod 2 ^ N.of_nat bits < 2 ^ N.of_nat bits)%N) by (apply N.mod_lt; apply N.pow_nonzero; lia).
    specialize (IH ((2 * x) mod 2 ^ N.of_nat bits)%N ltac:(lia) X'). cbv zeta in IH.
    assert (W : 2 ^ Z.of_nat (bits - n) = 2 * w).
    { unfold w. replace (Z.of_nat (bits - n)) with (Z.succ (Z.of_nat (bits - S n))) by lia. rewrite Z.pow_succ_r by lia. reflexivity. }
    assert (HW : h = 2 ^ Z.of_nat n * w) by (unfold h, w; rewrite <- Z.pow_add_r by lia; f_equal; lia).
    rewrite W in IH. set (y := val 2 (bin_loop bits n ((2 * x) mod 2 ^ N.of_nat bits)%N)) in *. assert (0 < w) by (apply Z.pow_pos_nonneg; lia).
    set (k := 2 ^ Z.of_nat n) in *. clearbody y k w h. replace (y * (2 * w)) with (2 * (y * w)) in IH by ring. replace ((y + 1) * (2 * w)) with (2 * (y * w) + 2 * w) in IH by ring.
    destruct (N.testbit x (N.of_nat (bits - 1))); destruct P3 as (P3 & P4); rewrite P4 in IH;
      [change (dv "1"%char) with 1|change (dv "0"%char) with 0].
    + replace ((1 * k + y) * w) with (h + y * w) by (rewrite HW; ring). replace ((1 * k + y + 1) * w) with (h + y * w + w) by (rewrite HW; ring). lia.
    + replace ((0 * k + y) * w) with (y * w) by ring. replace ((0 * k + y + 1) * w) with (y * w + w) by ring. lia.
Qed.
Lemma bin_val bits x : (0 < bits)%nat -> (x < 2 ^ N.of_nat bits)%N -> val 2 (bin_loop bits bits x) = Z.of_N x.
Proof. intros B X. assert (H := bin_loop_val bits B bits x ltac:(lia) X). cbv zeta in H. rewrite Nat.sub_diag in H. change (2 ^ Z.of_nat 0) with 1 in H. lia. Qed.
Lemma bin_var bits : forall n x p, bin_loop_var bits n x p = if p then bin_loop bits n x else strip (bin_loop bits n x).
Proof.
  induction n as [|n IH]; intros x p; [destruct p; reflexivity|]. cbn [bin_loop bin_loop_var strip]. rewrite IH.
  destruct p; destruct (N.testbit _ _); reflexivity.
Qed.

(** ** Hexadecimal *)
Lemma hex_char_ok d : (d < 16)%N -> digit (hex_char d) = Some (Z.of_N d).
Proof.
  intros H. assert (X : forallb (fun k => match digit (hex_char (N.of_nat k)) with Some z => z =? Z.of_nat k | None => false end) (seq 0 16) = true) by (vm_compute; reflexivity).
  rewrite forallb_forall in X. specialize (X (N.to_nat d) ltac:(apply in_seq; lia)). rewrite N2Nat.id in X. destruct (digit (hex_char d)) as [z|]; [|discriminate]. f_equal. lia.
Qed.
Lemma nibbles b : (b < 256)%N -> N.shiftr (N.land b 0xF0) 4 = (b / 16)%N /\ N.land b 0x0F = (b mod 16)%N.
Proof.
  intros H. assert (X : forallb (fun k => let b := N.of_nat k in N.eqb (N.shiftr (N.land b 0xF0) 4) (b / 16)%N && N.eqb (N.land b 0x0F) (b mod 16)%N) (seq 0 256) = true) by (vm_compute; reflexivity).
  rewrite forallb_forall in X. specialize (X (N.to_nat b) ltac:(apply in_seq; lia)). cbv zeta in X. rewrite N2Nat.id in X. apply andb_true_iff in X as (A & B).
  split; apply N.eqb_eq; assumption.
Qed.
Lemma byte_lt x m : (byte_at x m < 256)%N.
Proof. unfold byte_at. apply N.mod_lt. discriminate. Qed.
Lemma hex_loop_digits n x : Forall (isd 16) (hex_loop n x) /\ List.length (hex_loop n x) = (2 * n)%nat.
Proof.
  induction n as [|n (A & B)]; [split; constructor|]. cbn [hex_loop List.length]. rewrite B. split; [|lia].
  destruct (nibbles _ (byte_lt x n)) as (-> & ->). assert (L := byte_lt x n).
  assert ((byte_at x n / 16 < 16)%N) by (apply N.div_lt_upper_bound; lia). assert ((byte_at x n mod 16 < 16)%N) by (apply N.mod_lt; discriminate).
  constructor; [|constructor; [|assumption]]; (eexists; split; [apply hex_char_ok; assumption|lia]).
Qed.
Lemma hex_val n x : val 16 (hex_loop n x) = Z.of_N (x mod 2 ^ (8 * N.of_nat n)).
Proof.
  induction n as [|n IH]; [cbn [hex_loop val]; rewrite N.mul_0_r, N.pow_0_r, N.mod_1_r; reflexivity|].
  cbn [hex_loop val List.length]. rewrite (proj2 (hex_loop_digits n x)), IH. destruct (nibbles _ (byte_lt x n)) as (-> & ->).
  assert (L := byte_lt x n).
  unfold dv. rewrite !hex_char_ok by (first [apply N.mod_lt; discriminate|apply N.div_lt_upper_bound; lia]).
  set (P := (2 ^ (8 * N.of_nat n))%N).
  assert (P16 : 16 ^ Z.of_nat (2 * n) = Z.of_N P).
  { unfold P. rewrite N2Z.inj_pow. change (Z.of_N 2) with 2. change 16 with (2 ^ 4). rewrite <- Z.pow_mul_r by lia. f_equal. lia. }
  rewrite Nat2Z.inj_succ, Z.pow_succ_r, P16 by lia.
  assert (PS : (2 ^ (8 * N.of_nat (S n)) = P * 256)%N) by (unfold P; replace (8 * N.of_nat (S n))%N with (8 * N.of_nat n + 8)%N by lia; rewrite N.pow_add_r; reflexivity).
  rewrite PS, N.mod_mul_r by (try discriminate; apply N.pow_nonzero; discriminate). unfold byte_at in *. fold P in L |- *.
  set (b := ((x / P) mod 256)%N) in *. assert (D := N.div_mod b 16 ltac:(discriminate)). rewrite N2Z.inj_add, N2Z.inj_mul.
  assert (DZ : Z.of_N b = 16 * Z.of_N (b / 16) + Z.of_N (b mod 16)) by (clearbody b; rewrite D at 1; rewrite N2Z.inj_add, N2Z.inj_mul; reflexivity). rewrite DZ. ring.
Qed.
Lemma hex_var n x : forall p, hex_loop_var n x p = if p then hex_loop n x else strip (hex_loop n x).
Proof.
  induction n as [|n IH]; intros p; [destruct p; reflexivity|]. cbn [hex_loop hex_loop_var]. rewrite IH.
  destruct (nibbles _ (byte_lt x n)) as (-> & ->). assert (L := byte_lt x n).
  assert (D1 : (byte_at x n / 16 < 16)%N) by (apply N.div_lt_upper_bound; lia). assert (D2 : (byte_at x n mod 16 < 16)%N) by (apply N.mod_lt; discriminate).
  destruct p; [reflexivity|]. cbn [orb strip]. unfold dv. rewrite !hex_char_ok by assumption.
  destruct (N.eqb_spec (byte_at x n / 16) 0) as [E|E]; cbn [negb orb].
  - rewrite E. change (Z.of_N 0 =? 0) with true. cbn iota. destruct (N.eqb_spec (byte_at x n mod 16) 0) as [E'|E']; cbn [negb].
    + rewrite E'. reflexivity.
    + destruct (Z.eqb_spec (Z.of_N (byte_at x n mod 16)) 0); [lia|]. reflexivity.
  - destruct (Z.eqb_spec (Z.of_N (byte_at x n / 16)) 0); [lia|]. reflexivity.
Qed.

(** ** Decimal *)
Lemma digit_zero c : digit c = Some 0 -> c = "0"%char.
Proof.
  unfold digit. intros H. rewrite <- (ascii_N_embedding c). set (n := N_of_ascii c) in *. replace n with 48%N; [reflexivity|].
  destruct ((48 <=? Z.of_N n) && (Z.of_N n <=? 57)) eqn:E; [injection H as H; lia|]. destruct ((65 <=? Z.of_N n) && (Z.of_N n <=? 70)) eqn:E'; [injection H as H; lia|discriminate].
Qed.
Lemma centre_ok d : -9 <= d <= 9 -> exists c, centre_char d = Some c /\ digit c = Some (Z.abs d).
Proof.
  intros H. assert (X : forallb (fun k => match centre_char (Z.of_nat k - 9) with Some c => match digit c with Some z => z =? Z.abs (Z.of_nat k - 9) | None => false end | None => false end) (seq 0 19) = true) by (vm_compute; reflexivity).
  rewrite forallb_forall in X. specialize (X (Z.to_nat (d + 9)) ltac:(apply in_seq; lia)). replace (Z.of_nat (Z.to_nat (d + 9)) - 9) with d in X by lia.
  destruct (centre_char d) as [c|]; [|discriminate]. exists c. split; [reflexivity|]. destruct (digit c) as [z|]; [|discriminate]. f_equal. lia.
Qed.
Lemma dec_ok : forall r v, Z.abs v < 10 ^ Z.of_nat r -> (0 < r)%nat -> exists l, dec_loop r v = Some l /\
  rev l <> [] /\ Forall (isd 10) (rev l) /\ val 10 (rev l) = Z.abs v /\ (v = 0 -> l = ["0"%char]) /\ (v <> 0 -> exists c t, rev l = c :: t /\ c <> "0"%char).
Proof.
  induction r as [|r IH]; intros v A P; [lia|]. cbn [dec_loop].
  assert (Q := Z.quot_rem' v 10). assert (R := Z.rem_bound_abs v 10 ltac:(lia)).
  assert (QA : Z.abs (Z.quot v 10) * 10 + Z.abs (Z.rem v 10) = Z.abs v).
  { assert (S := Z.quot_abs v 10 ltac:(lia)). assert (S' := Z.rem_abs v 10 ltac:(lia)). change (Z.abs 10) with 10 in *.
    assert (T := Z.quot_rem' (Z.abs v) 10). lia. }
  replace (v - Z.quot v 10 * 10) with (Z.rem v 10) by lia.
  destruct (centre_ok (Z.rem v 10) ltac:(lia)) as (c & -> & D).
  assert (DV : dv c = Z.abs (Z.rem v 10)) by (unfold dv; rewrite D; reflexivity).
  assert (ID : isd 10 c) by (exists (Z.abs (Z.rem v 10)); split; [assumption|lia]).
  destruct (Z.eqb_spec (Z.quot v 10) 0) as [E|E].
  - exists [c]. split; [reflexivity|]. cbn [rev app]. split; [discriminate|]. split; [repeat constructor; assumption|].
    split; [cbn [val List.length]; rewrite DV; cbn [Z.of_nat]; rewrite Z.pow_0_r; lia|]. split.
    + intros ->. vm_compute in D. f_equal. apply digit_zero. exact D.
    + intros N. exists c, []. split; [reflexivity|]. intros ->. change (dv "0"%char) with 0 in DV. lia.
  - assert (r <> 0)%nat by (intros ->; change (10 ^ Z.of_nat 1) with 10 in A; lia).
    rewrite Nat2Z.inj_succ, Z.pow_succ_r in A by lia.
    destruct (IH (Z.quot v 10) ltac:(lia) ltac:(lia)) as (l & -> & N & F & V & _ & SH). exists (c :: l). split; [reflexivity|]. cbn [rev].
    split; [destruct (rev l); discriminate|]. split; [apply Forall_app; split; [assumption|repeat constructor; assumption]|].
    split; [rewrite val_app, V by lia; cbn [val List.length Z.of_nat]; rewrite DV; change (Z.of_nat 1) with 1; rewrite Z.pow_1_r, Z.pow_0_r; lia|]. split.
    + intros ->. exfalso. apply E. reflexivity.
    + intros _. destruct (SH E) as (c' & t & -> & NZ). exists c', (t ++ [c]). split; [reflexivity|assumption].
Qed.

(** ** The theorems *)
Lemma bits_nat t : Z.of_nat (8 * it_bytes t) = bits_of t.
Proof. unfold bits_of. lia. Qed.
Lemma type_pos t : integer_type t -> (0 < it_bytes t <= 8)%nat.
Proof. intros [H|[H|[H|[H|[]]]]]; lia. Qed.
Lemma half t : integer_type t -> 2 ^ bits_of t = 2 * 2 ^ (bits_of t - 1).
Proof. intros T. apply type_pos in T. replace (bits_of t) with (Z.succ (bits_of t - 1)) at 1 by lia. rewrite Z.pow_succ_r; [reflexivity|]. unfold bits_of. lia. Qed.
Lemma raw_unsigned t v : integer_type t -> in_range t v -> Z.of_N (raw t v) = unsigned t v /\ (raw t v < 2 ^ N.of_nat (8 * it_bytes t))%N /\ (v <> 0 -> unsigned t v <> 0).
Proof.
  intros T R. assert (H := half t T). assert (P : 0 < 2 ^ (bits_of t - 1)) by (apply Z.pow_pos_nonneg; [lia|]; apply type_pos in T; unfold bits_of; lia).
  unfold raw. rewrite bits_nat. assert (M := Z.mod_pos_bound v (2 ^ bits_of t) ltac:(lia)).
  assert (V : v mod 2 ^ bits_of t = unsigned t v /\ (v <> 0 -> unsigned t v <> 0)).
  { unfold in_range in R. unfold unsigned. destruct (it_signed t); destruct (Z.ltb_spec v 0); (split; [|lia]); try lia; try (apply Z.mod_small; lia).
    symmetry. apply Z.mod_unique with (q := -1); lia. }
  destruct V as (V & NZ). split; [rewrite Z2N.id by lia; exact V|]. split; [|exact NZ].
  apply N2Z.inj_lt. rewrite Z2N.id, N2Z.inj_pow, nat_N_Z, bits_nat by lia. change (Z.of_N 2) with 2. lia.
Qed.
Lemma abs_small t v : integer_type t -> in_range t v -> Z.abs v < 10 ^ Z.of_nat 24.
Proof.
  intros T R. assert (H := half t T). assert (L : 2 ^ bits_of t <= 2 ^ 64) by (apply Z.pow_le_mono_r; [lia|]; apply type_pos in T; unfold bits_of; lia).
  assert (2 ^ 64 < 10 ^ Z.of_nat 24) by (vm_compute; reflexivity). unfold in_range in R. destruct (it_signed t); lia.
Qed.
Lemma sign_front t v : integer_type t -> in_range t v -> sign t v = front t Dec v.
Proof. intros T R. unfold sign, front, in_range in *. destruct (it_signed t); [reflexivity|]. destruct (Z.ltb_spec v 0); [lia|reflexivity]. Qed.
Lemma pad_eq w n : 0 <= w < 2 ^ 31 -> 0 <= n < 2 ^ 31 -> pad w n = repeat "0"%char (Z.to_nat (w - n)).
Proof.
  intros W L. unfold pad, to_int32. change (2 ^ 31) with 2147483648 in *. change (2 ^ 32) with 4294967296 in *.
  destruct (Z.leb_spec n w).
  - rewrite Z.mod_small by lia. destruct (Z.ltb_spec (w - n) 2147483648); [|lia]. destruct (Z.ltb_spec 0 (w - n)); [reflexivity|].
    replace (w - n) with 0 by lia. reflexivity.
  - replace ((w - n) mod 4294967296) with (w - n + 4294967296) by (apply Z.mod_unique with (q := -1); lia).
    destruct (Z.ltb_spec (w - n + 4294967296) 2147483648); [lia|]. destruct (Z.ltb_spec 0 (w - n + 4294967296 - 4294967296)); [lia|].
    replace (Z.to_nat (w - n)) with 0%nat by lia. reflexivity.
Qed.

(** In variable format: what belongs in front, then the shortest digits that denote the
    number; for every type and value. *)
Theorem C107_variable : forall t b w v, integer_type t -> in_range t v ->
  exists ds, print t b Variable_ w v = Some (front t b v ++ ds) /\ denotes (base_of b) ds (amount t b v) /\ shortest ds.
Proof.
  intros t b w v T R. destruct (raw_unsigned t v T R) as (RU & RL & NZ). assert (TP := type_pos t T). destruct b; cbn [print base_of amount].
  - unfold print_bin_variable. destruct (Z.eqb_spec v 0) as [->|N].
    + exists ["0"%char]. split; [reflexivity|]. split; [|left; reflexivity]. change (unsigned t 0) with 0. constructor; [reflexivity|lia].
    + rewrite bin_var. exists (strip (bin_loop (8 * it_bytes t) (8 * it_bytes t) (raw t v))). split; [reflexivity|].
      assert (V := bin_val (8 * it_bytes t) (raw t v) ltac:(lia) RL). rewrite RU in V.
      destruct (strip_shortest 2 _ ltac:(rewrite V; exact (NZ N))) as (S1 & S2). split; [|exact S2].
      rewrite <- V, <- val_strip. apply val_denotes; [exact S1|]. apply strip_digits, bin_loop_digits.
  - unfold print_dec_variable. destruct (dec_ok 24 v (abs_small t v T R) ltac:(lia)) as (l & -> & N & F & V & Z0 & NZ').
    exists (rev l). rewrite (sign_front t v T R). split; [reflexivity|]. split; [rewrite <- V; apply val_denotes; assumption|].
    destruct (Z.eq_dec v 0) as [E|E]; [left; rewrite (Z0 E); reflexivity|right; apply NZ'; assumption].
  - unfold print_hex_variable. destruct (Z.eqb_spec v 0) as [->|N].
    + exists ["0"%char]. split; [reflexivity|]. split; [|left; reflexivity]. change (unsigned t 0) with 0. constructor; [reflexivity|lia].
    + rewrite hex_var. exists (strip (hex_loop (it_bytes t) (raw t v))). split; [reflexivity|].
      assert (V := hex_val (it_bytes t) (raw t v)). replace (8 * N.of_nat (it_bytes t))%N with (N.of_nat (8 * it_bytes t)) in V by lia. rewrite N.mod_small, RU in V by exact RL.
      destruct (strip_shortest 16 _ ltac:(rewrite V; exact (NZ N))) as (S1 & S2). split; [|exact S2].
      rewrite <- V, <- val_strip. apply val_denotes; [exact S1|]. apply strip_digits, hex_loop_digits.
Qed.

(** In fixed format: the same with zeros in front, as many digits as the width says or,
    if these are more, as all bits take (binary, hexadecimal) or as are needed (decimal). *)
Theorem C107_fixed : forall t b w v, integer_type t -> in_range t v -> 0 <= w < 2 ^ 31 ->
  exists ds, print t b Fixed w v = Some (front t b v ++ ds) /\ denotes (base_of b) ds (amount t b v) /\
    match b with
    | Dec => exists k short, ds = repeat "0"%char k ++ short /\ shortest short /\ Z.of_nat (List.length ds) = Z.max w (Z.of_nat (List.length short))
    | _ => Z.of_nat (List.length ds) = Z.max w (least t b)
    end.
Proof.
  intros t b w v T R W. destruct (raw_unsigned t v T R) as (RU & RL & NZ). assert (TP := type_pos t T).
  assert (W31 : 2 ^ 31 = 2147483648) by reflexivity. destruct b; cbn [print base_of amount least].
  - unfold print_bin_fixed. rewrite pad_eq by lia. eexists. split; [cbn [front list_ascii_of_string app]; reflexivity|].
    destruct (bin_loop_digits (8 * it_bytes t) (8 * it_bytes t) (raw t v)) as (F & L).
    assert (V := bin_val (8 * it_bytes t) (raw t v) ltac:(lia) RL). rewrite RU in V. split.
    + rewrite <- V, <- (val_zeros 2 (Z.to_nat (w - Z.of_nat (8 * it_bytes t)))). apply val_denotes.
      * intros E. apply (f_equal (@List.length ascii)) in E. rewrite app_length, L in E. cbn in E. lia.
      * apply Forall_app. split; [apply zeros_digits; lia|exact F].
    + rewrite app_length, repeat_length, L. rewrite <- bits_nat. lia.
  - unfold print_dec_fixed. destruct (dec_ok 24 v (abs_small t v T R) ltac:(lia)) as (l & E & N & F & V & Z0 & NZ'). rewrite E.
    assert (LL : (List.length l <= 24)%nat).
    { clear - E. revert v l E. generalize 24%nat as r. induction r as [|r IH]; intros v l E; [discriminate|]. cbn [dec_loop] in E. destruct (centre_char _); [|discriminate].
      destruct (Z.quot v 10 =? 0); [injection E as <-; cbn; lia|]. destruct (dec_loop r (Z.quot v 10)) as [l'|] eqn:E'; [|discriminate]. injection E as <-. cbn [List.length]. specialize (IH _ _ E'). lia. }
    rewrite pad_eq by lia. rewrite (sign_front t v T R). eexists. split; [reflexivity|]. split.
    + rewrite <- V, <- (val_zeros 10 (Z.to_nat (w - Z.of_nat (List.length l)))). apply val_denotes.
      * intros X. apply app_eq_nil in X as (_ & X). contradiction.
      * apply Forall_app. split; [apply zeros_digits; lia|exact F].
    + do 2 eexists. split; [reflexivity|]. split.
      * destruct (Z.eq_dec v 0) as [X|X]; [left; rewrite (Z0 X); reflexivity|right; apply NZ'; assumption].
      * rewrite app_length, repeat_length, rev_length. lia.
  - unfold print_hex_fixed. rewrite pad_eq by lia. eexists. split; [cbn [front list_ascii_of_string app]; reflexivity|].
    destruct (hex_loop_digits (it_bytes t) (raw t v)) as (F & L).
    assert (V := hex_val (it_bytes t) (raw t v)). replace (8 * N.of_nat (it_bytes t))%N with (N.of_nat (8 * it_bytes t)) in V by lia. rewrite N.mod_small, RU in V by exact RL. split.
    + rewrite <- V, <- (val_zeros 16 (Z.to_nat (w - Z.of_nat (2 * it_bytes t)))). apply val_denotes.
      * intros E. apply (f_equal (@List.length ascii)) in E. rewrite app_length, L in E. cbn in E. lia.
      * apply Forall_app. split; [apply zeros_digits; lia|exact F].
    + rewrite app_length, repeat_length, L. unfold bits_of. replace (8 * Z.of_nat (it_bytes t)) with (Z.of_nat (it_bytes t) * 2 * 4) by lia. rewrite Z.div_mul by lia. lia.
Qed.

(** So different values of a type have different texts, in every format. *)
Theorem C107_different : forall t b f w v v', integer_type t -> in_range t v -> in_range t v' -> 0 <= w < 2 ^ 31 ->
  print t b f w v = print t b f w v' -> v = v'.
Proof.
  intros t b f w v v' T R R' W E.
  assert (K : forall u, in_range t u -> exists ds, print t b f w u = Some (front t b u ++ ds) /\ denotes (base_of b) ds (amount t b u)).
  { intros u U. destruct f; [destruct (C107_fixed t b w u T U W) as (ds & A & B & _)|destruct (C107_variable t b w u T U) as (ds & A & B & _)]; eauto. }
  destruct (K v R) as (ds & P & D). destruct (K v' R') as (ds' & P' & D'). rewrite P, P' in E. assert (X : front t b v ++ ds = front t b v' ++ ds') by congruence.
  apply denotes_val in D as (N & F & V). apply denotes_val in D' as (N' & F' & V').
  assert (UI : unsigned t v = unsigned t v' -> v = v').
  { assert (H := half t T). unfold in_range, unsigned in *. destruct (it_signed t); destruct (Z.ltb_spec v 0); destruct (Z.ltb_spec v' 0); lia. }
  destruct b; cbn [front amount app] in *.
  - injection X as ->. apply UI. congruence.
  - assert (M : forall l, Forall (isd 10) l -> forall r, "-"%char :: r <> l).
    { intros l Fl r X'. rewrite <- X' in Fl. inversion Fl as [|? ? (d & A & _) _]. vm_compute in A. discriminate. }
    destruct (Z.ltb_spec v 0); destruct (Z.ltb_spec v' 0); cbn [app] in X.
    + injection X as ->. lia.
    + exfalso. exact (M ds' F' _ X).
    + exfalso. symmetry in X. exact (M ds F _ X).
    + subst ds'. lia.
  - injection X as ->. apply UI. congruence.
Qed.

(** A value in a message can be put into an address table: what is printed in decimal or
    hexadecimal with up to ten digits is read there as the same number. *)
Definition u32 : itype := mkT 4 false.
Lemma digit_in (hex : bool) c d : digit c = Some d -> d < (if hex then 16 else 10) -> In (c, Z.to_N d) (if hex then hex_digits else dec_digits).
Proof.
  intros D L. assert (X : forallb (fun k => let c := ascii_of_nat k in match digit c with Some d => (implb (d <? (if hex then 16 else 10)) (existsb (fun p => Ascii.eqb (fst p) c && N.eqb (snd p) (Z.to_N d)) (if hex then hex_digits else dec_digits))) | None => true end) (seq 0 256) = true) by (destruct hex; vm_compute; reflexivity).
  rewrite forallb_forall in X. specialize (X (nat_of_ascii c) ltac:(apply in_seq; assert (H := nat_ascii_bounded c); lia)). cbv zeta in X. rewrite ascii_nat_embedding, D in X.
  replace (d <? (if hex then 16 else 10)) with true in X by (destruct (Z.ltb_spec d (if hex then 16 else 10)); [reflexivity|lia]). cbn [implb] in X.
  apply existsb_exists in X as ([c' d'] & I & E). cbn [fst snd] in E. apply andb_true_iff in E as (E1 & E2). apply Ascii.eqb_eq in E1. apply N.eqb_eq in E2. subst. exact I.
Qed.
Lemma string_length l : String.length (string_of_list_ascii l) = List.length l.
Proof. induction l as [|c l IH]; [reflexivity|]. cbn. rewrite IH. reflexivity. Qed.
Lemma to_numeral (hex : bool) ds n : IntTextSpec.denotes (if hex then 16 else 10) ds n ->
  numeral (if hex then 16 else 10)%N (if hex then hex_digits else dec_digits) (string_of_list_ascii ds) (Z.to_N n).
Proof.
  induction 1 as [c d D L|c d ds n D L H IH].
  - cbn [string_of_list_ascii]. apply num_one. apply digit_in; assumption.
  - assert (P := digit_pos _ _ D). apply denotes_val in H as (_ & F & V). assert (B := val_bound (if hex then 16 else 10) ds ltac:(destruct hex; lia) F). rewrite <- V in B.
    assert (PP : 0 <= (if hex then 16 else 10) ^ Z.of_nat (List.length ds)) by (apply Z.pow_nonneg; destruct hex; lia).
    rewrite Z2N.inj_add, Z2N.inj_mul by nia. rewrite Z2N.inj_pow by (destruct hex; lia). cbn [string_of_list_ascii].
    replace (Z.to_N (Z.of_nat (List.length ds))) with (N.of_nat (String.length (string_of_list_ascii ds))) by (rewrite string_length; lia).
    replace (Z.to_N (if hex then 16 else 10)) with (if hex then 16 else 10)%N by (destruct hex; reflexivity).
    apply num_more; [apply digit_in; assumption|exact IH].
Qed.
Lemma shortest_length base ds n k : 1 < base -> IntTextSpec.denotes base ds n -> shortest ds -> n < base ^ Z.of_nat k -> (0 < k)%nat -> (List.length ds <= k)%nat.
Proof.
  intros B D S L K. destruct S as [->|(c & t & -> & N)]; [cbn; lia|]. apply denotes_val in D as (_ & F & V). cbn [val] in V. inversion F as [|? ? (d & E & R) F']; subst.
  assert (VB := val_bound base t B F'). assert (d <> 0) by (intros ->; apply N, digit_zero; assumption). unfold dv in L. rewrite E in L.
  assert (0 < base ^ Z.of_nat (List.length t)) by (apply Z.pow_pos_nonneg; lia).
  assert (base ^ Z.of_nat (List.length t) < base ^ Z.of_nat k) by nia. apply Z.pow_lt_mono_r_iff in H1; [cbn [List.length]; lia|lia|lia].
Qed.
Lemma string_front l : string_of_list_ascii (["0"; "x"]%char ++ l) = ("0x" ++ string_of_list_ascii l)%string.
Proof. reflexivity. Qed.

Theorem C107_read_back : forall b f w v, b <> Bin -> 0 <= w <= 10 -> 0 <= v < 2 ^ 32 ->
  exists text, print u32 b f w v = Some text /\ parse_u32 (string_of_list_ascii text) = Some (Z.to_N v).
Proof.
  intros b f w v NB W V. assert (T : integer_type u32) by (cbn; tauto). assert (R : in_range u32 v) by exact V. assert (P32 : 2 ^ 32 = 4294967296) by reflexivity.
  assert (K : exists ds, print u32 b f w v = Some (front u32 b v ++ ds) /\ IntTextSpec.denotes (base_of b) ds v /\ (List.length ds <= 10)%nat).
  { assert (AM : amount u32 b v = v) by (destruct b; cbn [amount]; unfold unsigned; destruct (Z.ltb_spec v 0); lia).
    destruct f.
    - destruct (C107_fixed u32 b w v T R ltac:(assert (2 ^ 31 = 2147483648) by reflexivity; lia)) as (ds & A & B & C). rewrite AM in B. exists ds. split; [exact A|]. split; [exact B|].
      destruct b; [congruence| |change (least u32 Hex) with 8 in C; lia]. destruct C as (k & short & -> & S & L). cbn [base_of] in B.
      apply denotes_val in B as (_ & F & E). rewrite val_zeros in E. apply Forall_app in F as (_ & F).
      assert (NS : short <> []) by (destruct S as [->|(c & t & -> & _)]; discriminate).
      assert (SL := shortest_length 10 short v 10 ltac:(lia) ltac:(rewrite E; apply val_denotes; assumption) S ltac:(change (10 ^ Z.of_nat 10) with 10000000000; lia) ltac:(lia)). lia.
    - destruct (C107_variable u32 b w v T R) as (ds & A & B & C). rewrite AM in B. exists ds. split; [exact A|]. split; [exact B|].
      apply (shortest_length (base_of b) ds v 10); [destruct b; cbn; lia|exact B|exact C| |lia]. destruct b; [congruence| |]; cbn [base_of].
      + change (10 ^ Z.of_nat 10) with 10000000000. lia.
      + change (16 ^ Z.of_nat 10) with 1099511627776. lia. }
  destruct K as (ds & A & B & L). eexists. split; [exact A|]. apply C38_number. exists (List.length ds). destruct b; [congruence| |]; cbn [front base_of] in *.
  - destruct (Z.ltb_spec v 0); [lia|]. cbn [app]. split; [|split; [exact L|lia]]. rewrite <- string_length. apply den_dec. exact (to_numeral false ds v B).
  - rewrite string_front. split; [|split; [exact L|lia]]. rewrite <- string_length. apply (den_hex "0x"); [cbn; tauto|]. exact (to_numeral true ds v B).
Qed.
Example C107_read_back_case : Hex <> Bin /\ 0 <= 10 <= 10 /\ 0 <= 0xBEEF < 2 ^ 32 /\ print u32 Hex Fixed 10 0xBEEF = Some (list_ascii_of_string "0x000000BEEF") /\
  parse_u32 "0x000000BEEF" = Some 0xBEEF%N /\ print u32 Hex Fixed 11 0xBEEF = Some (list_ascii_of_string "0x0000000BEEF") /\ parse_u32 "0x0000000BEEF" = None.
Proof. split; [discriminate|]. split; [lia|]. split; [split; [lia|reflexivity]|]. repeat split. Qed.

Definition i16 : itype := mkT 2 true.

Example C107_variable_case : integer_type i16 /\ in_range i16 (-32768) /\
  print i16 Dec Variable_ 0 (-32768) = Some (list_ascii_of_string "-32768") /\ print i16 Hex Variable_ 0 (-2) = Some (list_ascii_of_string "0xFFFE") /\
  print i16 Bin Variable_ 0 10 = Some (list_ascii_of_string "0b1010") /\ amount i16 Hex (-2) = 65534.
Proof. split; [cbn; tauto|]. split; [vm_compute; split; [discriminate|reflexivity]|]. repeat split. Qed.
Example C107_fixed_case : integer_type i16 /\ in_range i16 (-42) /\ 0 <= 6 < 2 ^ 31 /\
  print i16 Dec Fixed 6 (-42) = Some (list_ascii_of_string "-000042") /\ print i16 Hex Fixed 6 (-42) = Some (list_ascii_of_string "0x00FFD6") /\
  print u32 Hex Fixed 0 0xBEEF = Some (list_ascii_of_string "0x0000BEEF") /\ print (mkT 1 false) Bin Fixed 0 5 = Some (list_ascii_of_string "0b00000101").
Proof. split; [cbn; tauto|]. split; [vm_compute; split; [discriminate|reflexivity]|]. split; [vm_compute; split; [discriminate|reflexivity]|]. repeat split. Qed.
Example C107_different_case : in_range i16 (-1) /\ in_range i16 255 /\ print i16 Hex Variable_ 0 (-1) <> print i16 Hex Variable_ 0 255.
Proof. split; [vm_compute; split; [discriminate|reflexivity]|]. split; [vm_compute; split; [discriminate|reflexivity]|]. vm_compute. discriminate. Qed.

Print Assumptions C107_variable.
Print Assumptions C107_fixed.
Print Assumptions C107_different.
Print Assumptions C107_read_back.
