(** C119: words and vectors of words as objects of Python. *)
From Coq Require Import NArith ZArith QArith List Bool String Ascii Lia PeanoNat ZifyBool ZifyNat ZifyN.
From Verif Require Import Word PyVal.
From Verif Require ValMem OverlapText.
Import ListNotations.
Open Scope Z_scope.
Ltac Zify.zify_post_hook ::= Z.div_mod_to_equations.

(** ** Specification *)

(** l[i] of a list of Python: negative indices count from the end. *)
Definition item (l : list N) (i : Z) (x : N) : Prop :=
  exists j, nth_error l j = Some x /\ (i = Z.of_nat j \/ i = Z.of_nat j - Z.of_nat (List.length l)).

(** l[a:b:c] of a list of Python (the library reference, on sequences): steps of [k]
    from [i] for as long as [j] is not reached or passed. *)
Definition before (i j k : Z) : Prop := 0 < k /\ i < j \/ k < 0 /\ j < i.
Inductive picks (l : list N) (j k : Z) : Z -> list N -> Prop :=
| picks_end i : ~ before i j k -> picks l j k i []
| picks_more i x r : before i j k -> 0 <= i -> nth_error l (Z.to_nat i) = Some x -> picks l j k (i + k) r -> picks l j k i (x :: r).
(** An end of a slice: given or not, from the end if negative, within [lo] and [hi]. *)
Definition bound (len lo hi default : Z) (o : option Z) : Z :=
  match o with None => default | Some a => Z.max lo (Z.min hi (if a <? 0 then a + len else a)) end.
Definition sliced (l : list N) (s : slice) (r : list N) : Prop :=
  let n := Z.of_nat (List.length l) in
  let k := match sl_step s with None => 1 | Some k => k end in
  0 < k /\ picks l (bound n 0 n n (sl_stop s)) k (bound n 0 n 0 (sl_start s)) r \/
  k < 0 /\ picks l (bound n (-1) (n - 1) (-1) (sl_stop s)) k (bound n (-1) (n - 1) (n - 1) (sl_start s)) r.

(** The text of a number: decimal digits that mean it, without zeros in front. *)
Definition dec_digits : list (ascii * N) :=
  [("0", 0); ("1", 1); ("2", 2); ("3", 3); ("4", 4); ("5", 5); ("6", 6); ("7", 7); ("8", 8); ("9", 9)]%char%N.
Fixpoint digit_value (c : ascii) (l : list (ascii * N)) : option N :=
  match l with [] => None | (d, v) :: r => if Ascii.eqb c d then Some v else digit_value c r end.
Fixpoint means (acc : N) (s : list ascii) : option N :=
  match s with [] => Some acc | c :: r => match digit_value c dec_digits with Some d => means (10 * acc + d)%N r | None => None end end.
Definition numeral (n : N) (s : list ascii) : Prop :=
  s <> [] /\ means 0 s = Some n /\ (hd "0"%char s = "0"%char -> List.length s = 1%nat).
(** str() of a list of Python. *)
Fixpoint commas (l : list (list ascii)) : list ascii :=
  match l with [] => [] | [x] => x | x :: r => x ++ list_ascii_of_string ", " ++ commas r end.
Definition list_text (l : list N) (s : list ascii) : Prop :=
  exists parts, Forall2 numeral l parts /\ s = list_ascii_of_string "[" ++ commas parts ++ list_ascii_of_string "]".

(** ** Indices *)

Lemma int_of_small z : - 2 ^ 31 <= z < 2 ^ 31 -> int_of z = z.
Proof. intros H. unfold int_of. rewrite Z.mod_small by lia. lia. Qed.

Lemma at_ok v i : 0 <= i < size v -> exists x, nth_error (v_value v) (Z.to_nat i) = Some x.
Proof.
  intros H. unfold size in H. destruct (nth_error (v_value v) (Z.to_nat i)) as [x|] eqn:E; [eauto|].
  apply nth_error_None in E. lia.
Qed.

(** Indices of vectors of less than 2^31 words: those of the list of the values, if they
    are valid; an index that is no int is a TypeError. *)
Theorem C119_index : forall v i, size v < 2 ^ 31 ->
  match get_item v i with
  | PyOk x => v_valid v = true /\ item (v_value v) i x
  | NonValidated => v_valid v = false /\ exists x, item (v_value v) i x
  | IndexError => - 2 ^ 31 <= i < 2 ^ 31 /\ forall x, ~ item (v_value v) i x
  | TypeError => (i < - 2 ^ 31 \/ 2 ^ 31 <= i) /\ forall x, ~ item (v_value v) i x
  | ValueError => False
  end.
Proof.
  intros v i SZ. unfold get_item. assert (S0 : 0 <= size v) by (unfold size; lia).
  rewrite (int_of_small (size v)) by lia.
  assert (NO : (size v <= i \/ i < - size v) -> forall x, ~ item (v_value v) i x).
  { intros C x (j & E & D). assert (L : (j < List.length (v_value v))%nat) by (apply nth_error_Some; congruence). unfold size in C. lia. }
  destruct ((i <? - 2 ^ 31) || (2 ^ 31 <=? i)) eqn:RG; [split; [|apply NO]; lia|]. assert (I : - 2 ^ 31 <= i < 2 ^ 31) by lia. clear RG.
  destruct (Z.leb_spec (size v) i) as [C|C]; [split; [exact I|apply NO; lia]|].
  destruct (Z.ltb_spec i 0) as [NEG|NEG]; cbv zeta.
  - assert (X : int_of (size_t_of (size_t_of i + size v)) = i + size v).
    { unfold size_t_of. rewrite Z.add_mod_idemp_l by lia. unfold int_of.
      destruct (Z_lt_le_dec (i + size v) 0) as [Y|Y].
      - replace ((i + size v) mod 2 ^ 64) with (i + size v + 2 ^ 64).
        + replace (i + size v + 2 ^ 64 + 2 ^ 31) with (i + size v + 2 ^ 31 + 2 ^ 32 * 2 ^ 32) by lia. rewrite Z.mod_add by lia. rewrite Z.mod_small by lia. lia.
        + rewrite <- (Z.mod_add _ 1) by lia. rewrite Z.mod_small by lia. lia.
      - rewrite (Z.mod_small (i + size v)) by lia. rewrite Z.mod_small by lia. lia. }
    rewrite X. destruct (Z.ltb_spec (i + size v) 0) as [Y|Y]; [split; [exact I|apply NO; lia]|].
    unfold at_. destruct (at_ok v (i + size v)) as (x & E); [lia|]. rewrite E.
    assert (IT : item (v_value v) i x) by (exists (Z.to_nat (i + size v)); split; [exact E|right]; unfold size in *; lia).
    destruct (v_valid v); eauto.
  - destruct (Z.ltb_spec i 0); [lia|]. unfold at_. destruct (at_ok v i) as (x & E); [lia|]. rewrite E.
    assert (IT : item (v_value v) i x) by (exists (Z.to_nat i); split; [exact E|left]; lia).
    destruct (v_valid v); eauto.
Qed.

(** Beyond that no index from zero on is good. *)
Theorem C119_long_refuted : forall v i, 2 ^ 31 <= size v < 2 ^ 32 -> 0 <= i < 2 ^ 31 -> get_item v i = IndexError.
Proof.
  intros v i SZ I. unfold get_item.
  replace ((i <? - 2 ^ 31) || (2 ^ 31 <=? i)) with false by (symmetry; apply orb_false_iff; split; [apply Z.ltb_ge|apply Z.leb_gt]; lia).
  assert (X : int_of (size v) = size v - 2 ^ 32).
  { unfold int_of. rewrite <- (Z.mod_add _ (-1)) by lia. rewrite Z.mod_small by lia. lia. }
  rewrite X. destruct (Z.leb_spec (size v - 2 ^ 32) i); [reflexivity|lia].
Qed.

(** ** Slices *)

Lemma picks_ex l j k : k <> 0 -> (0 < k -> j <= Z.of_nat (List.length l)) -> (k < 0 -> -1 <= j) ->
  forall n i, (0 < k -> 0 <= i) -> (k < 0 -> i < Z.of_nat (List.length l)) -> (Z.to_nat (Z.abs (j - i)) <= n)%nat -> exists r, picks l j k i r.
Proof.
  intros K J1 J2. induction n as [|n IH]; intros i I1 I2 M.
  - exists []. apply picks_end. unfold before. lia.
  - assert (D : before i j k \/ ~ before i j k) by (unfold before; lia). destruct D as [D|D]; [|exists []; apply picks_end; exact D].
    destruct (nth_error l (Z.to_nat i)) as [x|] eqn:E.
    + assert (D' : before (i + k) j k \/ ~ before (i + k) j k) by (unfold before; lia). destruct D' as [D'|D'].
      * destruct (IH (i + k)) as (r & R); [lia|lia|unfold before in *; lia|]. exists (x :: r). apply picks_more; auto. unfold before in D; lia.
      * exists [x]. apply picks_more; auto; [unfold before in D; lia|]. apply picks_end. exact D'.
    + apply nth_error_None in E. unfold before in D. lia.
Qed.

Lemma picks_fun l j k i r : picks l j k i r -> forall r', picks l j k i r' -> r = r'.
Proof.
  induction 1 as [i N|i x r B I E P IH]; intros r' P'; inversion P'; subst; try congruence; try tauto.
  assert (x0 = x) by congruence. subst. f_equal. apply IH. assumption.
Qed.

Lemma many_zero i j k : k <> 0 -> ~ before i j k -> how_many i j k = 0.
Proof. intros K B. unfold how_many, before in *. destruct (Z.ltb_spec k 0), (Z.ltb_spec j i), (Z.ltb_spec i j); lia. Qed.

Lemma quot_step a k : 0 < k -> 0 <= a -> Z.quot (a + k) k = Z.quot a k + 1.
Proof. intros K A. rewrite !Z.quot_div_nonneg by lia. replace (a + k) with (a + 1 * k) by lia. rewrite Z.div_add by lia. lia. Qed.

Lemma quot_small a k : 0 < k -> 0 <= a < k -> Z.quot a k = 0.
Proof. intros K A. rewrite Z.quot_small by lia. reflexivity. Qed.

Lemma many_more i j k : before i j k -> how_many i j k = 1 + how_many (i + k) j k.
Proof.
  intros B. unfold how_many, before in *. destruct (Z.ltb_spec k 0).
  - destruct (Z.ltb_spec j i); [|lia]. destruct (Z.ltb_spec j (i + k)).
    + replace (i - j - 1) with (i + k - j - 1 + (- k)) by lia. rewrite quot_step by lia. lia.
    + rewrite quot_small by lia. lia.
  - destruct (Z.ltb_spec i j); [|lia]. destruct (Z.ltb_spec (i + k) j).
    + replace (j - i - 1) with (j - (i + k) - 1 + k) by lia. rewrite quot_step by lia. lia.
    + rewrite quot_small by lia. lia.
Qed.

Lemma many_nonneg i j k : 0 <= how_many i j k.
Proof.
  unfold how_many. destruct (Z.ltb_spec k 0), (Z.ltb_spec j i), (Z.ltb_spec i j); try lia.
  - assert (0 <= Z.quot (i - j - 1) (- k)) by (apply Z.quot_pos; lia). lia.
  - destruct (Z.eq_dec k 0) as [->|]; [assert (Q0 : Z.quot (j - i - 1) 0 = 0) by (destruct (j - i - 1); reflexivity); lia|]. assert (0 <= Z.quot (j - i - 1) k) by (apply Z.quot_pos; lia). lia.
Qed.

Lemma many_bound i j k : k <> 0 -> how_many i j k <= Z.abs (j - i).
Proof.
  intros K. unfold how_many. destruct (Z.ltb_spec k 0), (Z.ltb_spec j i), (Z.ltb_spec i j); try lia.
  - assert (Z.quot (i - j - 1) (- k) <= i - j - 1) by (apply Z.quot_le_upper_bound; nia). lia.
  - assert (Z.quot (j - i - 1) k <= j - i - 1) by (apply Z.quot_le_upper_bound; nia). lia.
Qed.

Lemma copy_picks v j k r i : v_valid v = true -> k <> 0 -> size v < 2 ^ 62 -> picks (v_value v) j k i r ->
  copy v (Z.to_nat (how_many i j k)) (size_t_of i) (size_t_of k) = PyOk r.
Proof.
  intros V K SZ P. induction P as [i B|i x r B I E P IH].
  - rewrite many_zero by assumption. reflexivity.
  - rewrite many_more by assumption. assert (Q := many_nonneg (i + k) j k).
    replace (Z.to_nat (1 + how_many (i + k) j k)) with (S (Z.to_nat (how_many (i + k) j k))) by lia. cbn [copy].
    assert (L : (Z.to_nat i < List.length (v_value v))%nat) by (apply nth_error_Some; congruence).
    unfold size in SZ. assert (X : size_t_of i = i) by (unfold size_t_of; apply Z.mod_small; lia).
    unfold at_. rewrite V, X, E. replace (size_t_of (i + size_t_of k)) with (size_t_of (i + k)).
    + rewrite IH. reflexivity.
    + unfold size_t_of. rewrite Z.add_mod_idemp_r by lia. reflexivity.
Qed.

Lemma copy_invalid v n i k : v_valid v = false -> n <> O -> copy v n i k = NonValidated.
Proof. intros V N. destruct n; [congruence|]. cbn [copy]. unfold at_. rewrite V. reflexivity. Qed.

Lemma picks_far l j k k' i r : picks l j k i r -> (0 < k /\ 0 < k' \/ k < 0 /\ k' < 0) -> Z.abs (j - i) <= Z.abs k -> Z.abs (j - i) <= Z.abs k' -> picks l j k' i r.
Proof.
  intros P S A A'. inversion P as [? B|? x r' B I E P']; subst.
  - apply picks_end. unfold before in *. lia.
  - apply picks_more; auto; [unfold before in *; lia|]. inversion P' as [? B'|? ? ? B' ? ? ?]; subst.
    + apply picks_end. unfold before in *. lia.
    + unfold before in *. lia.
Qed.

(** What is computed is what the specification says. *)
Lemma compute_ok n s : 0 <= n < 2 ^ 62 ->
  match compute n s with
  | None => sl_step s = Some 0
  | Some (st, k', c) =>
      exists i j k, st = size_t_of i /\ k' = size_t_of k /\ c = how_many i j k /\ k <> 0 /\ sl_step s <> Some 0 /\ -1 <= i <= n /\ -1 <= j <= n /\
      let q := match sl_step s with None => 1 | Some q => q end in
      (k = q \/ n + 1 <= Z.abs k /\ n + 1 <= Z.abs q) /\
      (0 < k /\ 0 < q /\ i = bound n 0 n 0 (sl_start s) /\ j = bound n 0 n n (sl_stop s) \/
       k < 0 /\ q < 0 /\ i = bound n (-1) (n - 1) (n - 1) (sl_start s) /\ j = bound n (-1) (n - 1) (-1) (sl_stop s))
  end.
Proof.
  intros N. unfold compute. set (q := match sl_step s with None => 1 | Some q => q end).
  set (k := match sl_step s with None => 1 | Some k => Z.max (- ssize_max) (clip k) end).
  assert (KQ : (k = q \/ 2 ^ 62 < Z.abs k /\ 2 ^ 62 < Z.abs q) /\ (0 < k <-> 0 < q) /\ (k < 0 <-> q < 0)).
  { unfold k, q, clip, ssize_max. destruct (sl_step s) as [z|]; lia. }
  assert (QS : q = 0 <-> sl_step s = Some 0).
  { unfold q. destruct (sl_step s) as [z|]; split; intros H; try discriminate; congruence. }
  clearbody k q. destruct (Z.eqb_spec k 0) as [K0|K0]; [apply QS; lia|].
  set (i := adjust n k _). set (j := adjust n k _).
  exists i, j, k.
  assert (BI : -1 <= i <= n /\ -1 <= j <= n /\ (0 < k /\ 0 < q /\ i = bound n 0 n 0 (sl_start s) /\ j = bound n 0 n n (sl_stop s) \/
       k < 0 /\ q < 0 /\ i = bound n (-1) (n - 1) (n - 1) (sl_start s) /\ j = bound n (-1) (n - 1) (-1) (sl_stop s))).
  { unfold i, j, adjust, bound, clip, ssize_max. clear i j.
    destruct (Z.ltb_spec k 0).
    - assert (q < 0) by tauto. split; [|split; [|right; split; [assumption|split; [assumption|split]]]].
      all: destruct (sl_start s) as [a|], (sl_stop s) as [b|]; repeat (match goal with |- context [?x <? ?y] => destruct (Z.ltb_spec x y) | |- context [?x <=? ?y] => destruct (Z.leb_spec x y) end); lia.
    - assert (0 < q) by lia. split; [|split; [|left; split; [lia|split; [assumption|split]]]].
      all: destruct (sl_start s) as [a|], (sl_stop s) as [b|]; repeat (match goal with |- context [?x <? ?y] => destruct (Z.ltb_spec x y) | |- context [?x <=? ?y] => destruct (Z.leb_spec x y) end); lia. }
  destruct BI as (BI & BJ & BB). split; [reflexivity|]. split; [reflexivity|]. split.
  { assert (M0 := many_nonneg i j k). assert (M1 := many_bound i j k K0). unfold size_t_of. apply Z.mod_small. lia. }
  split; [exact K0|]. split; [rewrite <- QS; lia|]. split; [exact BI|]. split; [exact BJ|]. cbv zeta. split; [lia|exact BB].
Qed.

(** A slice of a vector is that of the list of its values, for all starts, stops and
    steps; if the values are not valid only empty ones can be had. *)
Theorem C119_slice : forall v s, size v < 2 ^ 62 ->
  (sl_step s = Some 0 /\ get_slice v s = ValueError) \/
  (sl_step s <> Some 0 /\ exists r, sliced (v_value v) s r /\ (forall r', sliced (v_value v) s r' -> r' = r) /\
     get_slice v s = if v_valid v then PyOk r else match r with [] => PyOk [] | _ :: _ => NonValidated end).
Proof.
  intros v s SZ. assert (N : 0 <= size v < 2 ^ 62) by (unfold size in *; lia).
  assert (C := compute_ok (size v) s N). unfold get_slice. destruct (compute (size v) s) as [((st, k'), c)|]; [|left; auto].
  right. destruct C as (i & j & k & -> & -> & -> & K0 & S0 & BI & BJ & C). cbv zeta in C. split; [exact S0|].
  destruct C as (KQ & CB).
  assert (PI : (0 < k -> 0 <= i) /\ (k < 0 -> i < size v) /\ (0 < k -> j <= size v) /\ (k < 0 -> -1 <= j)).
  { unfold bound in CB. destruct (sl_start s), (sl_stop s); lia. }
  destruct PI as (I1 & I2 & J1 & J2). unfold size in I2, J1.
  destruct (picks_ex (v_value v) j k K0 J1 J2 _ i I1 I2 (le_n _)) as (r & P). exists r.
  set (q := match sl_step s with None => 1 | Some q => q end) in *.
  assert (PQ : picks (v_value v) j q i r).
  { destruct KQ as [<-|(A1 & A2)]; [exact P|]. apply (picks_far _ _ k); [exact P|lia|lia|lia]. }
  split; [|split].
  - unfold sliced. fold q. cbv zeta. change (Z.of_nat (List.length (v_value v))) with (size v).
    destruct CB as [(A & B & <- & <-)|(A & B & <- & <-)]; [left|right]; auto.
  - intros r' H. unfold sliced in H. fold q in H. cbv zeta in H. change (Z.of_nat (List.length (v_value v))) with (size v) in H.
    destruct CB as [(A & B & EI & EJ)|(A & B & EI & EJ)]; destruct H as [(H1 & H2)|(H1 & H2)]; try lia; rewrite <- EI, <- EJ in H2; apply (picks_fun _ _ _ _ _ H2 _ PQ).
  - destruct (v_valid v) eqn:V; [apply copy_picks; auto|]. destruct r as [|x r].
    + inversion P as [? B|]; subst. rewrite many_zero by assumption. reflexivity.
    + inversion P as [|? ? ? B ? ? ?]; subst. apply copy_invalid; [exact V|]. rewrite many_more by assumption. assert (X := many_nonneg (i + k) j k). lia.
Qed.

(** ** Texts *)

Lemma digit_means d : (d < 10)%N -> digit_value (OverlapText.digit_char d) dec_digits = Some d.
Proof.
  intros H. assert (C : In d [0;1;2;3;4;5;6;7;8;9]%N).
  { cbn [In]. lia. }
  cbn [In] in C. repeat (destruct C as [<-|C]; [reflexivity|]). destruct C.
Qed.

Lemma means_app s t a : means a (s ++ t) = match means a s with Some b => means b t | None => None end.
Proof. revert a. induction s as [|c s IH]; intros a; cbn [app means]; [reflexivity|]. destruct (digit_value c dec_digits); [apply IH|reflexivity]. Qed.

Lemma digits_means : forall f n, (n < 10 ^ N.of_nat f)%N -> f <> O -> means 0 (OverlapText.digits f 10 n) = Some n.
Proof.
  induction f as [|f IH]; intros n H F; [congruence|]. cbn [OverlapText.digits]. rewrite means_app.
  assert (D : (n mod 10 < 10)%N) by (apply N.mod_lt; lia).
  destruct (N.ltb_spec n 10) as [L|L].
  - cbn [means]. rewrite digit_means by exact D. rewrite N.mod_small by exact L. reflexivity.
  - assert (X : (10 ^ N.of_nat (S f) = 10 * 10 ^ N.of_nat f)%N) by (rewrite Nat2N.inj_succ, N.pow_succ_r'; reflexivity).
    rewrite X in H. clear X. destruct f as [|f]; [change (10 ^ N.of_nat 0)%N with 1%N in H; lia|].
    rewrite IH; [|apply N.div_lt_upper_bound; lia|congruence]. cbn [means]. rewrite digit_means by exact D. f_equal. rewrite (N.div_mod n 10) at 3 by lia. reflexivity.
Qed.

Lemma digits_nonempty f b n : f <> O -> OverlapText.digits f b n <> [].
Proof. destruct f; [congruence|]. intros _. cbn [OverlapText.digits]. intros E. apply app_eq_nil in E. destruct E as (_ & E). discriminate. Qed.

Lemma digits_head : forall f n, (0 < n)%N -> (n < 10 ^ N.of_nat f)%N -> f <> O -> hd "0"%char (OverlapText.digits f 10 n) <> "0"%char.
Proof.
  induction f as [|f IH]; intros n P H F; [congruence|]. cbn [OverlapText.digits]. destruct (N.ltb_spec n 10) as [L|L].
  - cbn [app hd]. rewrite N.mod_small by exact L. intros E. assert (Q := digit_means n L). rewrite E in Q. cbn in Q. injection Q as <-. lia.
  - assert (X : (10 ^ N.of_nat (S f) = 10 * 10 ^ N.of_nat f)%N) by (rewrite Nat2N.inj_succ, N.pow_succ_r'; reflexivity).
    rewrite X in H. clear X. destruct f as [|f]; [change (10 ^ N.of_nat 0)%N with 1%N in H; lia|].
    assert (NE := digits_nonempty (S f) 10 (n / 10)%N ltac:(congruence)).
    assert (Y := IH (n / 10)%N ltac:(apply N.div_str_pos; lia) ltac:(apply N.div_lt_upper_bound; lia) ltac:(congruence)).
    destruct (OverlapText.digits (S f) 10 (n / 10)) as [|c r]; [congruence|]. exact Y.
Qed.

Lemma decimal_numeral n : (n < 2 ^ 32)%N -> numeral n (decimal n).
Proof.
  intros H. unfold numeral, decimal. assert (L : (n < 10 ^ N.of_nat 10)%N) by (change (10 ^ N.of_nat 10)%N with 10000000000%N; lia).
  split; [apply digits_nonempty; congruence|]. split; [apply digits_means; [exact L|congruence]|].
  intros E. destruct (N.eq_dec n 0) as [->|NZ]; [reflexivity|]. exfalso. revert E. apply digits_head; [lia|exact L|congruence].
Qed.

Lemma lit_list s : OverlapText.lit s = list_ascii_of_string s.
Proof. reflexivity. Qed.

Lemma str_loop_ok v : v_valid v = true -> size v < 2 ^ 62 -> forall l pre out, v_value v = pre ++ l ->
  str_loop v (List.length l) (Z.of_nat (List.length pre)) out = PyOk (out ++ commas (map decimal l)).
Proof.
  intros V SZ. induction l as [|x l IH]; intros pre out E; cbn [List.length str_loop map]; [cbn [commas]; rewrite app_nil_r; reflexivity|].
  unfold at_. rewrite V, Nat2Z.id, E. rewrite nth_error_app2 by lia. rewrite Nat.sub_diag. cbn [nth_error].
  assert (L : size v = Z.of_nat (List.length pre) + 1 + Z.of_nat (List.length l)).
  { unfold size. rewrite E, app_length. cbn [List.length]. lia. }
  assert (M : size_t_of (size v - 1) = size v - 1) by (unfold size_t_of; apply Z.mod_small; lia). rewrite M.
  specialize (IH (pre ++ [x])). rewrite app_length in IH. cbn [List.length] in IH. rewrite Nat2Z.inj_add in IH. change (Z.of_nat 1) with 1 in IH.
  rewrite IH; [|rewrite <- app_assoc; exact E]. f_equal. destruct (Z.eqb_spec (Z.of_nat (List.length pre)) (size v - 1)) as [Q|Q].
  - assert (l = []) by (destruct l; [reflexivity|cbn [List.length] in L; lia]). subst l. cbn [map commas]. rewrite app_nil_r. reflexivity.
  - destruct l as [|y l]; [cbn [List.length] in L; lia|]. cbn [map commas]. rewrite <- !app_assoc. reflexivity.
Qed.

(** str() of a vector is str() of the list of its values, if they are valid. *)
Theorem C119_str : forall v, size v < 2 ^ 62 -> Forall (fun x => x < 2 ^ 32)%N (v_value v) ->
  match str_vec v with
  | PyOk s => (v_valid v = true \/ v_value v = []) /\ list_text (v_value v) s
  | NonValidated => v_valid v = false /\ v_value v <> []
  | _ => False
  end.
Proof.
  intros v SZ R. unfold str_vec. destruct (v_valid v) eqn:V.
  - assert (X := str_loop_ok v V SZ (v_value v) [] (OverlapText.lit "[") eq_refl). cbn [List.length] in X. change (Z.of_nat 0) with 0 in X. rewrite X.
    split; [auto|]. exists (map decimal (v_value v)). split.
    + clear X. induction R as [|x l H R IH]; cbn [map]; constructor; [|exact IH]. apply decimal_numeral. exact H.
    + rewrite !lit_list, <- app_assoc. reflexivity.
  - destruct (v_value v) as [|x l] eqn:E.
    + cbn [List.length str_loop]. split; [auto|]. exists []. split; [constructor|reflexivity].
    + cbn [List.length str_loop]. unfold at_. rewrite V. split; [reflexivity|discriminate].
Qed.

(** str() of a word is that of its value. *)
Theorem C119_str_word : forall c, match str_word c with
  | PyOk s => exists x, ValMem.word_value c = Some x /\ ((x < 2 ^ 32)%N -> numeral x s)
  | NonValidated => ValMem.word_value c = None
  | _ => False
  end.
Proof. intros c. unfold str_word. destruct (ValMem.word_value c) as [x|]; [|reflexivity]. exists x. split; [reflexivity|apply decimal_numeral]. Qed.

(** ** Iterators *)

(** How often iterator [k] was asked so far, and what it should say next. *)
Fixpoint asked (k : nat) (past : list event) : nat :=
  match past with [] => O | Next j :: r => ((if Nat.eqb j k then 1 else 0) + asked k r)%nat | _ :: r => asked k r end.
(** The events of a program that always keeps a handle, with iterators there are:
    [refs] handles and [its] iterators to begin with. *)
Fixpoint keeps (refs its : nat) (l : list event) : Prop :=
  match l with
  | [] => True
  | Copy :: r => keeps (S refs) its r
  | Drop :: r => (2 <= refs)%nat /\ keeps (pred refs) its r
  | Iter :: r => keeps refs (S its) r
  | Next k :: r => (k < its)%nat /\ keeps refs its r
  end.
(** Each iterator gives the values in order and then stops, whatever is done in between. *)
Fixpoint in_order (values : list N) (past l : list event) : list answer :=
  match l with
  | [] => []
  | Next k :: r => match nth_error values (asked k past) with Some x => Item x | None => Stop end :: in_order values (Next k :: past) r
  | e :: r => Nothing :: in_order values (e :: past) r
  end.

(** Where an iterator is that was asked [n] times. *)
Definition placed (len n : nat) (it : iter) : Prop :=
  it = if Nat.eqb n 0 then {| i_pos := 0; i_fresh := true |} else if Nat.leb n len then {| i_pos := pred n; i_fresh := false |} else {| i_pos := len; i_fresh := true |}.

Lemma next_placed v n it : placed (List.length (v_value v)) n it ->
  placed (List.length (v_value v)) (S n) (fst (next v true it)) /\
  snd (next v true it) = match nth_error (v_value v) n with Some x => Item x | None => Stop end.
Proof.
  intros P. unfold next. set (len := List.length (v_value v)) in *.
  assert (X : (if i_fresh it then i_pos it else S (i_pos it)) = Nat.min n len).
  { unfold placed in P. destruct (Nat.eqb_spec n 0) as [->|N0]; [rewrite P; reflexivity|]. destruct (Nat.leb_spec n len); rewrite P; cbn [i_fresh i_pos]; lia. }
  rewrite X. destruct (Nat.eqb_spec (Nat.min n len) len) as [E|E]; cbn [fst snd].
  - assert (G : nth_error (v_value v) n = None) by (apply nth_error_None; fold len; lia). rewrite G. split; [|reflexivity].
    unfold placed. cbn [Nat.eqb]. destruct (Nat.leb_spec (S n) len); [lia|]. rewrite E. reflexivity.
  - assert (L : (n < len)%nat) by lia. rewrite Nat.min_l by lia. destruct (nth_error (v_value v) n) as [x|] eqn:G; [|apply nth_error_None in G; fold len in G; lia].
    split; [|reflexivity]. unfold placed. cbn [Nat.eqb]. destruct (Nat.leb_spec (S n) len); [reflexivity|lia].
Qed.

Lemma set_nth_same {A} (l : list A) k x y : nth_error l k = Some y -> nth_error (set_nth l k x) k = Some x.
Proof. revert k. induction l as [|a l IH]; intros [|k] E; cbn in *; try discriminate; auto. Qed.
Lemma set_nth_other {A} (l : list A) k j x : j <> k -> nth_error (set_nth l k x) j = nth_error l j.
Proof. revert k j. induction l as [|a l IH]; intros [|k] [|j] N; cbn; try reflexivity; try congruence. apply IH. congruence. Qed.
Lemma set_nth_length {A} (l : list A) k x : List.length (set_nth l k x) = List.length l.
Proof. revert k. induction l as [|a l IH]; intros [|k]; cbn; auto. Qed.

Lemma run_in_order v : v_valid v = true -> forall l s past, (1 <= s_refs s)%nat -> keeps (s_refs s) (List.length (s_iters s)) l ->
  (forall k it, nth_error (s_iters s) k = Some it -> placed (List.length (v_value v)) (asked k past) it) ->
  (forall k, (List.length (s_iters s) <= k)%nat -> asked k past = O) ->
  run v s l = in_order (v_value v) past l.
Proof.
  intros V. induction l as [|e l IH]; intros s past R K P Z; [reflexivity|]. cbn [run]. destruct s as [refs its]. cbn [s_refs s_iters] in *.
  destruct e as [| | |k]; cbn [act s_refs s_iters keeps] in *.
  - destruct refs as [|refs]; [lia|]. cbn [in_order]. f_equal. apply IH; cbn [s_refs s_iters]; auto; lia.
  - destruct K as (K1 & K2). cbn [in_order]. f_equal. apply IH; cbn [s_refs s_iters]; auto; lia.
  - destruct refs as [|refs]; [lia|]. rewrite V. cbn [in_order]. f_equal. apply IH; cbn [s_refs s_iters]; auto.
    + rewrite app_length. cbn [List.length]. rewrite Nat.add_1_r. exact K.
    + intros k it E. cbn [asked]. destruct (Nat.lt_ge_cases k (List.length its)) as [L|L]; [rewrite nth_error_app1 in E by exact L; auto|].
      rewrite nth_error_app2 in E by exact L. rewrite Z by exact L. destruct (k - List.length its)%nat as [|[|?]]; cbn in E; try discriminate. injection E as <-. reflexivity.
    + intros k L. rewrite app_length in L. cbn [asked]. apply Z. lia.
  - destruct K as (K1 & K2). destruct (nth_error its k) as [it|] eqn:E; [|apply nth_error_None in E; lia].
    destruct refs as [|refs]; [lia|]. cbn [Nat.eqb negb]. destruct (next_placed v _ it (P _ _ E)) as (N1 & N2). destruct (next v true it) as [it' a]. cbn [fst snd] in *.
    subst a. cbn [in_order]. f_equal. apply IH; cbn [s_refs s_iters]; auto.
    + rewrite set_nth_length. exact K2.
    + intros j it2 E2. cbn [asked]. destruct (Nat.eqb_spec k j) as [<-|NJ].
      * rewrite (set_nth_same _ _ _ _ E) in E2. injection E2 as <-. exact N1.
      * rewrite set_nth_other in E2 by congruence. cbn [plus]. auto.
    + intros j L. rewrite set_nth_length in L. cbn [asked]. destruct (Nat.eqb_spec k j); [lia|]. cbn [plus]. apply Z. exact L.
Qed.

(** As long as a handle is kept every iterator gives the values in order. *)
Theorem C119_iter : forall v l n, v_valid v = true -> (1 <= n)%nat -> keeps n 0 l ->
  run v {| s_refs := n; s_iters := [] |} l = in_order (v_value v) [] l.
Proof.
  intros v l n V N K. apply run_in_order; cbn [s_refs s_iters]; auto. intros [|k] it E; discriminate.
Qed.

(** There are no iterators of values that are not valid. *)
Theorem C119_iter_invalid : forall v n, v_valid v = false -> (1 <= n)%nat -> act v {| s_refs := n; s_iters := [] |} Iter = ({| s_refs := n; s_iters := [] |}, Raises).
Proof. intros v n V N. cbn [act s_refs]. destruct n; [lia|]. rewrite V. reflexivity. Qed.

(** An iterator does not keep the values: as in "it = iter(v); del v; next(it)". *)
Theorem C119_iter_refuted : forall v, v_valid v = true -> v_value v <> [] ->
  run v {| s_refs := 1; s_iters := [] |} [Iter; Drop; Next 0] = [Nothing; Nothing; Freed].
Proof.
  intros [b [|x l]] V NE; cbn [v_valid v_value] in *; [congruence|]. subst b. reflexivity.
Qed.

(** ** Words *)

(** A word compares and computes as its value with whole numbers and other words, and
    raises if one of them is not valid. *)
Theorem C119_word : forall (R : Type) (m : Z -> Z -> R) c z,
  match ValMem.word_value c with
  | Some x => word_method m c (OInt z) = PyOk (Some (m (Z.of_N x) z)) /\
              forall d, word_method m c (OWord d) = match ValMem.word_value d with Some y => PyOk (Some (m (Z.of_N x) (Z.of_N y))) | None => NonValidated end
  | None => forall o, word_method m c o = NonValidated
  end.
Proof.
  intros R m c z. unfold word_method. destruct (ValMem.word_value c) as [x|]; [|reflexivity].
  split; [reflexivity|]. intros d. cbn [int_operand]. destruct (ValMem.word_value d); reflexivity.
Qed.

(** With fractions the part after the point is lost: a word equals, and is not less
    than, a number greater than itself. *)
Theorem C119_float_refuted : forall c x, ValMem.word_value c = Some x -> let o := OFloat (inject_Z (Z.of_N x) + (1 # 2)) in
  (inject_Z (Z.of_N x) < inject_Z (Z.of_N x) + (1 # 2))%Q /\
  word_method Z.eqb c o = PyOk (Some true) /\ word_method Z.ltb c o = PyOk (Some false).
Proof.
  intros c x E. cbv zeta. split; [rewrite <- (Qplus_0_r (inject_Z (Z.of_N x))) at 1; apply Qplus_lt_r; reflexivity|].
  unfold word_method. rewrite E. cbn [int_operand].
  assert (X : Z.quot (Qnum (inject_Z (Z.of_N x) + (1 # 2))) (Zpos (Qden (inject_Z (Z.of_N x) + (1 # 2)))) = Z.of_N x).
  { cbn [inject_Z Qplus Qnum Qden Pos.mul]. rewrite Z.mul_1_r. replace (Z.of_N x * 2 + 1) with (1 + Z.of_N x * 2) by lia.
    rewrite Z.quot_div_nonneg by lia. rewrite Z.div_add by lia. reflexivity. }
  rewrite X. rewrite Z.eqb_refl, Z.ltb_irrefl. auto.
Qed.

(** ** Examples *)

Definition ex_v (b : bool) : vec := {| v_valid := b; v_value := [10; 20; 30; 40; 4294967295]%N |}.
Example C119_index_case : size (ex_v true) < 2 ^ 31 /\ get_item (ex_v true) (-2) = PyOk 40%N /\ get_item (ex_v true) 0 = PyOk 10%N /\
  get_item (ex_v true) (-6) = IndexError /\ get_item (ex_v true) 5 = IndexError /\ get_item (ex_v false) 4 = NonValidated.
Proof. repeat split. Qed.
Example C119_slice_case : size (ex_v true) < 2 ^ 62 /\ sl_step {| sl_start := None; sl_stop := Some (-5); sl_step := Some (-2) |} <> Some 0 /\
  get_slice (ex_v true) {| sl_start := None; sl_stop := Some (-5); sl_step := Some (-2) |} = PyOk [4294967295; 30]%N /\
  get_slice (ex_v true) {| sl_start := Some 1; sl_stop := Some (2 ^ 70); sl_step := Some (2 ^ 70) |} = PyOk [20]%N /\
  get_slice (ex_v false) {| sl_start := Some 1; sl_stop := None; sl_step := None |} = NonValidated.
Proof. repeat split; discriminate. Qed.
Example C119_str_case : size (ex_v true) < 2 ^ 62 /\ Forall (fun x => x < 2 ^ 32)%N (v_value (ex_v true)) /\
  (match str_vec (ex_v true) with PyOk s => string_of_list_ascii s | _ => "" end = "[10, 20, 30, 40, 4294967295]")%string /\ str_vec (ex_v false) = NonValidated.
Proof. split; [reflexivity|]. split; [repeat constructor|]. split; reflexivity. Qed.
Example C119_str_word_case : (match str_word (ValMem.CWord true 1234 4080) with PyOk s => string_of_list_ascii s | _ => "" end = "77")%string.
Proof. reflexivity. Qed.
Example C119_iter_case : let l := [Iter; Next 0; Iter; Copy; Next 1; Drop; Next 0; Next 0; Next 0; Next 0; Next 0; Next 0; Next 1] in
  keeps 1 0 l /\ run (ex_v true) {| s_refs := 1; s_iters := [] |} l =
    [Nothing; Item 10; Nothing; Nothing; Item 10; Nothing; Item 20; Item 30; Item 40; Item 4294967295; Stop; Stop; Item 20].
Proof. cbv zeta. split; [cbn; repeat split; lia|reflexivity]. Qed.
(** A vector of 2^31 words, for C119_long_refuted. *)
Example C119_long_case : size {| v_valid := true; v_value := repeat 0%N (Z.to_nat (2 ^ 31)) |} = 2 ^ 31.
Proof. unfold size. cbn [v_value]. rewrite repeat_length. apply Z2Nat.id. lia. Qed.
Example C119_word_case : ValMem.word_value (ValMem.CWord true 3 4294967295) = Some 3%N /\
  word_method Z.add (ValMem.CWord true 3 4294967295) (OInt (-5)) = PyOk (Some (-2)) /\
  word_method Z.eqb (ValMem.CWord true 3 4294967295) (OFloat (7 # 2)) = PyOk (Some true) /\
  word_method Z.ltb (ValMem.CWord true 3 4294967295) (OWord (ValMem.CWord false 9 4294967295)) = NonValidated.
Proof. repeat split. Qed.

Print Assumptions C119_index.
Print Assumptions C119_long_refuted.
Print Assumptions C119_slice.
Print Assumptions C119_str.
Print Assumptions C119_str_word.
Print Assumptions C119_iter.
Print Assumptions C119_iter_invalid.
Print Assumptions C119_iter_refuted.
Print Assumptions C119_word.
Print Assumptions C119_float_refuted.
