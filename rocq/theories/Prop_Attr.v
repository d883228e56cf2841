(** C38: numeric attributes are parsed exactly. *)
From Coq Require Import NArith ZArith List Bool String Ascii Lia PeanoNat ZifyBool ZifyNat ZifyN.
From Verif Require Import Attr NodeProofs.
Import ListNotations.
Open Scope N_scope.
Ltac Zify.zify_post_hook ::= Z.div_mod_to_equations.

(** ** Specification: what a string of digits denotes *)

(** The digits, listed. *)
Definition dec_digits : list (ascii * N) :=
  [("0", 0); ("1", 1); ("2", 2); ("3", 3); ("4", 4); ("5", 5); ("6", 6); ("7", 7); ("8", 8); ("9", 9)]%char.
Definition hex_digits : list (ascii * N) :=
  dec_digits ++ [("a", 10); ("b", 11); ("c", 12); ("d", 13); ("e", 14); ("f", 15);
                 ("A", 10); ("B", 11); ("C", 12); ("D", 13); ("E", 14); ("F", 15)]%char.

(** A non-empty string of digits and its value in the given base. *)
Inductive numeral (base : N) (ds : list (ascii * N)) : string -> N -> Prop :=
| num_one c d : In (c, d) ds -> numeral base ds (String c EmptyString) d
| num_more c d s n : In (c, d) ds -> numeral base ds s n ->
    numeral base ds (String c s) (d * base ^ N.of_nat (String.length s) + n).

(** The notations of the address tables: decimal, or hexadecimal with a prefix;
    [k] is the number of digits. *)
Inductive denotes : string -> N -> nat -> Prop :=
| den_dec s n : numeral 10 dec_digits s n -> denotes s n (String.length s)
| den_hex p s n : In p ["0x"; "0X"; "x"; "X"]%string -> numeral 16 hex_digits s n ->
    denotes (p ++ s) n (String.length s).

(** ** Proofs *)

Fixpoint find_digit (c : ascii) (l : list (ascii * N)) : option N :=
  match l with [] => None | (x, d) :: r => if Ascii.eqb c x then Some d else find_digit c r end.

Lemma find_digit_in c d l : NoDup (map fst l) -> find_digit c l = Some d <-> In (c, d) l.
Proof.
  induction l as [|(x, e) l IH]; intros ND; [cbn; split; [discriminate|tauto]|].
  cbn [map fst] in ND. apply NoDup_cons_iff in ND. destruct ND as (NI & ND). cbn [find_digit In].
  destruct (Ascii.eqb_spec c x) as [->|NE].
  - split; [intros E; injection E as ->; auto|]. intros [E|E]; [injection E as ->; reflexivity|].
    exfalso. apply NI. apply (in_map fst) in E. exact E.
  - rewrite (IH ND). split; [auto|]. intros [E|E]; [injection E as -> ->; congruence|exact E].
Qed.

Lemma digit_find c : digit c = find_digit c hex_digits /\
  find_digit c dec_digits = match find_digit c hex_digits with Some d => if d <? 10 then Some d else None | None => None end.
Proof. destruct c as [[|] [|] [|] [|] [|] [|] [|] [|]]; split; reflexivity. Qed.

Lemma nodup_digits : NoDup (map fst hex_digits) /\ NoDup (map fst dec_digits).
Proof. split; cbn; repeat (constructor; [cbn; intuition discriminate|]); constructor. Qed.

Lemma digit_table c : forall hex d,
  (in_set hex c = true /\ digit c = Some d) <-> In (c, d) (if hex then hex_digits else dec_digits).
Proof.
  intros hex d.
  assert (K : (digit c = Some d <-> In (c, d) hex_digits) /\ (digit c = Some d /\ d < 10 <-> In (c, d) dec_digits)).
  { rewrite <- !find_digit_in by (apply nodup_digits). rewrite (proj1 (digit_find c)), (proj2 (digit_find c)).
    destruct (find_digit c hex_digits) as [e|]; [|split; split; intros; intuition discriminate].
    destruct (N.ltb_spec e 10); split; split; intros H'; try (destruct H' as (H' & ?)); try injection H' as ->; try discriminate; auto; lia. }
  destruct K as (K1 & K2). unfold in_set. destruct hex.
  - rewrite <- K1. split; [tauto|]. intros H. rewrite H. auto.
  - rewrite <- K2. cbn [orb]. split; intros (A & B).
    + rewrite B in A. split; [exact B|lia].
    + rewrite A. split; [lia|reflexivity].
Qed.

Lemma set_numeral (hex : bool) s : forall acc,
  all_in_set hex s = true -> s <> EmptyString ->
  exists n, numeral (if hex then 16 else 10) (if hex then hex_digits else dec_digits) s n /\
            extract hex acc s = acc * (if hex then 16 else 10) ^ N.of_nat (String.length s) + n.
Proof.
  induction s as [|c r IH]; intros acc H NE; [congruence|].
  cbn [all_in_set] in H. apply andb_true_iff in H. destruct H as (H1 & H2).
  assert (exists d, digit c = Some d) as (d & D).
  { unfold in_set in H1. destruct (digit c); [eauto|discriminate]. }
  assert (I := proj1 (digit_table c hex d) (conj H1 D)).
  cbn [extract]. rewrite D. destruct r as [|c' r'].
  - exists d. split; [constructor; exact I|]. cbn [extract String.length]. change (N.of_nat 1) with 1. rewrite N.pow_1_r. destruct hex; reflexivity.
  - destruct (IH (acc * (if hex then 16 else 10) + d)%N H2 ltac:(discriminate)) as (n & Q & X).
    exists (d * (if hex then 16 else 10) ^ N.of_nat (String.length (String c' r')) + n)%N. split.
    + constructor; assumption.
    + rewrite X. remember (String c' r') as t. cbn [String.length].
      rewrite Nat2N.inj_succ, N.pow_succ_r'. destruct hex; ring.
Qed.

Lemma numeral_set (hex : bool) s n :
  numeral (if hex then 16 else 10) (if hex then hex_digits else dec_digits) s n ->
  all_in_set hex s = true /\ s <> EmptyString.
Proof.
  induction 1 as [c d I|c d s n I Q (A & B)]; apply digit_table in I; destruct I as (I & _); cbn [all_in_set]; rewrite I; split; auto; discriminate.
Qed.

Lemma digit_fun c d d' hex :
  In (c, d) (if hex : bool then hex_digits else dec_digits) -> In (c, d') (if hex then hex_digits else dec_digits) -> d = d'.
Proof. intros A B. apply digit_table in A, B. destruct A as (_ & A), B as (_ & B). congruence. Qed.

Lemma numeral_fun (hex : bool) b s n : numeral b (if hex then hex_digits else dec_digits) s n ->
  forall n', numeral b (if hex then hex_digits else dec_digits) s n' -> n = n'.
Proof.
  induction 1 as [c d I|c d s n I Q IH]; intros n' Q'.
  - inversion Q' as [? ? I'|? ? ? ? I' Q'']; subst; [eapply digit_fun; eassumption|inversion Q''].
  - inversion Q' as [? ? I'|? ? ? ? I' Q'']; subst; [inversion Q|].
    rewrite (digit_fun _ _ _ _ I I'), (IH _ Q''). reflexivity.
Qed.

Lemma substring_drop p : forall s, substring p (String.length s - p) s = drop p s.
Proof.
  induction p as [|p IH]; intros s.
  - cbn [drop]. rewrite Nat.sub_0_r. induction s as [|c r IH]; [reflexivity|]. cbn. f_equal. exact IH.
  - destruct s as [|c r]; [reflexivity|]. cbn [drop substring String.length]. cbn [Nat.sub]. apply IH.
Qed.

(** The two readings of a prefix. *)
Lemma prefix_cases s : s <> EmptyString ->
  (exists p r, In p ["0x"; "0X"; "x"; "X"]%string /\ s = (p ++ r)%string /\ r <> EmptyString /\
               prefix_length s = String.length p) \/
  (prefix_length s = 0%nat /\
   forall p r, In p ["0x"; "0X"; "x"; "X"]%string -> s = (p ++ r)%string -> r = EmptyString).
Proof.
  intros NE. destruct s as [|a s]; [congruence|]. unfold prefix_length.
  assert (X : forall c, is_x c = true <-> c = "x"%char \/ c = "X"%char).
  { intros c. unfold is_x. rewrite orb_true_iff, !Ascii.eqb_eq. reflexivity. }
  destruct s as [|b s].
  - right. split; [reflexivity|]. intros p r [<-|[<-|[<-|[<-|[]]]]] E; cbn in E; try discriminate; injection E as _ E; auto.
  - cbn [String.length]. change (Nat.ltb 1 (S (S (String.length s)))) with true.
    destruct (is_x a) eqn:Xa.
    + left. exists (String a EmptyString), (String b s). apply X in Xa. split; [destruct Xa; subst; cbn; tauto|]. split; [reflexivity|]. split; [discriminate|reflexivity].
    + destruct s as [|c s].
      * right. change (Nat.ltb 2 2) with false. split; [reflexivity|].
        intros p r [<-|[<-|[<-|[<-|[]]]]] E; cbn in E; injection E as E1 E2; subst; try discriminate; try (injection E2 as E2 E3; auto); auto.
      * cbn [String.length]. change (Nat.ltb 2 (S (S (S (String.length s))))) with true. cbn iota.
        destruct (Ascii.eqb a "0" && is_x b) eqn:Z.
        -- left. apply andb_true_iff in Z. destruct Z as (Z1 & Z2). apply Ascii.eqb_eq in Z1. apply X in Z2. subst a.
           exists (String "0" (String b EmptyString)), (String c s). split; [destruct Z2; subst; cbn; tauto|]. split; [reflexivity|]. split; [discriminate|reflexivity].
        -- right. split; [reflexivity|]. intros p r [<-|[<-|[<-|[<-|[]]]]] E; cbn in E; injection E as E1 E2; subst; try discriminate.
Qed.

(** C38.  A value is accepted exactly when it is written in one of the notations
    with at most ten digits and denotes a number below 2^32, and the result is
    that number. *)
Theorem C38_number s n :
  parse_u32 s = Some n <-> exists k, denotes s n k /\ (k <= 10)%nat /\ n < 2 ^ 32.
Proof.
  unfold parse_u32. destruct (Nat.eqb_spec (String.length s) 0) as [E0|E0].
  { destruct s; [|discriminate]. split; [discriminate|].
    intros (k & D & _). inversion D as [s0 n0 Q E1 E2|p s0 n0 I Q E1]; [inversion Q|].
    exfalso. clear - I E1. destruct I as [I|[I|[I|[I|[]]]]]; rewrite <- I in E1; discriminate. }
  assert (NE : s <> EmptyString) by (destruct s; [cbn in E0; congruence|discriminate]).
  rewrite substring_drop.
  assert (SH : forall m, (N.shiftr m 32 =? 0) = true <-> m < 2 ^ 32).
  { intros m. rewrite N.shiftr_div_pow2, N.eqb_eq. rewrite N.div_small_iff by lia. reflexivity. }
  destruct (prefix_cases s NE) as [(p & r & I & -> & R & P)|(P & NP)]; rewrite P.
  - assert (LP : (String.length p =? 0)%nat = false) by (destruct I as [<-|[<-|[<-|[<-|[]]]]]; reflexivity).
    rewrite LP. cbn [negb].
    assert (DR : drop (String.length p) (p ++ r) = r) by (destruct I as [<-|[<-|[<-|[<-|[]]]]]; reflexivity).
    rewrite DR.
    assert (INV : forall k, denotes (p ++ r) n k -> numeral 16 hex_digits r n /\ k = String.length r).
    { intros k D. inversion D as [s0 n0 Q E1 E2|p' s0 n0 I' Q E1]; subst.
      - exfalso. apply (numeral_set false) in Q. destruct Q as (Q & _).
        destruct I as [<-|[<-|[<-|[<-|[]]]]]; discriminate.
      - assert (p' = p /\ s0 = r) as (-> & ->); [|split; [exact Q|reflexivity]].
        destruct I as [<-|[<-|[<-|[<-|[]]]]], I' as [<-|[<-|[<-|[<-|[]]]]]; cbn in E1; inversion E1; auto; subst; apply (numeral_set true) in Q; destruct Q as (Q & _); discriminate. }
    destruct (all_in_set true r) eqn:A; cbn [negb].
    + destruct (set_numeral true r 0 A R) as (m & Q & X). cbn [N.mul N.add] in X. rewrite X. rewrite ?N.mul_0_l, ?N.add_0_l.
      destruct (Nat.ltb_spec 10 (String.length r)) as [L|L].
      * split; [discriminate|]. intros (k & D & K & _). apply INV in D. lia.
      * destruct (N.shiftr m 32 =? 0) eqn:Z; cbn [negb].
        -- apply SH in Z. split.
           ++ intros E. injection E as <-. exists (String.length r). repeat split; auto. constructor; assumption.
           ++ intros (k & D & _). apply INV in D. f_equal. apply (numeral_fun true 16 r); tauto.
        -- split; [discriminate|]. intros (k & D & _ & B). apply INV in D. destruct D as (D & _).
           rewrite (numeral_fun true 16 r n D m Q) in B. apply SH in B. congruence.
    + split; [discriminate|]. intros (k & D & _). apply INV in D. destruct D as (D & _). apply (numeral_set true) in D. destruct D; congruence.
  - cbn [Nat.eqb negb drop].
    assert (INV : forall k, denotes s n k -> numeral 10 dec_digits s n /\ k = String.length s).
    { intros k D. inversion D as [s0 n0 Q E1 E2|p' s0 n0 I' Q E1]; subst; [auto|].
      exfalso. rewrite (NP p' s0 I' eq_refl) in Q. inversion Q. }
    destruct (all_in_set false s) eqn:A; cbn [negb].
    + destruct (set_numeral false s 0 A NE) as (m & Q & X). rewrite X. rewrite ?N.mul_0_l, ?N.add_0_l.
      destruct (Nat.ltb_spec 10 (String.length s)) as [L|L].
      * split; [discriminate|]. intros (k & D & K & _). apply INV in D. lia.
      * destruct (N.shiftr m 32 =? 0) eqn:Z; cbn [negb].
        -- apply SH in Z. split.
           ++ intros E. injection E as <-. exists (String.length s). repeat split; auto. constructor; assumption.
           ++ intros (k & D & _). apply INV in D. f_equal. apply (numeral_fun false 10 s); tauto.
        -- split; [discriminate|]. intros (k & D & _ & B). apply INV in D. destruct D as (D & _).
           rewrite (numeral_fun false 10 s n D m Q) in B. apply SH in B. congruence.
    + split; [discriminate|]. intros (k & D & _). apply INV in D. destruct D as (D & _). apply (numeral_set false) in D. destruct D; congruence.
Qed.

(** A notation has one value, so acceptance with another number is impossible. *)
Theorem C38_one_value s n k n' k' : denotes s n k -> denotes s n' k' -> n = n' /\ k = k'.
Proof.
  intros D D'. inversion D as [s0 n0 Q E1 E2|p s0 n0 I Q E1]; inversion D' as [s1 n1 Q' E1' E2'|p' s1 n1 I' Q' E1']; subst.
  - split; [apply (numeral_fun false 10 s); assumption|reflexivity].
  - exfalso. apply (numeral_set false) in Q. destruct Q as (Q & _).
    destruct I' as [<-|[<-|[<-|[<-|[]]]]]; discriminate.
  - exfalso. apply (numeral_set false) in Q'. destruct Q' as (Q' & _).
    destruct I as [<-|[<-|[<-|[<-|[]]]]]; discriminate.
  - assert (s1 = s0) as ->.
    { destruct I as [<-|[<-|[<-|[<-|[]]]]], I' as [<-|[<-|[<-|[<-|[]]]]]; cbn in E1'; inversion E1'; auto; subst;
      first [apply (numeral_set true) in Q; destruct Q as (Q & _); discriminate | apply (numeral_set true) in Q'; destruct Q' as (Q' & _); discriminate]. }
    split; [apply (numeral_fun true 16 s0); assumption|reflexivity].
Qed.

(** Refuted: leading zeros.  A number that fits is refused when written with more
    than ten digits. *)
Theorem C38_leading_zeros_refuted : exists s n k, denotes s n k /\ n < 2 ^ 32 /\ parse_u32 s = None.
Proof.
  exists "0x00000000001"%string, 1, 11%nat. split; [|split; [reflexivity|vm_compute; reflexivity]].
  change 1 with (0 * 16 ^ 10 + (0 * 16 ^ 9 + (0 * 16 ^ 8 + (0 * 16 ^ 7 + (0 * 16 ^ 6 + (0 * 16 ^ 5 + (0 * 16 ^ 4 + (0 * 16 ^ 3 + (0 * 16 ^ 2 + (0 * 16 ^ 1 + 1)))))))))) at 1.
  apply (den_hex "0x" "00000000001"); [cbn; tauto|].
  do 10 (apply (num_more 16 hex_digits "0" 0); [cbn; tauto|]). constructor. cbn. tauto.
Qed.

Example C38_case :
  (exists k, denotes "0x1F" 31 k /\ (k <= 10)%nat /\ 31 < 2 ^ 32) /\
  parse_u32 "0x1F" = Some 31 /\ parse_u32 "XfF" = Some 255 /\ parse_u32 "010" = Some 10 /\
  parse_u32 "4294967295" = Some 4294967295 /\ parse_u32 "4294967296" = None /\
  parse_u32 "0x100000000" = None /\ parse_u32 "12a" = None /\ parse_u32 "0x" = None /\ parse_u32 "-1" = None.
Proof.
  split; [apply C38_number; vm_compute; reflexivity|]. vm_compute. repeat split.
Qed.

Print Assumptions C38_number.
Print Assumptions C38_one_value.
Print Assumptions C38_leading_zeros_refuted.
