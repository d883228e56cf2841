(** C120: the address decoders generated for firmware. *)
From Coq Require Import NArith List Bool String Ascii Permutation Sorted Lia PeanoNat ZifyBool ZifyNat ZifyN.
From Verif Require Import Word AddrDecode.
Import ListNotations.
Open Scope N_scope.

(** ** Specification *)

(** std_match of VHDL, for an address of 32 bits: the first character is for the
    highest bit, and a hyphen is for any value. *)
Fixpoint matches (addr : N) (bits : nat) (p : list ascii) : Prop :=
  match bits, p with
  | O, [] => True
  | S b, c :: r => (c = "-"%char \/ c = (if N.testbit addr (N.of_nat b) then "1" else "0")%char) /\ matches addr b r
  | _, _ => False
  end.
(** What an if statement selects. *)
Inductive chooses (addr : N) (otherwise : N) : list (list ascii * N) -> N -> Prop :=
| chooses_else : chooses addr otherwise [] otherwise
| chooses_this p k r : matches addr 32 p -> chooses addr otherwise ((p, k) :: r) k
| chooses_later p k r k' : ~ matches addr 32 p -> chooses addr otherwise r k' -> chooses addr otherwise ((p, k) :: r) k'.
Definition selects (d : decoder) (addr k : N) : Prop :=
  match dec_sel d with Always j => k = j | Chain b o => chooses addr o b k end.

(** The addresses of an endpoint. *)
Definition within (a w x : N) : Prop := a <= x < a + 2 ^ w.

(** Nodes below a node, and endpoints below it with no other endpoint in between. *)
Inductive below : dnode -> dnode -> Prop :=
| below_child n c : In c (d_desc n) -> below n c
| below_deeper n c m : In c (d_desc n) -> below c m -> below n m.
Inductive endpoint_of : dnode -> dnode -> Prop :=
| ep_child n c : In c (d_desc n) -> d_flag c = true -> endpoint_of n c
| ep_deeper n c m : In c (d_desc n) -> d_flag c = false -> endpoint_of c m -> endpoint_of n m.

(** The constant of an endpoint: N_SLV_ and the path, in capitals and with underscores for
    the full stops. *)
Definition shown_as (a b : ascii) : Prop :=
  if Ascii.eqb a "." then b = "_"%char
  else if (97 <=? N_of_ascii a) && (N_of_ascii a <=? 122) then N_of_ascii b + 32 = N_of_ascii a else b = a.
Definition constant_for (path c : string) : Prop :=
  exists r, c = ("N_SLV_" ++ r)%string /\ Forall2 shown_as (list_ascii_of_string path) (list_ascii_of_string r).

(** ** Bits *)

Lemma testbit_high a b : a < 2 ^ 32 -> 32 <= b -> N.testbit a b = false.
Proof.
  intros A B. destruct (N.eq_dec a 0) as [->|NZ]; [apply N.bits_0|]. apply N.bits_above_log2. apply N.log2_lt_pow2 in A; lia.
Qed.

Lemma mask_testbit w b : N.testbit (2 ^ w - 1) b = (b <? w).
Proof.
  rewrite N.sub_1_r, <- N.ones_equiv. destruct (N.ltb_spec b w) as [L|L]; [apply N.ones_spec_low; exact L|apply N.ones_spec_high; exact L].
Qed.

Lemma inv_testbit x b : b < 32 -> N.testbit (inv x) b = negb (N.testbit x b).
Proof.
  intros B. unfold inv. rewrite N.lxor_spec, mask_testbit. destruct (N.ltb_spec b 32); [|lia]. apply xorb_true_r.
Qed.

Lemma or_testbit l : forall o b, b < 32 -> N.testbit (fold_left (fun o s => N.lor o (N.land (sl_addr s) (inv (mask_bits s)))) l o) b =
  N.testbit o b || existsb (fun s => N.testbit (sl_addr s) b && negb (b <? sl_width s)) l.
Proof.
  induction l as [|s l IH]; intros o b B; cbn [fold_left existsb]; [rewrite orb_false_r; reflexivity|].
  rewrite IH by exact B. rewrite N.lor_spec, N.land_spec, inv_testbit by exact B. unfold mask_bits. rewrite mask_testbit, orb_assoc. reflexivity.
Qed.

Lemma and_testbit l : forall a b, N.testbit (fold_left (fun a s => N.land a (N.lor (sl_addr s) (mask_bits s))) l a) b =
  N.testbit a b && forallb (fun s => N.testbit (sl_addr s) b || (b <? sl_width s)) l.
Proof.
  induction l as [|s l IH]; intros a b; cbn [fold_left forallb]; [rewrite andb_true_r; reflexivity|].
  rewrite IH, N.land_spec, N.lor_spec. unfold mask_bits. rewrite mask_testbit, andb_assoc. reflexivity.
Qed.

(** Two slaves with different values of a bit above both widths: it is compared. *)
Lemma addr_mask_testbit l s t b : In s l -> In t l -> b < 32 -> sl_width s <= b -> sl_width t <= b ->
  N.testbit (sl_addr s) b <> N.testbit (sl_addr t) b -> N.testbit (addr_mask l) b = true.
Proof.
  intros IS IT B WS WT D.
  assert (X : exists u v, In u l /\ In v l /\ sl_width u <= b /\ sl_width v <= b /\ N.testbit (sl_addr u) b = true /\ N.testbit (sl_addr v) b = false).
  { destruct (N.testbit (sl_addr s) b) eqn:E1, (N.testbit (sl_addr t) b) eqn:E2; try congruence; [exists s, t|exists t, s]; auto 10. }
  destruct X as (u & v & IU & IV & WU & WV & TU & TV). unfold addr_mask. rewrite N.land_spec, inv_testbit by exact B.
  unfold or_prod, and_prod. rewrite or_testbit by exact B. rewrite and_testbit. rewrite N.bits_0, orb_false_l.
  apply andb_true_intro. split.
  - apply existsb_exists. exists u. split; [exact IU|]. rewrite TU. destruct (N.ltb_spec b (sl_width u)); [lia|reflexivity].
  - apply negb_true_iff. apply andb_false_iff. right. apply not_true_iff_false. intros F. rewrite forallb_forall in F. specialize (F v IV). rewrite TV in F.
    destruct (N.ltb_spec b (sl_width v)); [lia|discriminate].
Qed.

Lemma aligned_bits a w x b : N.land a (2 ^ w - 1) = 0 -> within a w x -> w <= b -> N.testbit x b = N.testbit a b.
Proof.
  intros AL (L & U) B.
  assert (M : a mod 2 ^ w = 0) by (rewrite <- N.land_ones, N.ones_equiv, <- N.sub_1_r; exact AL).
  assert (P : 2 ^ w <> 0) by (apply N.pow_nonzero; lia).
  assert (Q : x / 2 ^ w = a / 2 ^ w).
  { assert (A2 := N.div_mod a (2 ^ w) P). rewrite M in A2. symmetry. apply N.div_unique with (r := x - a); [lia|]. lia. }
  replace b with ((b - w) + w) by lia. rewrite <- !N.div_pow2_bits. rewrite Q. reflexivity.
Qed.

Lemma bits_eq_div a c w : (forall b, w <= b -> N.testbit a b = N.testbit c b) -> a / 2 ^ w = c / 2 ^ w.
Proof. intros H. apply N.bits_inj. intros b. rewrite !N.div_pow2_bits. apply H. lia. Qed.

Lemma aligned_div a w : N.land a (2 ^ w - 1) = 0 -> a = 2 ^ w * (a / 2 ^ w).
Proof.
  intros AL. assert (M : a mod 2 ^ w = 0) by (rewrite <- N.land_ones, N.ones_equiv, <- N.sub_1_r; exact AL).
  assert (P : 2 ^ w <> 0) by (apply N.pow_nonzero; lia). assert (A2 := N.div_mod a (2 ^ w) P). rewrite M, N.add_0_r in A2. exact A2.
Qed.

(** Aligned ranges that do not overlap differ in a bit above both widths. *)
Lemma disjoint_bit s t : sl_addr s < 2 ^ 32 -> sl_addr t < 2 ^ 32 -> sl_width s <= sl_width t ->
  N.land (sl_addr s) (2 ^ sl_width s - 1) = 0 -> N.land (sl_addr t) (2 ^ sl_width t - 1) = 0 ->
  pair_error s t = false -> pair_error t s = false ->
  exists b, b < 32 /\ sl_width s <= b /\ sl_width t <= b /\ N.testbit (sl_addr s) b <> N.testbit (sl_addr t) b.
Proof.
  intros AS AT W LS LT E1 E2.
  destruct (existsb (fun b => (sl_width t <=? N.of_nat b) && negb (Bool.eqb (N.testbit (sl_addr s) (N.of_nat b)) (N.testbit (sl_addr t) (N.of_nat b)))) (seq 0 32)) eqn:X.
  - apply existsb_exists in X. destruct X as (b & I & X). apply in_seq in I. apply andb_prop in X. destruct X as (X1 & X2).
    apply negb_true_iff, eqb_false_iff in X2. exists (N.of_nat b). apply N.leb_le in X1. repeat split; try lia; exact X2.
  - exfalso. assert (EQ : sl_addr s / 2 ^ sl_width t = sl_addr t / 2 ^ sl_width t).
    { apply bits_eq_div. intros b B. destruct (N.lt_ge_cases b 32) as [L|L]; [|rewrite !testbit_high by assumption; reflexivity].
      destruct (Bool.eqb (N.testbit (sl_addr s) b) (N.testbit (sl_addr t) b)) eqn:Q; [apply eqb_prop in Q; exact Q|].
      apply not_true_iff_false in X. exfalso. apply X. apply existsb_exists. exists (N.to_nat b). split; [apply in_seq; lia|].
      rewrite N2Nat.id, Q. destruct (N.leb_spec (sl_width t) b); [reflexivity|lia]. }
    apply aligned_div in LT. assert (P : 2 ^ sl_width t <> 0) by (apply N.pow_nonzero; lia).
    assert (DS := N.div_mod (sl_addr s) (2 ^ sl_width t) P). assert (MS := N.mod_lt (sl_addr s) (2 ^ sl_width t) P). rewrite EQ in DS.
    unfold pair_error in E1, E2. clear - DS MS LT E1 E2. assert (sl_addr t <= sl_addr s < sl_addr t + 2 ^ sl_width t) by lia. lia.
Qed.

(** ** The decoder selects the endpoint *)

Lemma matches_pattern x mask addr : forall n, matches x n (map (fun i => if negb (N.testbit mask (N.of_nat i)) then "-"%char else if N.testbit addr (N.of_nat i) then "1"%char else "0"%char) (rev (seq 0 n))) <->
  forall b, b < N.of_nat n -> N.testbit mask b = true -> N.testbit x b = N.testbit addr b.
Proof.
  induction n as [|n IH]; [cbn; split; [intros _ b B; lia|auto]|].
  rewrite seq_S, rev_app_distr. cbn [rev app map matches plus]. rewrite IH. clear IH. split.
  - intros (H & R) b B M. destruct (N.eq_dec b (N.of_nat n)) as [->|NE]; [|apply R; [lia|exact M]].
    rewrite M in H. cbn [negb] in H. destruct (N.testbit x (N.of_nat n)), (N.testbit addr (N.of_nat n)); destruct H as [H|H]; try discriminate; reflexivity.
  - intros H. split; [|intros b B M; apply H; [lia|exact M]].
    destruct (N.testbit mask (N.of_nat n)) eqn:M; [|left; reflexivity]. right. cbn [negb]. rewrite (H (N.of_nat n)); [reflexivity|lia|exact M].
Qed.

Definition ok_slaves (l : list slave) : Prop :=
  Forall (fun s => sl_addr s < 2 ^ 32 /\ sl_width s <= 32 /\ N.land (sl_addr s) (mask_bits s) = 0) l /\
  forall i j s t, nth_error l i = Some s -> nth_error l j = Some t -> i <> j -> pair_error s t = false.

Lemma number_nth {A} (l : list A) : forall k i x, nth_error l i = Some x -> nth_error (number k l) i = Some (x, k + N.of_nat i).
Proof.
  induction l as [|y l IH]; intros k [|i] x E; cbn [nth_error number] in *; try discriminate.
  - injection E as <-. f_equal. f_equal. lia.
  - rewrite (IH (k + 1) i x E). f_equal. f_equal. lia.
Qed.
Lemma number_length {A} (l : list A) : forall k, List.length (number k l) = List.length l.
Proof. induction l as [|y l IH]; intros k; cbn; [reflexivity|]. rewrite IH. reflexivity. Qed.

Lemma chooses_nth x o : forall br i p k, nth_error br i = Some (p, k) -> matches x 32 p ->
  (forall j q m, (j < i)%nat -> nth_error br j = Some (q, m) -> ~ matches x 32 q) -> chooses x o br k.
Proof.
  induction br as [|(q, m) br IH]; intros [|i] p k E M H; try discriminate.
  - cbn in E. injection E as <- <-. apply chooses_this. exact M.
  - apply chooses_later; [apply (H O q m); [lia|reflexivity]|]. apply (IH i p k E M). intros j q' m' J E'. apply (H (S j) q' m'); [lia|exact E'].
Qed.

Lemma emit_selects l i s x : ok_slaves l -> nth_error l i = Some s -> within (sl_addr s) (sl_width s) x -> selects (emit l) x (N.of_nat i).
Proof.
  intros (F & D) E W. unfold selects, emit. cbn [dec_sel].
  destruct l as [|s0 [|s1 r]]; [destruct i; discriminate|destruct i as [|[|i]]; [reflexivity|discriminate|discriminate]|].
  set (l := s0 :: s1 :: r) in *. clearbody l. rewrite Forall_forall in F.
  assert (IS := nth_error_In _ _ E). destruct (F _ IS) as (AS & WS & LS).
  eapply (chooses_nth _ _ _ i).
  - rewrite nth_error_map, (number_nth _ 0 i s E). cbn [option_map fst snd]. rewrite N.add_0_l. reflexivity.
  - apply matches_pattern. intros b B M. rewrite N.land_spec, inv_testbit in M by lia. unfold mask_bits in M. rewrite mask_testbit in M.
    apply andb_prop in M. destruct M as (_ & M). apply (aligned_bits _ (sl_width s)); [exact LS|exact W|]. destruct (N.ltb_spec b (sl_width s)); [discriminate|assumption].
  - intros j q m J EJ. rewrite nth_error_map in EJ. destruct (nth_error l j) as [t|] eqn:ET; [|assert (X : nth_error (number 0 l) j = None) by (apply nth_error_None; rewrite number_length; apply nth_error_None; exact ET); rewrite X in EJ; discriminate].
    rewrite (number_nth _ 0 j t ET) in EJ. cbn [option_map fst snd] in EJ. injection EJ as <- _. intros MA. unfold pattern in MA. rewrite matches_pattern in MA.
    assert (IT := nth_error_In _ _ ET). destruct (F _ IT) as (AT & WT & LT).
    assert (NE : i <> j) by lia. assert (P1 := D _ _ _ _ E ET NE). assert (P2 := D _ _ _ _ ET E (fun h => NE (eq_sym h))).
    assert (B : exists b, b < 32 /\ sl_width s <= b /\ sl_width t <= b /\ N.testbit (sl_addr s) b <> N.testbit (sl_addr t) b).
    { destruct (N.le_ge_cases (sl_width s) (sl_width t)) as [C|C]; [apply disjoint_bit; assumption|].
      destruct (disjoint_bit t s AT AS C LT LS P2 P1) as (b & B1 & B2 & B3 & B4). exists b. auto. }
    destruct B as (b & B1 & B2 & B3 & B4).
    assert (X : N.testbit x b = N.testbit (sl_addr t) b).
    { apply MA; [exact B1|]. rewrite N.land_spec, inv_testbit by exact B1. unfold mask_bits. rewrite mask_testbit.
      rewrite (addr_mask_testbit l s t b IS IT B1 B2 B3 B4). destruct (N.ltb_spec b (sl_width t)); [lia|reflexivity]. }
    assert (Y := aligned_bits _ _ x b LS W B2). congruence.
Qed.

(** ** The tree *)

Fixpoint dnode_ind' (P : dnode -> Prop) (H : forall nm a f s w ds, Forall P ds -> P (DNode nm a f s w ds)) (n : dnode) : P n :=
  match n with
  | DNode nm a f s w ds =>
      H nm a f s w ds ((fix go (l : list dnode) : Forall P l := match l with [] => Forall_nil P | x :: r => Forall_cons x (dnode_ind' P H x) (go r) end) ds)
  end.

Lemma flagged_endpoint n : forall e, In e (flagged n) <-> endpoint_of n e.
Proof.
  induction n as [nm a f s w ds IH] using dnode_ind'. intros e. cbn [flagged]. rewrite in_flat_map. rewrite Forall_forall in IH. split.
  - intros (c & I & H). destruct (d_flag c) eqn:F.
    + destruct H as [<-|[]]. apply ep_child; assumption.
    + apply (ep_deeper _ c); [exact I|exact F|]. apply IH; assumption.
  - intros H. inversion H as [? c I F|? c m I F E]; subst; cbn [d_desc] in I.
    + exists e. split; [exact I|]. rewrite F. left. reflexivity.
    + exists c. split; [exact I|]. rewrite F. apply IH; assumption.
Qed.

Lemma all_below n : forall m, In m (all_of n) <-> below n m.
Proof.
  induction n as [nm a f s w ds IH] using dnode_ind'. intros m. cbn [all_of]. rewrite in_flat_map. rewrite Forall_forall in IH. split.
  - intros (c & I & [->|H]); [apply below_child; exact I|]. apply (below_deeper _ c); [exact I|]. apply IH; assumption.
  - intros H. inversion H as [? c I|? c m' I E]; subst; cbn [d_desc] in I.
    + exists m. split; [exact I|left; reflexivity].
    + exists c. split; [exact I|right]. apply IH; assumption.
Qed.

Lemma ep_below n e : endpoint_of n e -> below n e.
Proof. induction 1 as [n c I F|n c m I F E IH]; [apply below_child; exact I|apply (below_deeper _ c); assumption]. Qed.

Lemma ep_flag n e : endpoint_of n e -> d_flag e = true.
Proof. induction 1; assumption. Qed.

Section Generate.
Variable up : N -> N.

Definition pn (n : dnode) : dnode := a_node (process up n).

Lemma finish_kept nm a f s w ds e c : let n := a_node (finish up nm a f s w ds e c) in
  d_name n = nm /\ d_addr n = a /\ d_flag n = f /\ d_size n = s /\ d_desc n = ds /\ (forall v, w = Some v -> d_width n = Some v).
Proof.
  cbv zeta. unfold finish. destruct (flagged (DNode nm a f s w ds)).
  - cbn. repeat split. intros v ->. reflexivity.
  - destruct (max_addr _ _) as [m|]; [|cbn; auto 10]. destruct w as [w|]; cbn; repeat split; auto. discriminate.
Qed.

Lemma pn_kept n : d_name (pn n) = d_name n /\ d_addr (pn n) = d_addr n /\ d_flag (pn n) = d_flag n /\ d_size (pn n) = d_size n /\
  (forall v, d_width n = Some v -> d_width (pn n) = Some v).
Proof.
  unfold pn. destruct n as [nm a f s w ds]. cbn [process]. destruct f.
  - destruct (finish_kept nm a true s w (sort (map a_node (map (process up) ds))) (list_sum (map a_errors (map (process up) ds))) (existsb a_crash (map (process up) ds))) as (A & B & C & D & E & F).
    cbn [d_name d_addr d_flag d_size d_width]. auto.
  - cbn. auto.
Qed.

Lemma pn_desc n : d_desc (pn n) = if d_flag n then sort (map pn (d_desc n)) else map pn (d_desc n).
Proof.
  unfold pn. destruct n as [nm a f s w ds]. cbn [process d_flag d_desc]. destruct f.
  - destruct (finish_kept nm a true s w (sort (map a_node (map (process up) ds))) (list_sum (map a_errors (map (process up) ds))) (existsb a_crash (map (process up) ds))) as (A & B & C & D & E & F).
    rewrite E, map_map. reflexivity.
  - cbn [a_node d_desc]. rewrite map_map. reflexivity.
Qed.

Lemma insert_map n l : insert (pn n) (map pn l) = map pn (insert n l).
Proof.
  induction l as [|m l IH]; [reflexivity|]. cbn [map insert]. destruct (pn_kept n) as (_ & -> & _). destruct (pn_kept m) as (_ & -> & _).
  destruct (d_addr n <=? d_addr m); [reflexivity|]. cbn [map]. rewrite IH. reflexivity.
Qed.

Lemma sort_map l : sort (map pn l) = map pn (sort l).
Proof. unfold sort. induction l as [|n l IH]; [reflexivity|]. cbn [map fold_right]. rewrite IH. apply insert_map. Qed.

Lemma insert_perm n l : Permutation (insert n l) (n :: l).
Proof.
  induction l as [|m l IH]; [reflexivity|]. cbn [insert]. destruct (d_addr n <=? d_addr m); [reflexivity|].
  rewrite IH. apply perm_swap.
Qed.
Lemma sort_perm l : Permutation (sort l) l.
Proof. unfold sort. induction l as [|n l IH]; [reflexivity|]. cbn [fold_right]. rewrite insert_perm. constructor. exact IH. Qed.
Lemma sort_in l n : In n (sort l) <-> In n l.
Proof. split; apply Permutation_in; [|symmetry]; apply sort_perm. Qed.

Lemma flagged_map ds : Forall (fun n => d_flag n = false -> flagged (pn n) = map pn (flagged n)) ds ->
  flat_map (fun i => if d_flag i then [i] else flagged i) (map pn ds) = map pn (flat_map (fun i => if d_flag i then [i] else flagged i) ds).
Proof.
  induction 1 as [|n l H F IH]; [reflexivity|]. cbn [map flat_map]. rewrite IH, map_app. f_equal.
  destruct (pn_kept n) as (_ & _ & -> & _). destruct (d_flag n) eqn:E; [reflexivity|]. apply H. reflexivity.
Qed.

Lemma flagged_desc n : flagged n = flat_map (fun i => if d_flag i then [i] else flagged i) (d_desc n).
Proof. destruct n. reflexivity. Qed.
Lemma leaves_desc n : leaves n = flat_map (fun i => if d_flag i then [] else match d_desc i with [] => [i] | _ :: _ => leaves i end) (d_desc n).
Proof. destruct n. reflexivity. Qed.

Lemma flagged_pn n : d_flag n = false -> flagged (pn n) = map pn (flagged n).
Proof.
  induction n as [nm a f s w ds IH] using dnode_ind'. intros F. rewrite flagged_desc, pn_desc, F. cbn [d_desc]. rewrite flagged_map by exact IH. reflexivity.
Qed.

Lemma leaves_pn n : d_flag n = false -> leaves (pn n) = map pn (leaves n).
Proof.
  induction n as [nm a f s w ds IH] using dnode_ind'. intros F. rewrite leaves_desc, pn_desc, F. cbn [d_desc leaves]. clear F.
  induction IH as [|n l H FF IHl]; [reflexivity|]. cbn [map flat_map]. rewrite IHl, map_app. f_equal. clear IHl.
  destruct (pn_kept n) as (_ & _ & K & _). rewrite K. destruct (d_flag n) eqn:E; [reflexivity|]. rewrite pn_desc, E.
  destruct (d_desc n) as [|c r] eqn:D; [reflexivity|]. cbn [map]. apply H. reflexivity.
Qed.

(** No error and no exception at the top: none at an endpoint. *)
Lemma sum_zero l : list_sum l = O -> forall x, In x l -> x = O.
Proof. induction l as [|y l IH]; cbn [list_sum fold_right]; intros H x []; [subst; lia|]. apply IH; [unfold list_sum; lia|assumption]. Qed.

Lemma finish_errors nm a f s w ds e c : a_crash (finish up nm a f s w ds e c) = false -> a_errors (finish up nm a f s w ds e c) = O -> e = O /\ c = false.
Proof.
  unfold finish. destruct (flagged (DNode nm a f s w ds)); [cbn [a_crash a_errors]; intros -> H; split; [lia|reflexivity]|].
  destruct (max_addr _ _); [|discriminate]. destruct w; cbn [a_crash a_errors].
  - intros -> H. split; [lia|reflexivity].
  - intros C H. apply orb_false_iff in C. destruct C as (-> & _). split; [lia|reflexivity].
Qed.

Lemma clean_list ds : list_sum (map a_errors (map (process up) ds)) = O -> existsb a_crash (map (process up) ds) = false ->
  forall c, In c ds -> a_errors (process up c) = O /\ a_crash (process up c) = false.
Proof.
  intros S C c I. split.
  - apply (sum_zero _ S). rewrite map_map. apply in_map_iff. exists c. auto.
  - apply not_true_iff_false. intros T. apply not_true_iff_false in C. apply C. apply existsb_exists. exists (process up c). split; [apply in_map; exact I|exact T].
Qed.

Lemma clean_endpoint n : d_flag n = false -> a_errors (process up n) = O -> a_crash (process up n) = false ->
  forall e, In e (flagged n) -> a_errors (process up e) = O /\ a_crash (process up e) = false.
Proof.
  induction n as [nm a f s w ds IH] using dnode_ind'. intros F. cbn [d_flag] in F. subst f. cbn [process a_errors a_crash flagged]. intros S C e I.
  apply in_flat_map in I. destruct I as (c & I & H). destruct (clean_list ds S C c I) as (E1 & E2). destruct (d_flag c) eqn:FC.
  - destruct H as [<-|[]]. auto.
  - rewrite Forall_forall in IH. apply (IH c I FC E1 E2 e H).
Qed.

(** What the root becomes. *)
Lemma root_flagged root : flagged (a_node (assign_widths up root)) = map pn (flat_map (fun i => if d_flag i then [i] else flagged i) (sort (d_desc root))).
Proof.
  destruct root as [nm a f s w ds]. cbn [assign_widths d_desc].
  destruct (finish_kept nm a f s w (sort (map a_node (map (process up) ds))) (list_sum (map a_errors (map (process up) ds))) (existsb a_crash (map (process up) ds))) as (A & B & C & D & E & F).
  rewrite flagged_desc, E. rewrite map_map. change (map (fun x => a_node (process up x)) ds) with (map pn ds). rewrite sort_map. apply flagged_map.
  apply Forall_forall. intros n _. apply flagged_pn.
Qed.

Lemma root_endpoint root e : In e (flat_map (fun i => if d_flag i then [i] else flagged i) (sort (d_desc root))) <-> endpoint_of root e.
Proof.
  rewrite <- flagged_endpoint, flagged_desc, !in_flat_map. split; intros (c & I & H); exists c; split; auto; first [apply (proj1 (sort_in _ _)) in I|apply (proj2 (sort_in _ _))]; assumption.
Qed.

Lemma root_clean root e : a_crash (assign_widths up root) = false -> a_errors (assign_widths up root) = O -> endpoint_of root e ->
  a_errors (process up e) = O /\ a_crash (process up e) = false.
Proof.
  destruct root as [nm a f s w ds]. cbn [assign_widths]. intros C E EP. destruct (finish_errors _ _ _ _ _ _ _ _ C E) as (E0 & C0).
  apply flagged_endpoint in EP. cbn [flagged] in EP. apply in_flat_map in EP. destruct EP as (c & I & H).
  destruct (clean_list ds E0 C0 c I) as (E1 & E2). destruct (d_flag c) eqn:FC; [destruct H as [<-|[]]; auto|]. apply (clean_endpoint c FC E1 E2 e H).
Qed.

(** A bottom-layer endpoint: its width and what was checked. *)
Definition plain_width (e : dnode) : N := match d_width e with Some w => w | None => 0 end.

Lemma nothing_flagged n : (forall m, ~ endpoint_of n m) -> flagged n = [].
Proof. intros H. destruct (flagged n) as [|m r] eqn:E; [reflexivity|]. exfalso. apply (H m). apply flagged_endpoint. rewrite E. left. reflexivity. Qed.

Lemma unflagged_same n : d_flag n = false -> flagged n = [] -> process up n = {| a_node := n; a_errors := 0; a_crash := false |}.
Proof.
  induction n as [nm a f s w ds IH] using dnode_ind'. intros F E. cbn [d_flag] in F. subst f. cbn [flagged] in E. cbn [process].
  assert (X : map (process up) ds = map (fun n => {| a_node := n; a_errors := 0; a_crash := false |}) ds).
  { induction IH as [|n l H FF IHl]; [reflexivity|]. cbn [flat_map] in E. apply app_eq_nil in E. destruct E as (E1 & E2). cbn [map]. rewrite IHl by exact E2. f_equal.
    destruct (d_flag n) eqn:FN; [discriminate|]. apply H; auto. }
  rewrite X, !map_map. cbn [a_node a_errors]. rewrite map_id. f_equal.
  - clear. induction ds as [|n l IH]; [reflexivity|]. cbn [map list_sum fold_right]. exact IH.
  - clear. induction ds as [|n l IH]; [reflexivity|]. cbn [map existsb a_crash orb]. exact IH.
Qed.

Lemma bottom_same e : flagged e = [] -> map (process up) (d_desc e) = map (fun n => {| a_node := n; a_errors := 0; a_crash := false |}) (d_desc e).
Proof.
  rewrite flagged_desc. generalize (d_desc e). intros ds E. induction ds as [|n l IH]; [reflexivity|]. cbn [flat_map] in E. apply app_eq_nil in E. destruct E as (E1 & E2).
  cbn [map]. rewrite IH by exact E2. f_equal. destruct (d_flag n) eqn:FN; [discriminate|]. apply unflagged_same; assumption.
Qed.

Lemma map_plain ds : map a_node (map (fun n => {| a_node := n; a_errors := 0; a_crash := false |}) ds) = ds.
Proof. rewrite map_map. apply map_id. Qed.

Lemma flagged_sort nm a f s w nm' a' f' s' w' ds : flagged (DNode nm a f s w ds) = [] -> flagged (DNode nm' a' f' s' w' (sort ds)) = [].
Proof.
  intros E. apply nothing_flagged. intros m H. apply flagged_endpoint in H. cbn [flagged] in *. apply in_flat_map in H. destruct H as (c & I & H).
  apply (proj1 (sort_in _ _)) in I. assert (X : In m (flat_map (fun i => if d_flag i then [i] else flagged i) ds)) by (apply in_flat_map; exists c; split; assumption).
  rewrite E in X. destruct X.
Qed.

Lemma bottom_ok e : d_flag e = true -> flagged e = [] -> a_errors (process up e) = O ->
  d_width (pn e) = Some (plain_width e) /\ d_size e <= 2 ^ plain_width e /\ forall m, below e m -> d_addr m + d_size m <= d_addr e + 2 ^ plain_width e.
Proof.
  intros F E. assert (S := bottom_same e E). unfold pn. destruct e as [nm a f s w ds]. cbn [d_flag] in F. subst f. cbn [d_desc] in S. cbn [process]. rewrite S, map_plain.
  unfold finish. rewrite (flagged_sort _ _ _ _ _ nm a true s w ds E). cbn [a_node a_errors d_width plain_width d_size d_addr].
  set (W := match w with Some w => w | None => 0 end). intros Z. split; [reflexivity|].
  destruct (2 ^ W <? s) eqn:C1; [cbn [err] in Z; lia|]. apply N.ltb_ge in C1. split; [exact C1|]. intros m B.
  destruct (filter (fun i => a + 2 ^ W <? d_addr i + d_size i) (all_of (DNode nm a true s w (sort ds)))) as [|x r] eqn:FL; [|cbn [List.length] in Z; lia].
  destruct (N.le_gt_cases (d_addr m + d_size m) (a + 2 ^ W)) as [L|L]; [exact L|]. exfalso.
  assert (I : In m []); [|destruct I]. rewrite <- FL. apply filter_In. split; [|apply N.ltb_lt; exact L].
  apply all_below in B. cbn [all_of] in *. apply in_flat_map in B. destruct B as (c & I & H). apply in_flat_map. exists c. split; [apply (proj2 (sort_in _ _)); exact I|exact H].
Qed.

(** ** What is written *)

Lemma slaves_of_ok l sl : slaves_of l = Some sl -> forall i n, nth_error l i = Some n -> exists w, d_width n = Some w /\ nth_error sl i = Some {| sl_name := d_name n; sl_addr := d_addr n; sl_width := w |}.
Proof.
  revert sl. induction l as [|m l IH]; intros sl H i n E; [destruct i; discriminate|]. cbn [slaves_of] in H.
  destruct (d_width m) as [w|] eqn:W; [|discriminate]. destruct (slaves_of l) as [r|]; [|discriminate]. injection H as <-. destruct i as [|i]; cbn [nth_error] in *.
  - injection E as <-. exists w. auto.
  - apply (IH r eq_refl i n E).
Qed.
Lemma slaves_of_length l sl : slaves_of l = Some sl -> List.length sl = List.length l.
Proof.
  revert sl. induction l as [|m l IH]; intros sl H; cbn [slaves_of] in H; [injection H as <-; reflexivity|].
  destruct (d_width m) as [w|]; [|discriminate]. destruct (slaves_of l) as [r|]; [|discriminate]. injection H as <-. cbn [List.length]. rewrite (IH r eq_refl). reflexivity.
Qed.

Lemma pairs_in {A} (l : list A) i j x y : nth_error l i = Some x -> nth_error l j = Some y -> i <> j -> In (x, y) (pairs l).
Proof.
  revert i j. induction l as [|z l IH]; intros i j EI EJ N; [destruct i; discriminate|]. cbn [pairs]. rewrite !in_app_iff, !in_map_iff.
  destruct i as [|i], j as [|j]; cbn [nth_error] in *; try congruence.
  - injection EI as <-. left. exists y. split; [reflexivity|]. eapply nth_error_In. exact EJ.
  - injection EJ as <-. right. left. exists x. split; [reflexivity|]. eapply nth_error_In. exact EI.
  - right. right. apply (IH i j EI EJ). congruence.
Qed.

Lemma existsb_none {A} (f : A -> bool) l x : existsb f l = false -> In x l -> f x = false.
Proof. intros E I. apply not_true_iff_false. intros T. apply not_true_iff_false in E. apply E. apply existsb_exists. eauto. Qed.

Lemma chooses_fun x o br k : chooses x o br k -> forall k', chooses x o br k' -> k' = k.
Proof.
  induction 1 as [|p k r M|p k r k1 M H IH]; intros k' H'; inversion H'; subst; try tauto; auto.
Qed.
Lemma selects_fun d x k k' : selects d x k -> selects d x k' -> k' = k.
Proof. unfold selects. destruct (dec_sel d); [congruence|]. intros A B. exact (chooses_fun _ _ _ _ A _ B). Qed.

Lemma number_nth_error {A} (l : list A) : forall k i, nth_error (number k l) i = option_map (fun x => (x, k + N.of_nat i)) (nth_error l i).
Proof.
  induction l as [|y l IH]; intros k [|i]; cbn [number nth_error option_map]; try reflexivity; [replace (k + N.of_nat 0) with k by lia; reflexivity|].
  rewrite IH. destruct (nth_error l i); [|reflexivity]. cbn [option_map]. replace (k + 1 + N.of_nat i) with (k + N.of_nat (S i)) by lia. reflexivity.
Qed.
Lemma constant_ok path : constant_for path (constant_name path).
Proof.
  eexists. split; [reflexivity|]. rewrite list_ascii_of_string_of_list_ascii. induction (list_ascii_of_string path) as [|a l IH]; [constructor|]. cbn [map]. constructor; [|exact IH].
  clear. destruct a as [[] [] [] [] [] [] [] []]; vm_compute; reflexivity.
Qed.

Lemma select_full : forall root d, generate up root = Written d -> (forall m, below root m -> d_addr m < 2 ^ 32) ->
  exists eps : list (dnode * N),
  (forall e, endpoint_of root e <-> exists w, In (e, w) eps) /\
  (forall e w, In (e, w) eps -> d_width (pn e) = Some w /\ w <= 32 /\ d_addr e mod 2 ^ w = 0 /\ (forall v, d_width e = Some v -> w = v) /\
     ((forall m, ~ endpoint_of e m) -> w = plain_width e)) /\
  (forall i j e w e' w' x, nth_error eps i = Some (e, w) -> nth_error eps j = Some (e', w') -> within (d_addr e) w x -> within (d_addr e') w' x -> i = j) /\
  dec_slaves d = map (fun ek => (constant_name (d_name (fst (fst ek))), snd ek)) (number 0 eps) /\
  (forall i e w x, nth_error eps i = Some (e, w) -> within (d_addr e) w x -> forall k, selects d x k <-> k = N.of_nat i) /\
  N.of_nat (List.length eps) < 2 ^ dec_width d.
Proof.
  intros root d G A. unfold generate in G. destruct (a_crash (assign_widths up root)) eqn:CR; [discriminate|].
  destruct (Nat.eqb_spec (a_errors (assign_widths up root)) 0) as [ER|]; [cbn [negb] in G|discriminate].
  rewrite root_flagged in G. set (L := flat_map (fun i => if d_flag i then [i] else flagged i) (sort (d_desc root))) in *.
  assert (EL : forall e, In e L <-> endpoint_of root e) by (intros e; apply root_endpoint). clearbody L.
  destruct (slaves_of (map pn L)) as [sl|] eqn:SL; [|discriminate].
  destruct (existsb (fun s => 32 <? sl_width s) sl) eqn:X1; [discriminate|].
  destruct (existsb (fun p => pair_error (fst p) (snd p)) (pairs sl)) eqn:X2; [discriminate|].
  destruct (existsb (fun s => negb (N.land (sl_addr s) (mask_bits s) =? 0)) sl) eqn:X3; [discriminate|]. cbn [orb] in G. injection G as <-.
  assert (LEN := slaves_of_length _ _ SL). rewrite map_length in LEN.
  set (eps := combine L (map sl_width sl)).
  assert (NTH : forall i e w, nth_error eps i = Some (e, w) -> nth_error L i = Some e /\ nth_error sl i = Some {| sl_name := d_name e; sl_addr := d_addr e; sl_width := w |} /\ d_width (pn e) = Some w).
  { intros i e w E. unfold eps in E.
    assert (EI : nth_error L i = Some e /\ nth_error (map sl_width sl) i = Some w).
    { clear - E. revert E. generalize (map sl_width sl). revert i. induction L as [|y L IH]; intros [|i] [|v l] E; cbn [combine nth_error] in *; try discriminate; [injection E as <- <-; auto|apply IH; exact E]. }
    destruct EI as (EI & EW). split; [exact EI|].
    destruct (slaves_of_ok _ _ SL i (pn e)) as (w' & W' & S'); [rewrite nth_error_map, EI; reflexivity|].
    destruct (pn_kept e) as (K1 & K2 & _). rewrite K1, K2 in S'. rewrite nth_error_map, S' in EW. cbn in EW. injection EW as <-. auto. }
  assert (HAS : forall i e, nth_error L i = Some e -> exists w, nth_error eps i = Some (e, w)).
  { intros i e E. assert (LL : (i < List.length eps)%nat).
    { unfold eps. rewrite combine_length, map_length, LEN, Nat.min_id. apply nth_error_Some. congruence. }
    destruct (nth_error eps i) as [(e', w)|] eqn:Q; [|apply nth_error_None in Q; lia]. destruct (NTH _ _ _ Q) as (E' & _). exists w. congruence. }
  assert (OK : ok_slaves sl).
  { split.
    - apply Forall_forall. intros s I. assert (Y1 := existsb_none _ _ _ X1 I). assert (Y3 := existsb_none _ _ _ X3 I). cbn beta in Y1, Y3.
      apply N.ltb_ge in Y1. apply negb_false_iff, N.eqb_eq in Y3. split; [|auto].
      apply In_nth_error in I. destruct I as (i & I). destruct (nth_error L i) as [e|] eqn:E.
      + destruct (HAS i e E) as (w & Q). destruct (NTH _ _ _ Q) as (_ & S & _). rewrite I in S. injection S as ->. cbn [sl_addr]. apply A, ep_below, EL. eapply nth_error_In. exact E.
      + apply nth_error_None in E. assert (i < List.length sl)%nat by (apply nth_error_Some; congruence). lia.
    - intros i j s t EI EJ N. exact (existsb_none _ _ _ X2 (pairs_in _ _ _ _ _ EI EJ N)). }
  exists eps. split; [|split; [|split; [|split; [|split]]]].
  - intros e. rewrite <- EL. split.
    + intros I. apply In_nth_error in I. destruct I as (i & I). destruct (HAS i e I) as (w & Q). exists w. eapply nth_error_In. exact Q.
    + intros (w & I). apply In_nth_error in I. destruct I as (i & I). destruct (NTH _ _ _ I) as (E & _). eapply nth_error_In. exact E.
  - intros e w I. apply In_nth_error in I. destruct I as (i & I). destruct (NTH _ _ _ I) as (E & S & W). assert (IE := nth_error_In _ _ E). apply EL in IE.
    destruct OK as (F & _). rewrite Forall_forall in F. destruct (F _ (nth_error_In _ _ S)) as (_ & F2 & F3). cbn [sl_width sl_addr] in F2. unfold mask_bits in F3. cbn [sl_width sl_addr] in F3.
    split; [exact W|]. split; [exact F2|]. split; [rewrite <- N.land_ones, N.ones_equiv, <- N.sub_1_r; exact F3|]. destruct (pn_kept e) as (_ & _ & _ & _ & K). split.
    + intros v V. apply K in V. congruence.
    + intros NE. destruct (root_clean root e CR ER IE) as (CE & _). destruct (bottom_ok e (ep_flag _ _ IE) (nothing_flagged _ NE) CE) as (BW & _). congruence.
  - intros i j e w e' w' x EI EJ WI WJ. destruct (Nat.eq_dec i j) as [|NE]; [assumption|exfalso].
    destruct (NTH _ _ _ EI) as (_ & SI & _). destruct (NTH _ _ _ EJ) as (_ & SJ & _). destruct OK as (_ & D).
    assert (D1 := D _ _ _ _ SI SJ NE). assert (D2 := D _ _ _ _ SJ SI (fun h => NE (eq_sym h))). unfold pair_error, within in *. cbn [sl_addr sl_width] in D1, D2. lia.
  - cbn [emit dec_slaves].
    assert (GEN : forall L sl k, List.length sl = List.length L -> (forall i e, nth_error L i = Some e -> exists w, nth_error sl i = Some {| sl_name := d_name e; sl_addr := d_addr e; sl_width := w |}) ->
      map (fun sk => (constant_name (sl_name (fst sk)), snd sk)) (number k sl) = map (fun ek => (constant_name (d_name (fst (fst ek))), snd ek)) (number k (combine L (map sl_width sl)))).
    { clear. induction L as [|e L IH]; intros [|s sl] k LN H; try discriminate; [reflexivity|]. cbn [map combine number fst snd]. f_equal.
      - destruct (H O e eq_refl) as (w & E). cbn in E. injection E as ->. reflexivity.
      - apply IH; [cbn in LN; congruence|]. intros i e' E. exact (H (S i) e' E). }
    apply GEN; [exact LEN|]. intros i e E. destruct (HAS i e E) as (w & Q). destruct (NTH _ _ _ Q) as (_ & S & _). exists w. exact S.
  - intros i e w x E W k. destruct (NTH _ _ _ E) as (_ & S & _).
    assert (SEL := emit_selects sl i _ x OK S W). split; [intros H; exact (selects_fun _ _ _ _ SEL H)|intros ->; exact SEL].
  - unfold eps. rewrite combine_length, map_length, LEN, Nat.min_id. cbn [emit dec_width]. rewrite <- LEN. destruct sl as [|s r]; [reflexivity|].
    set (n := N.of_nat (List.length (s :: r))). assert (0 < n) by (unfold n; cbn [List.length]; lia). rewrite N.add_1_r. apply N.log2_spec. exact H.
Qed.

(** Everything about a decoder that was written. *)
Theorem C120_select : forall root d, generate up root = Written d -> (forall m, below root m -> d_addr m < 2 ^ 32) ->
  exists eps : list (dnode * N),
  (forall e, endpoint_of root e <-> exists w, In (e, w) eps) /\
  (forall e w, In (e, w) eps -> w <= 32 /\ d_addr e mod 2 ^ w = 0 /\ (forall v, d_width e = Some v -> w = v) /\
     ((forall m, ~ endpoint_of e m) -> w = plain_width e)) /\
  (forall i j e w e' w' x, nth_error eps i = Some (e, w) -> nth_error eps j = Some (e', w') -> within (d_addr e) w x -> within (d_addr e') w' x -> i = j) /\
  List.length (dec_slaves d) = List.length eps /\
  (forall i e w, nth_error eps i = Some (e, w) -> exists c, nth_error (dec_slaves d) i = Some (c, N.of_nat i) /\ constant_for (d_name e) c) /\
  (forall i e w x, nth_error eps i = Some (e, w) -> within (d_addr e) w x -> forall k, selects d x k <-> k = N.of_nat i) /\
  N.of_nat (List.length eps) < 2 ^ dec_width d.
Proof.
  intros root d G A. destruct (select_full root d G A) as (eps & E1 & E2 & E3 & E4 & E5). exists eps. split; [exact E1|]. split; [|split; [exact E3|split; [|split; [|exact E5]]]].
  - intros e w I. destruct (E2 e w I) as (_ & H). exact H.
  - rewrite E4, map_length. apply number_length.
  - intros i e w I. exists (constant_name (d_name e)). rewrite E4, nth_error_map, (number_nth_error eps 0 i), I. split; [reflexivity|apply constant_ok].
Qed.
Lemma written_clean root d : generate up root = Written d -> a_crash (assign_widths up root) = false /\ a_errors (assign_widths up root) = O.
Proof.
  unfold generate. destruct (a_crash (assign_widths up root)); [discriminate|]. destruct (Nat.eqb_spec (a_errors (assign_widths up root)) 0) as [E|]; [auto|discriminate].
Qed.

Lemma number_in {A} (l : list A) : forall k i x, nth_error l i = Some x -> In (x, k + N.of_nat i) (number k l).
Proof.
  induction l as [|y l IH]; intros k [|i] x E; cbn [nth_error number] in *; try discriminate.
  - injection E as ->. left. f_equal. lia.
  - right. replace (k + N.of_nat (S i)) with (k + 1 + N.of_nat i) by lia. apply IH. exact E.
Qed.

(** The registers of an endpoint with no further endpoint in it: their addresses, and
    those of their blocks, select the endpoint. *)
Theorem C120_registers_partial : forall root d e r x, generate up root = Written d -> (forall m, below root m -> d_addr m < 2 ^ 32) ->
  endpoint_of root e -> (forall m, ~ endpoint_of e m) -> (r = e \/ below e r) -> d_addr e <= d_addr r -> d_addr r <= x < d_addr r + d_size r ->
  exists c k, constant_for (d_name e) c /\ In (c, k) (dec_slaves d) /\ forall j, selects d x j <-> j = k.
Proof.
  intros root d e r x G A EP NE R LO X. destruct (written_clean _ _ G) as (CR & ER). destruct (root_clean root e CR ER EP) as (CE & _).
  destruct (bottom_ok e (ep_flag _ _ EP) (nothing_flagged _ NE) CE) as (_ & SZ & BEL).
  destruct (select_full root d G A) as (eps & E1 & E2 & _ & E4 & E5 & _). destruct (proj1 (E1 e) EP) as (w & I).
  destruct (E2 e w I) as (_ & _ & _ & _ & W). specialize (W NE). subst w. apply In_nth_error in I. destruct I as (i & I). exists (constant_name (d_name e)), (N.of_nat i). split; [apply constant_ok|]. split.
  - rewrite E4. apply in_map_iff. exists (e, plain_width e, N.of_nat i). split; [reflexivity|]. exact (number_in eps 0 i _ I).
  - apply (E5 i e _ x I). unfold within. destruct R as [->|B]; [lia|]. specialize (BEL r B). lia.
Qed.

(** Endpoints in an endpoint: if they are directly in it, have widths and do not overlap,
    their addresses select the endpoint.  With groups it is false, C120_nested_refuted. *)
Lemma insert_sorted n l : StronglySorted (fun x y => d_addr x <= d_addr y) l -> StronglySorted (fun x y => d_addr x <= d_addr y) (insert n l).
Proof.
  induction 1 as [|m l SS IH F]; cbn [insert]; [repeat constructor|]. destruct (N.leb_spec (d_addr n) (d_addr m)) as [L|L].
  - constructor; [constructor; assumption|]. constructor; [exact L|]. eapply Forall_impl; [|exact F]. intros x. cbn beta. lia.
  - constructor; [exact IH|]. apply Forall_forall. intros x I. apply (Permutation_in _ (insert_perm n l)) in I. destruct I as [<-|I]; [lia|]. rewrite Forall_forall in F. auto.
Qed.
Lemma sort_sorted l : StronglySorted (fun x y => d_addr x <= d_addr y) (sort l).
Proof. unfold sort. induction l as [|n l IH]; [constructor|]. cbn [fold_right]. apply insert_sorted. exact IH. Qed.
Lemma sorted_last (R : dnode -> dnode -> Prop) l z : StronglySorted R (l ++ [z]) -> forall x, In x l -> R x z.
Proof.
  induction l as [|y l IH]; intros H x I; [destruct I|]. cbn [app] in H. inversion H as [|? ? H1 F]; subst. destruct I as [->|I]; [|apply IH; assumption].
  rewrite Forall_forall in F. apply F. apply in_app_iff. right. left. reflexivity.
Qed.
Lemma pairs_last (R : dnode -> dnode -> Prop) l z : ForallOrdPairs R (l ++ [z]) -> forall x, In x l -> R x z.
Proof.
  induction l as [|y l IH]; intros H x I; [destruct I|]. cbn [app] in H. inversion H as [|? ? F H1]; subst. destruct I as [->|I]; [|apply IH; assumption].
  rewrite Forall_forall in F. apply F. apply in_app_iff. right. left. reflexivity.
Qed.
Lemma max_last l : forall m z v, max_addr (l ++ [z]) m = Some v -> exists w, d_width z = Some w /\ v = d_addr z + 2 ^ w.
Proof.
  induction l as [|y l IH]; intros m z v H; cbn [app max_addr] in H.
  - destruct (d_width z) as [w|]; [|discriminate]. injection H as <-. exists w. auto.
  - destruct (d_width y); [|discriminate]. exact (IH _ _ _ H).
Qed.

Definition apart (e e' : dnode) : Prop := forall x, within (d_addr e) (plain_width e) x -> ~ within (d_addr e') (plain_width e') x.

Lemma disjoint_perm (l l' : list dnode) (R : dnode -> dnode -> Prop) : (forall x y, R x y -> R y x) -> Permutation l l' -> ForallOrdPairs R l -> ForallOrdPairs R l'.
Proof.
  intros SY. induction 1 as [|x l l' P IH|x y l|l l' l'' P1 IH1 P2 IH2]; intros F; auto.
  - inversion F; subst. constructor; [|auto]. rewrite Forall_forall in *. intros z I. apply H1. apply (Permutation_in _ (Permutation_sym P)). exact I.
  - inversion F as [|? ? F1 F2]; subst. inversion F2 as [|? ? F3 F4]; subst. inversion F1 as [|? ? F5 F6]; subst. repeat constructor; auto.
Qed.

Lemma inner_ok e w : (forall x, x <= 2 ^ up x) -> d_flag e = true -> d_desc e <> [] -> Forall (fun c => d_flag c = true /\ d_width c <> None) (d_desc e) ->
  ForallOrdPairs apart (d_desc e) -> a_errors (process up e) = O -> a_crash (process up e) = false -> d_width (pn e) = Some w ->
  forall i, In i (d_desc e) -> d_addr i + 2 ^ plain_width i <= d_addr e + 2 ^ w.
Proof.
  intros UP F NE AL DJ. unfold pn. destruct e as [nm a f s w0 ds]. cbn [d_flag d_desc d_addr] in *. subst f. cbn [process]. rewrite map_map.
  change (map (fun x => a_node (process up x)) ds) with (map pn ds). rewrite sort_map. set (er := list_sum _). set (cr := existsb _ _). clearbody er cr.
  assert (ALS : forall n, In n (sort ds) -> d_flag n = true /\ d_width n <> None) by (intros n I; apply (proj1 (sort_in _ _)) in I; rewrite Forall_forall in AL; auto).
  assert (FF : flagged (DNode nm a true s w0 (map pn (sort ds))) = map pn (sort ds)).
  { cbn [flagged]. rewrite flagged_map by (apply Forall_forall; intros n _; apply flagged_pn). f_equal. clear - ALS. revert ALS. generalize (sort ds).
    induction l as [|n l IH]; intros H; [reflexivity|]. cbn [flat_map]. destruct (H n (or_introl eq_refl)) as (-> & _). cbn [app]. rewrite IH by (intros k I; apply H; right; exact I). reflexivity. }
  assert (exists l z, sort ds = l ++ [z]) as (l & z & ES).
  { destruct (sort ds) as [|y r] eqn:E using rev_ind; [exfalso; apply NE, Permutation_nil; rewrite <- E; apply sort_perm|eauto]. }
  assert (END : forall i, In i ds -> forall v, d_width z = Some v -> d_addr i + 2 ^ plain_width i <= d_addr z + 2 ^ v).
  { intros i I v V. assert (I' := I). apply (proj2 (sort_in _ _)) in I'. rewrite ES in I'. apply in_app_iff in I'. destruct I' as [I'|[<-|[]]].
    - assert (LE := sorted_last _ l z (eq_ind _ _ (sort_sorted ds) _ ES) i I'). cbn beta in LE.
      assert (AP : apart i z).
      { apply (pairs_last apart l z); [|exact I']. rewrite <- ES. apply (disjoint_perm ds); [intros x y H t Y Z; exact (H t Z Y)|symmetry; apply sort_perm|exact DJ]. }
      unfold apart, within in AP. specialize (AP (d_addr z)). assert (0 < 2 ^ plain_width z) by (apply N.neq_0_lt_0, N.pow_nonzero; lia).
      assert (0 < 2 ^ v) by (apply N.neq_0_lt_0, N.pow_nonzero; lia). lia.
    - unfold plain_width. rewrite V. lia. }
  unfold finish. rewrite FF, ES, map_app. cbn [map].
  destruct (map pn l ++ [pn z]) as [|y r] eqn:EM; [destruct (map pn l); discriminate|]. rewrite <- EM. clear EM y r.
  destruct (max_addr (map pn l ++ [pn z]) 0) as [m|] eqn:MX; [|intros _ C; discriminate C].
  destruct (max_last _ _ _ _ MX) as (v & V & EV). destruct (pn_kept z) as (_ & KA & _ & _ & KW).
  assert (VZ : d_width z = Some v).
  { destruct (ALS z) as (_ & WZ); [rewrite ES; apply in_app_iff; right; left; reflexivity|]. destruct (d_width z) as [u|] eqn:EU; [|congruence]. rewrite (KW u eq_refl) in V. congruence. }
  rewrite KA in EV. destruct w0 as [w0|]; cbn [a_node a_errors a_crash d_width].
  - intros E _ W i I. injection W as <-. specialize (END i I v VZ). destruct (a + 2 ^ w0 <? m) eqn:L; [cbn [err] in E; lia|]. lia.
  - intros _ C W i I. injection W as <-. specialize (END i I v VZ). apply orb_false_iff in C. destruct C as (_ & C). specialize (UP (m - a)). lia.
Qed.

Theorem C120_inner_partial : forall root d e i x, generate up root = Written d -> (forall m, below root m -> d_addr m < 2 ^ 32) -> (forall n, n <= 2 ^ up n) ->
  endpoint_of root e -> Forall (fun c => d_flag c = true /\ d_width c <> None) (d_desc e) -> ForallOrdPairs apart (d_desc e) ->
  In i (d_desc e) -> d_addr e <= d_addr i -> within (d_addr i) (plain_width i) x ->
  exists c k, constant_for (d_name e) c /\ In (c, k) (dec_slaves d) /\ forall j, selects d x j <-> j = k.
Proof.
  intros root d e i x G A UP EP AL DJ I LO X. destruct (written_clean _ _ G) as (CR & ER). destruct (root_clean root e CR ER EP) as (CE & CC).
  destruct (select_full root d G A) as (eps & E1 & E2 & _ & E4 & E5 & _). destruct (proj1 (E1 e) EP) as (w & IE).
  destruct (E2 e w IE) as (W & _). assert (NE : d_desc e <> []) by (intros Z; rewrite Z in I; destruct I).
  assert (B := inner_ok e w UP (ep_flag _ _ EP) NE AL DJ CE CC W i I).
  apply In_nth_error in IE. destruct IE as (k & IE). exists (constant_name (d_name e)), (N.of_nat k). split; [apply constant_ok|]. split.
  - rewrite E4. apply in_map_iff. exists (e, w, N.of_nat k). split; [reflexivity|]. exact (number_in eps 0 k _ IE).
  - apply (E5 k e _ x IE). unfold within in *. lia.
Qed.

Lemma leaf_or n m : below n m -> d_desc m = [] -> d_flag m = true \/ In m (leaves n) \/ exists e, endpoint_of n e /\ below e m.
Proof.
  induction 1 as [n c I|n c m I B IH]; intros D.
  - destruct (d_flag c) eqn:F; [auto|]. right. left. rewrite leaves_desc. apply in_flat_map. exists c. split; [exact I|]. rewrite F, D. left. reflexivity.
  - destruct (d_flag c) eqn:F; [right; right; exists c; split; [apply ep_child; assumption|exact B]|].
    destruct (IH D) as [L|[L|(e & E & BE)]]; [auto| |right; right; exists e; split; [apply (ep_deeper _ c); assumption|exact BE]].
    right. left. rewrite leaves_desc. apply in_flat_map. exists c. split; [exact I|]. rewrite F.
    destruct (d_desc c) as [|y l] eqn:DC; [rewrite leaves_desc, DC in L; destruct L|exact L].
Qed.

Lemma flag_ep n m : below n m -> d_flag m = true -> exists e, endpoint_of n e /\ (e = m \/ below e m).
Proof.
  induction 1 as [n c I|n c m I B IH]; intros F; [exists c; split; [apply ep_child; assumption|auto]|].
  destruct (d_flag c) eqn:FC; [exists c; split; [apply ep_child; assumption|auto]|]. destruct (IH F) as (e & E & H). exists e. split; [apply (ep_deeper _ c); assumption|exact H].
Qed.

(** A table in which an endpoint stands beside a register outside of all endpoints gives no file. *)
Theorem C120_covered : forall root d e0 m, generate up root = Written d -> endpoint_of root e0 -> below root m -> d_desc m = [] ->
  exists e, endpoint_of root e /\ (e = m \/ below e m).
Proof.
  intros root d e0 m G E0 B D. destruct (written_clean _ _ G) as (CR & ER).
  destruct (leaf_or root m B D) as [F|[L|(e & E & H)]]; [apply flag_ep; assumption| |exists e; auto]. exfalso.
  assert (RF := root_flagged root). destruct root as [nm a f s w ds]. cbn [assign_widths] in CR, ER, RF. rewrite map_map in CR, ER, RF.
  change (map (fun x => a_node (process up x)) ds) with (map pn ds) in CR, ER, RF. rewrite sort_map in CR, ER, RF.
  set (er := list_sum _) in *. set (cr := existsb _ _) in *. clearbody er cr. cbn [d_desc] in RF.
  apply (proj2 (root_endpoint _ _)) in E0. cbn [d_desc] in E0. unfold finish in CR, ER, RF.
  set (FL := flat_map (fun i => if d_flag i then [i] else flagged i) (sort ds)) in *.
  assert (FF : flagged (DNode nm a f s w (map pn (sort ds))) = map pn FL).
  { cbn [flagged]. apply flagged_map. apply Forall_forall. intros n _. apply flagged_pn. }
  rewrite FF in CR, ER. destruct FL as [|y FL']; [destruct E0|]. cbn [map] in CR, ER.
  assert (LL : leaves (DNode nm a f s w (map pn (sort ds))) <> []).
  { cbn [leaves]. rewrite leaves_desc in L. cbn [d_desc] in L. apply in_flat_map in L. destruct L as (c & I & L). intros Z.
    assert (X : In (pn m) (flat_map (fun i => if d_flag i then [] else match d_desc i with [] => [i] | _ :: _ => leaves i end) (map pn (sort ds)))); [|rewrite Z in X; destruct X].
    apply in_flat_map. exists (pn c). split; [apply in_map, (proj2 (sort_in _ _)); exact I|].
    destruct (pn_kept c) as (_ & _ & K & _). rewrite K. destruct (d_flag c) eqn:FC; [destruct L|]. rewrite pn_desc, FC. destruct (d_desc c) as [|z l] eqn:DC; cbn [map].
    - destruct L as [<-|[]]. left. reflexivity.
    - rewrite leaves_pn by exact FC. apply in_map. exact L. }
  destruct (leaves (DNode nm a f s w (map pn (sort ds)))) as [|z l]; [congruence|].
  destruct (max_addr _ 0); [|discriminate]. destruct w; cbn [a_errors err] in ER; lia.
Qed.

(** A table of endpoints that fit is accepted. *)
Definition fits (e : dnode) : Prop :=
  d_flag e = true /\ (forall m, ~ endpoint_of e m) /\ (exists w, d_width e = Some w /\ w <= 32) /\ d_addr e < 2 ^ 32 /\ d_addr e mod 2 ^ plain_width e = 0 /\
  d_size e <= 2 ^ plain_width e /\ forall m, below e m -> d_addr m + d_size m <= d_addr e + 2 ^ plain_width e.

Lemma fits_process e : fits e -> process up e = {| a_node := DNode (d_name e) (d_addr e) true (d_size e) (d_width e) (sort (d_desc e)); a_errors := 0; a_crash := false |}.
Proof.
  intros (F & NE & (w & W & _) & _ & AL & SZ & B). assert (E := nothing_flagged _ NE). assert (S := bottom_same e E).
  destruct e as [nm a f s w' ds]. cbn [d_flag d_width] in F, W. subst f w'. cbn [plain_width d_width d_addr d_size d_name d_desc] in *. cbn [process]. rewrite S, map_plain.
  unfold finish. rewrite (flagged_sort _ _ _ _ _ nm a true s (Some w) ds E).
  replace (filter (fun i => a + 2 ^ w <? d_addr i + d_size i) (all_of (DNode nm a true s (Some w) (sort ds)))) with (@nil dnode).
  2:{ symmetry. destruct (filter _ _) as [|m r] eqn:FL; [reflexivity|exfalso]. assert (I : In m (m :: r)) by (left; reflexivity). rewrite <- FL in I. apply filter_In in I. destruct I as (I & L).
      apply N.ltb_lt in L. assert (BM : below (DNode nm a true s (Some w) ds) m); [|specialize (B m BM); lia].
      apply all_below. cbn [all_of] in *. apply in_flat_map in I. destruct I as (c & I & H). apply in_flat_map. exists c. split; [apply (proj1 (sort_in _ _)); exact I|exact H]. }
  rewrite AL. destruct (N.ltb_spec (2 ^ w) s) as [L|_]; [lia|]. cbn [err N.eqb negb List.length]. rewrite map_map. cbn [a_errors].
  replace (list_sum (map (fun _ : dnode => O) ds)) with O by (clear; induction ds as [|n l IH]; [reflexivity|cbn [map list_sum fold_right]; exact IH]).
  replace (existsb a_crash (map (fun n => {| a_node := n; a_errors := 0; a_crash := false |}) ds)) with false by (clear; induction ds as [|n l IH]; [reflexivity|cbn [map existsb a_crash orb]; exact IH]).
  reflexivity.
Qed.

Lemma insert_le n l : forall P : dnode -> Prop, P n -> Forall P l -> Forall P (insert n l).
Proof. intros P H F. apply Forall_forall. intros m I. apply (Permutation_in _ (insert_perm n l)) in I. destruct I as [<-|I]; [exact H|]. rewrite Forall_forall in F. auto. Qed.

Lemma max_some l m : l <> [] -> (forall n, In n l -> exists w, d_width n = Some w) -> exists v, max_addr l m = Some v /\ 0 < v.
Proof.
  revert m. induction l as [|n l IH]; intros m NE W; [congruence|]. cbn [max_addr]. destruct (W n (or_introl eq_refl)) as (w & ->).
  destruct l as [|n' l]; [|apply IH; [congruence|intros k I; apply W; right; exact I]]. exists (d_addr n + 2 ^ w). split; [reflexivity|]. assert (0 < 2 ^ w) by (apply N.neq_0_lt_0, N.pow_nonzero; lia). lia.
Qed.

Lemma pairs_perm_in {A} (l : list A) x y : In (x, y) (pairs l) -> exists i j, nth_error l i = Some x /\ nth_error l j = Some y /\ i <> j.
Proof.
  induction l as [|z l IH]; [intros []|]. cbn [pairs]. rewrite !in_app_iff, !in_map_iff. intros [(y' & E & I)|[(y' & E & I)|I]].
  - injection E as <- <-. apply In_nth_error in I. destruct I as (j & J). exists O, (S j). auto.
  - injection E as <- <-. apply In_nth_error in I. destruct I as (j & J). exists (S j), O. auto.
  - destruct (IH I) as (i & j & A1 & A2 & A3). exists (S i), (S j). auto.
Qed.

Lemma pairs_nth (l : list dnode) (R : dnode -> dnode -> Prop) : (forall x y, R x y -> R y x) -> ForallOrdPairs R l -> forall i j x y, nth_error l i = Some x -> nth_error l j = Some y -> i <> j -> R x y.
Proof.
  intros SY. induction 1 as [|z l F P IH]; intros i j x y EI EJ N; [destruct i; discriminate|]. rewrite Forall_forall in F.
  destruct i as [|i], j as [|j]; cbn [nth_error] in *; [congruence|injection EI as <-; apply F; eapply nth_error_In; exact EJ|injection EJ as <-; apply SY, F; eapply nth_error_In; exact EI|].
  apply (IH i j); auto.
Qed.

Theorem C120_accepts : forall name ds, ds <> [] -> Forall fits ds ->
  ForallOrdPairs (fun e e' => forall x, within (d_addr e) (plain_width e) x -> ~ within (d_addr e') (plain_width e') x) ds ->
  exists d, generate up (DNode name 0 false 0 None ds) = Written d /\ List.length (dec_slaves d) = List.length ds.
Proof.
  intros name ds NE FI DJ. unfold generate. assert (RF := root_flagged (DNode name 0 false 0 None ds)). cbn [d_desc] in RF.
  assert (ALL : forall n, In n (sort ds) -> fits n) by (intros n I; apply (proj1 (sort_in _ _)) in I; rewrite Forall_forall in FI; auto).
  assert (FLS : forall l, (forall n, In n l -> fits n) -> flat_map (fun i => if d_flag i then [i] else flagged i) l = l).
  { induction l as [|n l IH]; intros H; [reflexivity|]. cbn [flat_map]. destruct (H n (or_introl eq_refl)) as (-> & _). cbn [app]. rewrite IH by (intros k I; apply H; right; exact I). reflexivity. }
  rewrite (FLS _ ALL) in RF.
  assert (CE : a_crash (assign_widths up (DNode name 0 false 0 None ds)) = false /\ a_errors (assign_widths up (DNode name 0 false 0 None ds)) = O).
  { cbn [assign_widths]. rewrite map_map. change (map (fun x => a_node (process up x)) ds) with (map pn ds). rewrite sort_map.
    assert (Z1 : list_sum (map a_errors (map (process up) ds)) = O).
    { rewrite map_map. clear - FI. induction FI as [|n l H F IH]; [reflexivity|]. cbn [map list_sum fold_right]. rewrite (fits_process n H). cbn [a_errors]. exact IH. }
    assert (Z2 : existsb a_crash (map (process up) ds) = false).
    { clear - FI. induction FI as [|n l H F IH]; [reflexivity|]. cbn [map existsb]. rewrite (fits_process n H). cbn [a_crash orb]. exact IH. }
    rewrite Z1, Z2. unfold finish.
    assert (FF : flagged (DNode name 0 false 0 None (map pn (sort ds))) = map pn (sort ds)).
    { cbn [flagged]. rewrite flagged_map by (apply Forall_forall; intros n _; apply flagged_pn). rewrite (FLS _ ALL). reflexivity. }
    rewrite FF.
    assert (LV : leaves (DNode name 0 false 0 None (map pn (sort ds))) = []).
    { cbn [leaves]. revert ALL. generalize (sort ds). induction l as [|n l IH]; intros H; [reflexivity|]. cbn [map flat_map]. destruct (pn_kept n) as (_ & _ & -> & _).
      destruct (H n (or_introl eq_refl)) as (-> & _). cbn [app]. apply IH. intros k I. apply H. right. exact I. }
    rewrite LV.
    destruct (max_some (map pn (sort ds)) 0) as (v & MX & PV).
    { intros Z. apply NE. apply map_eq_nil in Z. apply Permutation_nil. rewrite <- Z. apply sort_perm. }
    { intros n I. apply in_map_iff in I. destruct I as (k & <- & I). destruct (ALL k I) as (_ & _ & (w & W & _) & _). exists w. apply pn_kept. exact W. }
    destruct (map pn (sort ds)) as [|y l] eqn:MP.
    { exfalso. apply NE. apply map_eq_nil in MP. apply Permutation_nil. rewrite <- MP. apply sort_perm. }
    rewrite MX. cbn [a_crash a_errors err orb]. rewrite N.mod_0_l by (apply N.pow_nonzero; lia). split; [lia|reflexivity]. }
  destruct CE as (-> & ->). cbn [Nat.eqb negb]. rewrite RF.
  assert (SL : slaves_of (map pn (sort ds)) = Some (map (fun e => {| sl_name := d_name e; sl_addr := d_addr e; sl_width := plain_width e |}) (sort ds))).
  { revert ALL. generalize (sort ds). induction l as [|n l IH]; intros H; [reflexivity|]. cbn [map slaves_of]. rewrite IH by (intros k I; apply H; right; exact I).
    destruct (H n (or_introl eq_refl)) as (_ & _ & (w & W & _) & _). destruct (pn_kept n) as (-> & -> & _ & _ & K). rewrite (K w W). unfold plain_width. rewrite W. reflexivity. }
  rewrite SL. set (sl := map _ (sort ds)).
  assert (INS : forall s, In s sl -> exists e, In e (sort ds) /\ s = {| sl_name := d_name e; sl_addr := d_addr e; sl_width := plain_width e |}).
  { intros s I. unfold sl in I. apply in_map_iff in I. destruct I as (e & <- & I). exists e. auto. }
  destruct (existsb (fun s => 32 <? sl_width s) sl) eqn:X1.
  { exfalso. apply existsb_exists in X1. destruct X1 as (s & I & L). destruct (INS s I) as (e & IE & ->). cbn [sl_width] in L. destruct (ALL e IE) as (_ & _ & (w & W & L32) & _). unfold plain_width in L. rewrite W in L. lia. }
  destruct (existsb (fun p => pair_error (fst p) (snd p)) (pairs sl)) eqn:X2.
  { exfalso. apply existsb_exists in X2. destruct X2 as ((s & t) & I & L). cbn [fst snd] in L. apply pairs_perm_in in I. destruct I as (i & j & EI & EJ & N).
    unfold sl in EI, EJ. rewrite nth_error_map in EI, EJ. destruct (nth_error (sort ds) i) as [e|] eqn:QI; [|discriminate]. destruct (nth_error (sort ds) j) as [e'|] eqn:QJ; [|discriminate].
    cbn in EI, EJ. injection EI as <-. injection EJ as <-. unfold pair_error in L. cbn [sl_addr sl_width] in L.
    assert (R := pairs_nth (sort ds) (fun e e' => forall x, within (d_addr e) (plain_width e) x -> ~ within (d_addr e') (plain_width e') x)
      (fun a b H x Y Z => H x Z Y) (disjoint_perm _ _ _ (fun a b H x Y Z => H x Z Y) (Permutation_sym (sort_perm ds)) DJ) i j e e' QI QJ N (d_addr e')). cbn beta in R.
    unfold within in R. assert (0 < 2 ^ plain_width e') by (apply N.neq_0_lt_0, N.pow_nonzero; lia). apply R; lia. }
  destruct (existsb (fun s => negb (N.land (sl_addr s) (mask_bits s) =? 0)) sl) eqn:X3.
  { exfalso. apply existsb_exists in X3. destruct X3 as (s & I & L). destruct (INS s I) as (e & IE & ->). unfold mask_bits in L. cbn [sl_width sl_addr] in L.
    destruct (ALL e IE) as (_ & _ & _ & _ & AL & _). rewrite N.sub_1_r, <- N.ones_equiv, N.land_ones, AL in L. discriminate. }
  cbn [orb]. eexists. split; [reflexivity|]. cbn [emit dec_slaves]. rewrite map_length.
  assert (NL : forall A (l : list A) k, List.length (number k l) = List.length l) by (clear; induction l as [|y l IH]; intros k; cbn [number List.length]; [reflexivity|rewrite IH; reflexivity]).
  rewrite NL. unfold sl. rewrite map_length. apply Permutation_length, sort_perm.
Qed.
End Generate.

(** ** The tree is that of the address table *)

(** A node of an address table: its id, what the script takes from it, the nodes in it. *)
Inductive source := Src (id : string) (addr : N) (flag : bool) (size : N) (width : option N) (kids : list source).
Definition s_id (t : source) : string := match t with Src x _ _ _ _ _ => x end.
(** The nodes in the order of getNodes (each before what is in it), with their paths. *)
Fixpoint listed (path : list string) (t : source) : list dnode :=
  match t with Src id a f s w kids => DNode (join (path ++ [id])) a f s w [] :: flat_map (listed (path ++ [id])) kids end.
(** The same nodes as a tree. *)
Fixpoint as_tree (path : list string) (t : source) : dnode :=
  match t with Src id a f s w kids => DNode (join (path ++ [id])) a f s w (map (as_tree (path ++ [id])) kids) end.
Definition dotless (s : string) : Prop := ~ In "."%char (list_ascii_of_string s).
(** Ids without dots, different within a node. *)
Inductive proper : source -> Prop :=
| proper_src id a f s w kids : dotless id -> Forall proper kids -> NoDup (map s_id kids) -> proper (Src id a f s w kids).

Fixpoint source_ind' (P : source -> Prop) (H : forall id a f s w ks, Forall P ks -> P (Src id a f s w ks)) (t : source) : P t :=
  match t with
  | Src id a f s w ks =>
      H id a f s w ks ((fix go (l : list source) : Forall P l := match l with [] => Forall_nil P | x :: r => Forall_cons x (source_ind' P H x) (go r) end) ks)
  end.

Lemma split_dotless x : dotless x -> split x = [x].
Proof.
  induction x as [|c x IH]; intros D; [reflexivity|]. cbn [split]. destruct (Ascii.eqb_spec c ".") as [->|]; [exfalso; apply D; left; reflexivity|].
  rewrite IH; [reflexivity|]. intros I. apply D. right. exact I.
Qed.
Lemma split_dot x r : dotless x -> split (x ++ "." ++ r)%string = x :: split r.
Proof.
  induction x as [|c x IH]; intros D; [reflexivity|]. cbn [String.append split]. destruct (Ascii.eqb_spec c ".") as [->|]; [exfalso; apply D; left; reflexivity|].
  cbn [String.append] in IH. rewrite IH; [reflexivity|]. intros I. apply D. right. exact I.
Qed.
Lemma split_join l : l <> [] -> Forall dotless l -> split (join l) = l.
Proof.
  intros NE F. induction F as [|x l D F IH]; [congruence|]. destruct l as [|y l]; [apply split_dotless; exact D|].
  change (join (x :: y :: l)) with (x ++ "." ++ join (y :: l))%string. rewrite split_dot by exact D. rewrite IH by discriminate. reflexivity.
Qed.
Lemma join_last_inj path x y : Forall dotless path -> dotless x -> dotless y -> join (path ++ [x]) = join (path ++ [y]) -> x = y.
Proof.
  intros P X Y E. apply (f_equal split) in E. rewrite !split_join in E by (try (destruct path; discriminate); apply Forall_app; auto).
  apply app_inv_head in E. congruence.
Qed.

(** What add looks for, from a node of path [path] on. *)
Fixpoint steps (path : list string) (t : source) : list (list string * dnode) :=
  match t with Src id a f s w kids =>
    let q := path ++ [id] in ([join q], DNode (join q) a f s w []) :: map (fun e => (join q :: fst e, snd e)) (flat_map (steps q) kids) end.
Definition step (np : dnode) (e : list string * dnode) : dnode := add_to (fst e) (snd e) np.
Definition with_desc (np : dnode) (ds : list dnode) : dnode := match np with DNode nm a f s w _ => DNode nm a f s w ds end.

Lemma put_last p f n l c : (forall d, In d l -> d_name d <> p) -> d_name c = p -> put p f n (l ++ [c]) = l ++ [f c].
Proof.
  intros H C. induction l as [|d l IH]; cbn [app put]; [rewrite C, String.eqb_refl; reflexivity|].
  destruct (String.eqb_spec (d_name d) p) as [E|_]; [exfalso; apply (H d); [left; reflexivity|exact E]|]. rewrite IH; [reflexivity|]. intros e I. apply H. right. exact I.
Qed.
Lemma put_new p f n l : (forall d, In d l -> d_name d <> p) -> put p f n l = l ++ [n].
Proof.
  intros H. induction l as [|d l IH]; cbn [app put]; [reflexivity|].
  destruct (String.eqb_spec (d_name d) p) as [E|_]; [exfalso; apply (H d); [left; reflexivity|exact E]|]. rewrite IH; [reflexivity|]. intros e I. apply H. right. exact I.
Qed.
Lemma add_to_name ps n np : d_name (add_to ps n np) = d_name np.
Proof. destruct ps, np; reflexivity. Qed.

Lemma fold_inner p l es : (forall d, In d l -> d_name d <> p) -> forall np c, d_name c = p ->
  fold_left step (map (fun e => (p :: fst e, snd e)) es) (with_desc np (l ++ [c])) = with_desc np (l ++ [fold_left step es c]).
Proof.
  intros H. induction es as [|e es IH]; intros np c C; [reflexivity|]. cbn [map fold_left].
  assert (X : step (with_desc np (l ++ [c])) (p :: fst e, snd e) = with_desc np (l ++ [step c e])).
  { unfold step. cbn [fst snd]. destruct np as [nm a f s w ds]. cbn [with_desc add_to]. rewrite put_last by assumption. reflexivity. }
  rewrite X. apply IH. unfold step. rewrite add_to_name. exact C.
Qed.

Lemma as_tree_name path t : d_name (as_tree path t) = join (path ++ [s_id t]).
Proof. destruct t. reflexivity. Qed.

Definition steps_ok (t : source) : Prop := forall path np l, proper t -> Forall dotless path -> (forall d, In d l -> d_name d <> join (path ++ [s_id t])) ->
  fold_left step (steps path t) (with_desc np l) = with_desc np (l ++ [as_tree path t]).

Lemma forest_tree q : Forall dotless q -> forall ks pre, Forall steps_ok ks -> Forall proper ks -> NoDup (map s_id ks) ->
  (forall d k, In d pre -> In k ks -> d_name d <> join (q ++ [s_id k])) -> forall np,
  fold_left step (flat_map (steps q) ks) (with_desc np pre) = with_desc np (pre ++ map (as_tree q) ks).
Proof.
  intros PD'. induction ks as [|k ks IHk]; intros pre IH F ND H np; [cbn; rewrite app_nil_r; reflexivity|].
  inversion IH as [|? ? I1 I2]; subst. inversion F as [|? ? F1 F2]; subst. cbn [map] in ND. inversion ND as [|? ? N1 N2]; subst.
  cbn [flat_map map]. rewrite fold_left_app, I1 by (auto; intros d I; apply H; solve [exact I|left; reflexivity]).
  rewrite IHk; auto; [rewrite <- app_assoc; reflexivity|]. intros d k' I I'. apply in_app_iff in I. destruct I as [I|[<-|[]]]; [apply H; [exact I|right; exact I']|].
  rewrite as_tree_name. intros E. apply N1. apply in_map_iff. exists k'. split; [|exact I'].
  rewrite Forall_forall in F2. specialize (F2 k' I'). destruct k, k'. cbn [s_id] in *. inversion F1; inversion F2; subst. symmetry. apply (join_last_inj q); assumption.
Qed.

Lemma steps_tree t : steps_ok t.
Proof.
  induction t as [id a f s w ks IH] using source_ind'. intros path np l PR PD H. inversion PR as [? ? ? ? ? ? D F ND]; subst. cbn [steps s_id] in *. cbn [fold_left].
  assert (X : step (with_desc np l) ([join (path ++ [id])], DNode (join (path ++ [id])) a f s w []) = with_desc np (l ++ [DNode (join (path ++ [id])) a f s w []])).
  { unfold step. cbn [fst snd]. destruct np as [nm a' f' s' w' ds]. cbn [with_desc add_to]. rewrite put_new by exact H. reflexivity. }
  rewrite X, (fold_inner _ l _ H) by reflexivity. f_equal. f_equal. f_equal. cbn [as_tree].
  assert (PD' : Forall dotless (path ++ [id])) by (apply Forall_app; auto). set (q := path ++ [id]) in *. clearbody q. clear X H PD PR.
  change (DNode (join q) a f s w []) with (with_desc (DNode (join q) a f s w []) ([] : list dnode)).
  change (DNode (join q) a f s w (map (as_tree q) ks)) with (with_desc (DNode (join q) a f s w []) ([] ++ map (as_tree q) ks)).
  apply (forest_tree q PD' ks []); auto.
Qed.

Lemma steps_names t : forall path e, proper t -> Forall dotless path -> In e (steps path t) ->
  exists q, q <> [] /\ Forall dotless q /\ d_name (snd e) = join (path ++ q) /\ fst e = map (fun i => join (path ++ firstn (S i) q)) (seq 0 (List.length q)).
Proof.
  induction t as [id a f s w ks IH] using source_ind'. intros path e PR PD I. inversion PR as [? ? ? ? ? ? D F ND]; subst. cbn [steps] in I. destruct I as [<-|I].
  - exists [id]. split; [discriminate|]. split; [auto|]. split; reflexivity.
  - apply in_map_iff in I. destruct I as (e' & <- & I). apply in_flat_map in I. destruct I as (k & K & I). rewrite Forall_forall in IH, F.
    destruct (IH k K (path ++ [id]) e' (F k K)) as (q & NQ & DQ & E1 & E2); [apply Forall_app; auto|exact I|].
    exists (id :: q). split; [discriminate|]. split; [auto|]. cbn [fst snd]. rewrite E1, E2. split; [rewrite <- app_assoc; reflexivity|].
    cbn [List.length seq map firstn]. f_equal. rewrite <- seq_shift, map_map. apply map_ext. intros i. rewrite <- app_assoc. reflexivity.
Qed.

Lemma steps_listed t : forall path, map snd (steps path t) = listed path t.
Proof.
  induction t as [id a f s w ks IH] using source_ind'. intros path. cbn [steps listed map snd]. f_equal. rewrite map_map. cbn [snd].
  generalize (path ++ [id]). clear path. intros q. induction IH as [|k ks H _ IHk]; [reflexivity|]. cbn [flat_map]. rewrite map_app, H, IHk. reflexivity.
Qed.

Theorem C120_tree : forall width kids, Forall proper kids -> NoDup (map s_id kids) ->
  build width (flat_map (listed []) kids) = DNode "TOP" 0 false 0 width (map (as_tree []) kids).
Proof.
  intros width kids F ND. unfold build.
  assert (A : forall l np, (forall e, In e l -> fst e = prefixes (d_name (snd e))) -> fold_left add (map snd l) np = fold_left step l np).
  { induction l as [|e l IH]; intros np H; [reflexivity|]. cbn [map fold_left]. rewrite IH by (intros e' I; apply H; right; exact I).
    f_equal. unfold step, add. rewrite (H e) by (left; reflexivity). reflexivity. }
  assert (M : map snd (flat_map (steps []) kids) = flat_map (listed []) kids).
  { clear. induction kids as [|k ks IH]; [reflexivity|]. cbn [flat_map]. rewrite map_app, steps_listed, IH. reflexivity. }
  rewrite <- M, A.
  - change (DNode "TOP" 0 false 0 width []) with (with_desc (DNode "TOP" 0 false 0 width []) ([] : list dnode)).
    change (DNode "TOP" 0 false 0 width (map (as_tree []) kids)) with (with_desc (DNode "TOP" 0 false 0 width []) ([] ++ map (as_tree []) kids)).
    apply (forest_tree []); auto. apply Forall_forall. intros k _. apply steps_tree.
  - intros e I. apply in_flat_map in I. destruct I as (k & K & I). rewrite Forall_forall in F. destruct (steps_names k [] e (F k K) ltac:(constructor) I) as (q & NQ & DQ & E1 & E2).
    rewrite E1, E2. unfold prefixes. cbn [app]. rewrite split_join by assumption. reflexivity.
Qed.

(** ** Where the claim fails *)

Definition leaf (name : string) (addr : N) (flag : bool) (w : option N) : dnode := DNode name addr flag 1 w [].

(** The width of an endpoint is made from the end of its last endpoint, which need not
    be the highest one: a file is written in which the address of an endpoint of EP
    selects EP2. *)
Definition nested : dnode :=
  DNode "TOP" 0 false 0 None
    [DNode "EP" 0 true 0 None
       [DNode "EP.A" 0 false 0 None [leaf "EP.A.E1" 0 true (Some 4); leaf "EP.A.E2" 0x1100 true (Some 4)]; leaf "EP.B" 0x10 true (Some 4)];
     leaf "EP2" 0x100 true (Some 4)].

(** Decides the choice, for the computations below. *)
Fixpoint matchesb (addr : N) (bits : nat) (p : list ascii) : bool :=
  match bits, p with
  | O, [] => true
  | S b, c :: r => (Ascii.eqb c "-" || Ascii.eqb c (if N.testbit addr (N.of_nat b) then "1" else "0"))%char && matchesb addr b r
  | _, _ => false
  end.
Fixpoint choose (addr o : N) (b : list (list ascii * N)) : N := match b with [] => o | (p, k) :: r => if matchesb addr 32 p then k else choose addr o r end.
Definition select (d : decoder) (x : N) : N := match dec_sel d with Always k => k | Chain b o => choose x o b end.

Lemma matchesb_ok x : forall n p, matchesb x n p = true <-> matches x n p.
Proof.
  induction n as [|n IH]; intros [|c r]; cbn [matchesb matches]; try (split; [discriminate|intros []]); [tauto|].
  rewrite andb_true_iff, orb_true_iff, IH, !Ascii.eqb_eq. tauto.
Qed.
Lemma select_ok d x : selects d x (select d x).
Proof.
  unfold selects, select. destruct (dec_sel d) as [k|b o]; [reflexivity|]. induction b as [|(p, k) r IH]; cbn [choose]; [constructor|].
  destruct (matchesb x 32 p) eqn:M; [apply chooses_this, matchesb_ok; exact M|]. apply chooses_later; [|exact IH]. rewrite <- matchesb_ok. congruence.
Qed.

Theorem C120_nested_refuted : forall up, up 32 = 5 -> exists d ep e2,
  generate up nested = Written d /\ endpoint_of nested ep /\ endpoint_of ep e2 /\ d_addr ep <= d_addr e2 /\ d_name e2 = "EP.A.E2"%string /\ d_name ep = "EP"%string /\
  In ("N_SLV_EP"%string, 0) (dec_slaves d) /\ In ("N_SLV_EP2"%string, 1) (dec_slaves d) /\ selects d (d_addr e2) 1.
Proof.
  intros up U.
  assert (A : exists d, generate up nested = Written d /\ dec_slaves d = [("N_SLV_EP"%string, 0); ("N_SLV_EP2"%string, 1)] /\ select d 0x1100 = 1).
  { unfold generate. assert (W : assign_widths up nested = assign_widths (fun x => if x =? 32 then 5 else up x) nested).
    { unfold nested, leaf. cbn. rewrite U. reflexivity. }
    rewrite W. eexists. split; [vm_compute; reflexivity|]. split; vm_compute; reflexivity. }
  destruct A as (d & G & S & X).
  exists d, (DNode "EP" 0 true 0 None [DNode "EP.A" 0 false 0 None [leaf "EP.A.E1" 0 true (Some 4); leaf "EP.A.E2" 0x1100 true (Some 4)]; leaf "EP.B" 0x10 true (Some 4)]), (leaf "EP.A.E2" 0x1100 true (Some 4)).
  split; [exact G|]. split; [apply ep_child; [left; reflexivity|reflexivity]|].
  split; [eapply ep_deeper; [left; reflexivity|reflexivity|apply ep_child; [right; left; reflexivity|reflexivity]]|].
  split; [cbn; lia|]. split; [reflexivity|]. split; [reflexivity|]. rewrite S. split; [left; reflexivity|]. split; [right; left; reflexivity|].
  cbn [d_addr leaf]. rewrite <- X. apply select_ok.
Qed.

(** The logarithm of Python is 29.000000000000004 for 2^29: endpoints that fill 2^29 words give an
    endpoint of 2^30, at an address that is no multiple of it.  With the exact
    logarithm the table is accepted. *)
Definition big : dnode :=
  DNode "TOP" 0 false 0 None
    [DNode "EP" 0x20000000 true 0 None [leaf "EP.E1" 0x20000000 true (Some 28); leaf "EP.E2" 0x30000000 true (Some 28)]].

Theorem C120_span_refuted : (forall up, up (2 ^ 29) = 30 -> generate up big = NodeErrors) /\ exists d, generate N.log2_up big = Written d.
Proof.
  split; [|eexists; vm_compute; reflexivity]. intros up U. change (2 ^ 29) with 536870912 in U. unfold generate, big. cbn [assign_widths map].
  set (ep := process up _).
  assert (E : ep = {| a_node := DNode "EP" 0x20000000 true 0 (Some 30) [leaf "EP.E1" 0x20000000 true (Some 28); leaf "EP.E2" 0x30000000 true (Some 28)]; a_errors := 1; a_crash := false |}).
  { transitivity (finish up "EP" 0x20000000 true 0 None [leaf "EP.E1" 0x20000000 true (Some 28); leaf "EP.E2" 0x30000000 true (Some 28)] 0 false); [vm_compute; reflexivity|].
    unfold finish. cbn [flagged flat_map leaf d_flag app].
    replace (max_addr _ 0) with (Some 0x40000000) by (vm_compute; reflexivity). replace (0x40000000 - 0x20000000) with 536870912 by (vm_compute; reflexivity).
    rewrite U. vm_compute. reflexivity. }
  rewrite E. vm_compute. reflexivity.
Qed.

(** Endpoints of different names with one name for their constants. *)
Definition twins : dnode :=
  DNode "TOP" 0 false 0 None [DNode "a" 0 false 0 None [leaf "a.b" 0 true (Some 4)]; leaf "a_b" 0x10 true (Some 4)].

Theorem C120_names_refuted : forall up, exists d, generate up twins = Written d /\ dec_slaves d = [("N_SLV_A_B"%string, 0); ("N_SLV_A_B"%string, 1)].
Proof.
  intros up. eexists. split; vm_compute; reflexivity.
Qed.

(** ** Examples *)

(** Two endpoints with registers and one in a group: the addresses of the second one's
    registers select it. *)
Definition table : dnode :=
  DNode "TOP" 0 false 0 None
    [DNode "ctrl" 0x10 true 0 (Some 2) [leaf "ctrl.id" 0x10 false None; leaf "ctrl.stat" 0x12 false None];
     DNode "grp" 0 false 0 None [DNode "grp.ram" 0x2000 true 4096 (Some 12) []];
     DNode "io" 0 true 0 (Some 1) [leaf "io.a" 0 false None; leaf "io.b" 1 false None]].

Lemma below_finite n m : below n m -> In m (all_of n).
Proof. apply all_below. Qed.

Lemma table_space : forall m, below table m -> d_addr m < 2 ^ 32.
Proof.
  intros m B. apply below_finite in B.
  assert (F : forallb (fun m => d_addr m <? 2 ^ 32) (all_of table) = true) by (vm_compute; reflexivity).
  rewrite forallb_forall in F. apply N.ltb_lt, F, B.
Qed.

Definition table_decoder : decoder := Eval vm_compute in match generate N.log2_up table with Written d => d | _ => emit [] end.
Lemma table_written : generate N.log2_up table = Written table_decoder.
Proof. vm_compute. reflexivity. Qed.

(** C120_select: its hypotheses hold of a table with three endpoints. *)
Example C120_select_ex : exists eps : list (dnode * N), List.length (dec_slaves table_decoder) = List.length eps.
Proof. destruct (C120_select N.log2_up table table_decoder table_written table_space) as (eps & _ & _ & _ & H & _). exists eps. exact H. Qed.
Example C120_select_ex2 : dec_slaves table_decoder = [("N_SLV_GRP_RAM"%string, 0); ("N_SLV_IO"%string, 1); ("N_SLV_CTRL"%string, 2)] /\
  map (select table_decoder) [0; 1; 0x10; 0x13; 0x2000; 0x2fff] = [1; 1; 2; 2; 0; 0] /\ dec_width table_decoder = 2.
Proof. vm_compute. auto. Qed.

(** C120_registers_partial: the second register of ctrl. *)
Example C120_registers_ex : exists c k, constant_for "ctrl" c /\ In (c, k) (dec_slaves table_decoder) /\ forall j, selects table_decoder 0x12 j <-> j = k.
Proof.
  apply (C120_registers_partial N.log2_up table table_decoder (DNode "ctrl" 0x10 true 0 (Some 2) [leaf "ctrl.id" 0x10 false None; leaf "ctrl.stat" 0x12 false None]) (leaf "ctrl.stat" 0x12 false None) 0x12 table_written table_space).
  - apply ep_child; [left; reflexivity|reflexivity].
  - intros m H. apply flagged_endpoint in H. destruct H.
  - right. apply below_child. right. left. reflexivity.
  - cbn. lia.
  - cbn. lia.
Qed.

Example constant_ex : constant_for "grp.ram2" "N_SLV_GRP_RAM2".
Proof. exact (constant_ok "grp.ram2"). Qed.

(** C120_inner_partial: an endpoint with two endpoints in it and no width of its own. *)
Definition inner_e : dnode := DNode "sub" 0x100 true 0 None [leaf "sub.b" 0x180 true (Some 7); leaf "sub.a" 0x100 true (Some 4)].
Definition inner_table : dnode := DNode "TOP" 0 false 0 None [leaf "x" 0x40 true (Some 3); inner_e].
Definition inner_decoder : decoder := Eval vm_compute in match generate N.log2_up inner_table with Written d => d | _ => emit [] end.
Example C120_inner_ex : exists c k, constant_for "sub" c /\ In (c, k) (dec_slaves inner_decoder) /\ forall j, selects inner_decoder 0x1ff j <-> j = k.
Proof.
  apply (C120_inner_partial N.log2_up inner_table inner_decoder inner_e (leaf "sub.b" 0x180 true (Some 7)) 0x1ff).
  - vm_compute. reflexivity.
  - intros m B. apply below_finite in B. assert (F : forallb (fun m => d_addr m <? 2 ^ 32) (all_of inner_table) = true) by (vm_compute; reflexivity).
    rewrite forallb_forall in F. apply N.ltb_lt, F, B.
  - intros n. destruct (N.le_gt_cases n 1) as [L|L]; [|apply N.log2_up_spec; exact L]. assert (2 ^ N.log2_up n <> 0) by (apply N.pow_nonzero; lia). lia.
  - apply ep_child; [right; left; reflexivity|reflexivity].
  - repeat constructor; discriminate.
  - constructor; [|constructor; constructor]. constructor; [|constructor]. intros x. unfold within. cbn. lia.
  - left. reflexivity.
  - cbn. lia.
  - unfold within. cbn. lia.
Qed.

(** C120_tree: the table above, as the device gives it. *)
Definition given : list source :=
  [Src "ctrl" 0x10 true 0 (Some 2) [Src "id" 0x10 false 1 None []; Src "stat" 0x12 false 1 None []];
   Src "grp" 0 false 0 None [Src "ram" 0x2000 true 4096 (Some 12) []];
   Src "io" 0 true 0 (Some 1) [Src "a" 0 false 1 None []; Src "b" 1 false 1 None []]].
Example C120_tree_ex : Forall proper given /\ NoDup (map s_id given) /\ build None (flat_map (listed []) given) = table.
Proof.
  assert (D : forall x, forallb (fun c => negb (Ascii.eqb c ".")) (list_ascii_of_string x) = true -> dotless x).
  { intros x H I. rewrite forallb_forall in H. specialize (H _ I). discriminate. }
  assert (U : NoDup (map s_id given)) by (repeat constructor; cbn; intuition discriminate).
  assert (F : Forall proper given).
  { repeat constructor; try (apply D; reflexivity); cbn; intuition discriminate. }
  split; [exact F|]. split; [exact U|]. rewrite (C120_tree None given F U). reflexivity.
Qed.

(** C120_covered: every register of the table is in an endpoint; without the flag of
    io there is no file. *)
Example C120_covered_ex : exists e, endpoint_of table e /\ (e = leaf "io.b" 1 false None \/ below e (leaf "io.b" 1 false None)).
Proof.
  apply (C120_covered N.log2_up table table_decoder (DNode "ctrl" 0x10 true 0 (Some 2) [leaf "ctrl.id" 0x10 false None; leaf "ctrl.stat" 0x12 false None]) _ table_written).
  - apply ep_child; [left; reflexivity|reflexivity].
  - eapply below_deeper; [right; right; left; reflexivity|]. apply below_child. right. left. reflexivity.
  - reflexivity.
Qed.
Example C120_covered_ex2 : generate N.log2_up (DNode "TOP" 0 false 0 None [leaf "a" 0 true (Some 2); leaf "b" 8 false None]) = NodeErrors.
Proof. vm_compute. reflexivity. Qed.

(** C120_accepts. *)
Example C120_accepts_ex : exists d, generate N.log2_up (DNode "TOP" 0 false 0 None [leaf "b" 0x100 true (Some 8); leaf "a" 0 true (Some 0)]) = Written d /\ List.length (dec_slaves d) = 2%nat.
Proof.
  apply C120_accepts.
  - discriminate.
  - repeat constructor; try (exists 8; split; [reflexivity|lia]); try (exists 0; split; [reflexivity|lia]); try (intros m H; apply flagged_endpoint in H; destruct H); try (intros m H; apply all_below in H; destruct H); vm_compute; congruence.
  - constructor; [|constructor; constructor]. constructor; [|constructor]. intros x. unfold within. cbn. lia.
Qed.
(** Endpoints that overlap, and one that is not aligned, give no file. *)
Example C120_accepts_ex2 : generate N.log2_up (DNode "TOP" 0 false 0 None [leaf "b" 0x100 true (Some 8); leaf "a" 0x180 true (Some 4)]) = NodeErrors /\
  generate N.log2_up (DNode "TOP" 0 false 0 None [leaf "b" 0x100 true (Some 8); leaf "a" 4 true (Some 4)]) = NodeErrors.
Proof. vm_compute. auto. Qed.

Example C120_nested_ex : N.log2_up 32 = 5 /\ exists d, generate N.log2_up nested = Written d.
Proof. split; [reflexivity|]. destruct (C120_nested_refuted N.log2_up eq_refl) as (d & _ & _ & G & _). exists d. exact G. Qed.

Print Assumptions C120_select.
Print Assumptions C120_registers_partial.
Print Assumptions C120_inner_partial.
Print Assumptions C120_tree.
Print Assumptions C120_covered.
Print Assumptions C120_accepts.
Print Assumptions C120_nested_refuted.
Print Assumptions C120_span_refuted.
Print Assumptions C120_names_refuted.
