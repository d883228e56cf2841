(** C40: the overlap report is sound and complete. *)
From Coq Require Import NArith ZArith List Bool String Permutation Sorted Lia PeanoNat ZifyBool ZifyNat ZifyN.
From Verif Require Import Word NodeTree NodeProofs Prop_Node Overlap.
Import ListNotations.
Open Scope N_scope.
Ltac Zify.zify_post_hook ::= Z.div_mod_to_equations.

(** ** Specification *)

(** The addresses a node occupies. *)
Definition occupies (a : attrs) (x : N) : Prop :=
  match a_mode a with
  | HIERARCHICAL => False
  | INCREMENTAL => a_addr a <= x < a_addr a + a_size a
  | _ => x = a_addr a
  end.

(** Node [q] is a full-width register and [p] one of its own children. *)
Definition own_child (t : node) (p q : list nat) : Prop :=
  (exists i, p = q ++ [i]) /\ exists n, get t q = Some n /\ a_mask (n_at n) = NOMASK.

(** Two nodes overlap. *)
Definition overlap (t : node) (p q : list nat) : Prop :=
  exists n m, get t p = Some n /\ get t q = Some m /\
  (exists x, occupies (n_at n) x /\ occupies (n_at m) x) /\
  (a_mode (n_at n) = SINGLE -> a_mode (n_at m) = SINGLE ->
   (exists i, N.testbit (a_mask (n_at n)) i = true /\ N.testbit (a_mask (n_at m)) i = true) /\
   ~ own_child t p q /\ ~ own_child t q p).

(** No block is empty or runs past the end of the address space. *)
Definition blocks_fit (t : node) : Prop := forall p n, get t p = Some n ->
  a_mode (n_at n) = INCREMENTAL -> 1 <= a_size (n_at n) /\ a_addr (n_at n) + a_size (n_at n) <= 2 ^ 32.

(** ** Proofs *)

Lemma stable_insert_ok t p l : Permutation (stable_insert t p l) (p :: l) /\
  (StronglySorted (fun p q => a_addr (at_pos t p) <= a_addr (at_pos t q)) l ->
   StronglySorted (fun p q => a_addr (at_pos t p) <= a_addr (at_pos t q)) (stable_insert t p l)).
Proof.
  induction l as [|d r (P & SS)]; cbn [stable_insert].
  - split; [apply Permutation_refl|]. intros _. constructor; constructor.
  - destruct (N.ltb_spec (a_addr (at_pos t d)) (a_addr (at_pos t p))) as [L|L].
    + split.
      * eapply Permutation_trans; [apply perm_skip; exact P|apply perm_swap].
      * intros H. inversion H as [|? ? H1 H2]; subst. constructor; [auto|].
        apply (Permutation_Forall (Permutation_sym P)). constructor; [lia|exact H2].
    + split; [apply Permutation_refl|]. intros H. constructor; [exact H|]. inversion H as [|? ? H1 H2]; subst. constructor; [exact L|].
      eapply Forall_impl; [|exact H2]. intros e Q. cbn beta in *. lia.
Qed.

Lemma stable_sort_ok t l : Permutation (stable_sort t l) l /\
  StronglySorted (fun p q => a_addr (at_pos t p) <= a_addr (at_pos t q)) (stable_sort t l).
Proof.
  induction l as [|c l (P & SS)]; cbn [stable_sort fold_right]; [split; constructor|].
  destruct (stable_insert_ok t c (stable_sort t l)) as (Q & R). split; [|apply R; exact SS].
  eapply Permutation_trans; [exact Q|]. apply perm_skip. exact P.
Qed.

Lemma scan_in t p : forall l, StronglySorted (fun p q => a_addr (at_pos t p) <= a_addr (at_pos t q)) l ->
  forall p' q, In (p', q) (scan t p l) <-> p' = p /\ In q l /\ a_addr (at_pos t q) <= max_addr (at_pos t p) /\ clash t p q = true.
Proof.
  induction l as [|d r IH]; intros SS p' q; cbn [scan]; [cbn [In]; tauto|]. inversion SS as [|? ? S1 S2]; subst.
  destruct (N.leb_spec (a_addr (at_pos t d)) (max_addr (at_pos t p))) as [L|L].
  - rewrite in_app_iff, (IH S1). split.
    + intros [I|(-> & I & A & C)]; [|cbn [In]; auto].
      destruct (clash t p d) eqn:C; [|contradiction]. destruct I as [E|[]]. injection E as <- <-. cbn [In]. auto.
    + intros (-> & [<-|I] & A & C); [left; rewrite C; left; reflexivity|right; auto].
  - cbn [In]. split; [contradiction|]. intros (_ & [<-|I] & A & _); [lia|]. rewrite Forall_forall in S2. specialize (S2 q I). cbn beta in S2. lia.
Qed.

Definition earlier (l : list (list nat)) (p q : list nat) : Prop := exists l1 l2, l = l1 ++ p :: l2 /\ In q l2.

Lemma scans_in t : forall l, StronglySorted (fun p q => a_addr (at_pos t p) <= a_addr (at_pos t q)) l ->
  forall p q, In (p, q) (scans t l) <->
    earlier l p q /\ a_mode (at_pos t p) <> HIERARCHICAL /\ a_addr (at_pos t q) <= max_addr (at_pos t p) /\ clash t p q = true.
Proof.
  induction l as [|d r IH]; intros SS p q; cbn [scans].
  - split; [contradiction|]. intros ((l1 & l2 & E & _) & _). destruct l1; discriminate.
  - inversion SS as [|? ? S1 S2]; subst. rewrite in_app_iff, (IH S1). split.
    + intros [I|((l1 & l2 & -> & I) & X)].
      * destruct (mode_eqb (a_mode (at_pos t d)) HIERARCHICAL) eqn:M; [contradiction|]. apply (scan_in t d r S1) in I. destruct I as (-> & I & A & C).
        split; [exists [], r; auto|]. split; [intros E; rewrite E in M; discriminate|auto].
      * split; [exists (d :: l1), l2; auto|exact X].
    + intros ((l1 & l2 & E & I) & M & A & C). destruct l1 as [|e l1]; cbn [app] in E; injection E as -> ->.
      * left. destruct (mode_eqb (a_mode (at_pos t p)) HIERARCHICAL) eqn:Q; [destruct (a_mode (at_pos t p)); try discriminate; congruence|].
        apply scan_in; auto.
      * right. split; [exists l1, l2; auto|auto].
Qed.

Lemma earlier_total l p q : In p l -> In q l -> p <> q -> earlier l p q \/ earlier l q p.
Proof.
  induction l as [|d r IH]; intros I J NE; [contradiction|]. destruct I as [->|I], J as [->|J].
  - congruence.
  - left. exists [], r. auto.
  - right. exists [], r. auto.
  - destruct (IH I J NE) as [(l1 & l2 & -> & X)|(l1 & l2 & -> & X)]; [left|right]; exists (d :: l1), l2; auto.
Qed.

Lemma earlier_once l p q : NoDup l -> earlier l p q -> ~ earlier l q p /\ p <> q.
Proof.
  induction l as [|d r IH]; intros ND (l1 & l2 & E & I); [destruct l1; discriminate|]. apply NoDup_cons_iff in ND. destruct ND as (NI & ND).
  destruct l1 as [|e l1]; cbn [app] in E; injection E as E1 E2; subst d r.
  - split; [|intros ->; auto]. intros (k1 & k2 & E & J). destruct k1 as [|f k1]; cbn [app] in E; injection E as E1 E2.
    + subst q. auto.
    + apply NI. rewrite E2. apply in_or_app. right. right. exact J.
  - destruct (IH ND (ex_intro _ l1 (ex_intro _ l2 (conj eq_refl I)))) as (A & B). split; [|exact B].
    intros (k1 & k2 & E & J). destruct k1 as [|f k1]; cbn [app] in E; injection E as E1 E2.
    + apply NI. rewrite E1. apply in_or_app. right. right. exact I.
    + apply A. exists k1, k2. auto.
Qed.

Lemma scan_nodup t p l : NoDup l -> NoDup (scan t p l).
Proof.
  intros ND. induction ND as [|d r NI ND IH]; cbn [scan]; [constructor|]. destruct (_ <=? _); [|constructor].
  destruct (clash t p d); [|exact IH]. cbn [app]. constructor; [|exact IH].
  intros I. apply NI. clear - I. induction r as [|e r IH]; [contradiction|]. cbn [scan] in I. destruct (_ <=? _); [|contradiction].
  apply in_app_iff in I. destruct I as [I|I]; [|right; auto]. destruct (clash t p e); [|contradiction]. destruct I as [I|[]]. injection I as ->. left. reflexivity.
Qed.

Lemma scan_fst t p l x : In x (scan t p l) -> fst x = p.
Proof.
  induction l as [|e r IH]; cbn [scan]; [contradiction|]. destruct (_ <=? _); [|contradiction]. intros I.
  apply in_app_iff in I. destruct I as [I|I]; [|auto]. destruct (clash t p e); [|contradiction]. destruct I as [<-|[]]. reflexivity.
Qed.

Lemma scans_fst t l x : In x (scans t l) -> In (fst x) l.
Proof.
  induction l as [|e r IH]; cbn [scans]; [contradiction|]. intros I. apply in_app_iff in I. destruct I as [I|I]; [|right; auto].
  destruct (mode_eqb _ _); [contradiction|]. left. symmetry. eapply scan_fst. exact I.
Qed.

Lemma NoDup_app_intro {A} (l1 l2 : list A) : NoDup l1 -> NoDup l2 -> (forall x, In x l1 -> ~ In x l2) -> NoDup (l1 ++ l2).
Proof.
  induction 1 as [|x l NI ND IH]; intros N2 D; [exact N2|]. cbn [app]. constructor.
  - rewrite in_app_iff. intros [I|I]; [auto|]. exact (D x (or_introl eq_refl) I).
  - apply IH; [exact N2|]. intros y I. apply D. right. exact I.
Qed.

Lemma scans_nodup t l : NoDup l -> NoDup (scans t l).
Proof.
  intros ND. induction ND as [|d r NI ND IH]; cbn [scans]; [constructor|]. apply NoDup_app_intro; [|exact IH|].
  - destruct (mode_eqb _ _); [constructor|apply scan_nodup; exact ND].
  - intros x I J. apply scans_fst in J. destruct (mode_eqb _ _); [contradiction|]. apply scan_fst in I. congruence.
Qed.

Lemma next_positions t : iterate (size t) t (next t (Some [])) = tl (preorder t).
Proof.
  assert (X := iterate_all (S (size t)) t). cbn [iterate rev] in X. rewrite firstn_all2 in X by (rewrite preorder_length; lia).
  rewrite <- X. reflexivity.
Qed.

Lemma below_top t p : In p (tl (preorder t)) <-> p <> [] /\ exists n, get t p = Some n.
Proof.
  destruct (tl_preorder t) as (r & E). assert (ND := preorder_nodup t). rewrite <- preorder_in, E in *. cbn [tl].
  apply NoDup_cons_iff in ND. destruct ND as (NI & _). split.
  - intros I. split; [intros ->; contradiction|right; exact I].
  - intros (NE & [X|I]); [congruence|exact I].
Qed.

Lemma is_child_spec t p q n m : linked_below t -> get t p = Some n -> get t q = Some m -> p <> [] ->
  is_child_of t p q = true <-> exists i, p = q ++ [i].
Proof.
  intros LB GP GQ NE. unfold is_child_of, at_pos. rewrite GP.
  destruct (exists_last NE) as (up & i & ->). rewrite rev_app_distr. cbn [rev app]. rewrite rev_involutive.
  assert (LK : a_linked (n_at n) = true).
  { rewrite get_app in GP. destruct (get t up) as [u|] eqn:U; [|discriminate]. assert (LU := linked_below_get _ _ _ LB U).
    destruct (linked_below_inv _ LU) as (A & _). cbn [get] in GP. destruct (nth_error (n_ch u) i) as [c|] eqn:NT; [|discriminate]. injection GP as ->.
    rewrite Forall_forall in A. apply A. eapply nth_error_In. exact NT. }
  rewrite LK. cbn [andb]. destruct (list_eq_dec Nat.eq_dec up q) as [->|D].
  - split; [eauto|reflexivity].
  - split; [discriminate|]. intros (j & E). apply app_inj_tail in E. destruct E. contradiction.
Qed.

Lemma land_bits a b : N.land a b <> 0 <-> exists i, N.testbit a i = true /\ N.testbit b i = true.
Proof.
  split.
  - intros H. destruct (N.log2 (N.land a b)) as [|k] eqn:E.
    + exists 0. apply andb_true_iff. rewrite <- N.land_spec, <- E. apply N.bit_log2. exact H.
    + exists (N.log2 (N.land a b)). apply andb_true_iff. rewrite <- N.land_spec. apply N.bit_log2. exact H.
  - intros (i & A & B) Z. assert (X : N.testbit (N.land a b) i = true) by (rewrite N.land_spec, A, B; reflexivity). rewrite Z, N.bits_0 in X. discriminate.
Qed.

Lemma mode_eqb_eq a b : mode_eqb a b = true <-> a = b.
Proof. destruct a, b; cbn; split; congruence. Qed.

Lemma clash_spec t p q n m : linked_below t -> get t p = Some n -> get t q = Some m -> p <> [] -> q <> [] ->
  clash t p q = true <-> a_mode (n_at m) <> HIERARCHICAL /\
   (a_mode (n_at n) = SINGLE -> a_mode (n_at m) = SINGLE ->
   (exists i, N.testbit (a_mask (n_at n)) i = true /\ N.testbit (a_mask (n_at m)) i = true) /\
   ~ own_child t p q /\ ~ own_child t q p).
Proof.
  intros LB GP GQ NP NQ. unfold clash.
  assert (CP := is_child_spec t p q n m LB GP GQ NP). assert (CQ := is_child_spec t q p m n LB GQ GP NQ).
  unfold at_pos. rewrite GP, GQ.
  assert (OP : own_child t p q <-> is_child_of t p q = true /\ a_mask (n_at m) = NOMASK).
  { unfold own_child. rewrite CP. split; [intros (A & u & U & V)|intros (A & B)]; [split; congruence|split; eauto]. }
  assert (OQ : own_child t q p <-> is_child_of t q p = true /\ a_mask (n_at n) = NOMASK).
  { unfold own_child. rewrite CQ. split; [intros (A & u & U & V)|intros (A & B)]; [split; congruence|split; eauto]. }
  rewrite OP, OQ, <- land_bits. clear CP CQ OP OQ.
  destruct (mode_eqb (a_mode (n_at m)) HIERARCHICAL) eqn:H.
  { apply mode_eqb_eq in H. rewrite H. split; [discriminate|tauto]. }
  assert (HN : a_mode (n_at m) <> HIERARCHICAL) by (intros X; apply mode_eqb_eq in X; congruence).
  destruct (mode_eqb (a_mode (n_at n)) SINGLE) eqn:S1; cbn [negb orb]; [apply mode_eqb_eq in S1|].
  - destruct (mode_eqb (a_mode (n_at m)) SINGLE) eqn:S2; cbn [negb]; [apply mode_eqb_eq in S2|].
    + destruct (N.eqb_spec (N.land (a_mask (n_at n)) (a_mask (n_at m))) 0) as [Z|Z]; cbn [negb].
      * split; [discriminate|]. intros (_ & X). destruct (X S1 S2) as (Y & _). contradiction.
      * destruct (N.eqb_spec (a_mask (n_at n)) NOMASK), (N.eqb_spec (a_mask (n_at m)) NOMASK), (is_child_of t p q), (is_child_of t q p); cbn [andb];
        (split; [first [discriminate|intros _; split; [exact HN|intros _ _; split; [exact Z|split; intros (? & ?); congruence]]]|
                 intros (_ & X); destruct (X S1 S2) as (_ & X1 & X2); first [reflexivity|exfalso; tauto]]).
    + split; [|reflexivity]. intros _. split; [exact HN|]. intros _ X. apply mode_eqb_eq in X. congruence.
  - split; [|reflexivity]. intros _. split; [exact HN|]. intros X. apply mode_eqb_eq in X. congruence.
Qed.

(** Among non-hierarchical nodes with [n] not above [m], a common address is one
    test. *)
Lemma common_address a b : (a_mode a = INCREMENTAL -> 1 <= a_size a /\ a_addr a + a_size a <= 2 ^ 32) ->
  (a_mode b = INCREMENTAL -> 1 <= a_size b) -> a_addr a <= a_addr b ->
  a_mode a <> HIERARCHICAL /\ a_addr b <= max_addr a /\ a_mode b <> HIERARCHICAL <->
  exists x, occupies a x /\ occupies b x.
Proof.
  intros FA FB LE. unfold max_addr, occupies.
  assert (MX : a_mode a = INCREMENTAL -> sub32 (add32 (a_addr a) (a_size a)) 1 = a_addr a + a_size a - 1).
  { intros M. destruct (FA M) as (A & B). unfold sub32, add32, W32. lia. }
  destruct (a_mode a) eqn:MA, (a_mode b) eqn:MB; cbn [mode_eqb]; try rewrite (MX eq_refl); try specialize (FA eq_refl); try specialize (FB eq_refl);
  (split; [intros (X & Y & Z); try congruence; exists (a_addr b); lia|intros (x & X & Y); try contradiction; repeat split; try discriminate; lia]).
Qed.

(** C40.  Each pair of different nodes below the top is reported, once, exactly
    when it overlaps; nothing else is reported. *)
Theorem C40_report : forall t, linked_below t -> blocks_fit t ->
  (forall p q, p <> [] -> q <> [] -> p <> q -> In (p, q) (overlaps t) \/ In (q, p) (overlaps t) <-> overlap t p q) /\
  (forall p q, In (p, q) (overlaps t) -> p <> [] /\ q <> [] /\ p <> q /\ overlap t p q /\ ~ In (q, p) (overlaps t)) /\
  NoDup (overlaps t).
Proof.
  intros t LB BF. unfold overlaps. rewrite next_positions.
  destruct (stable_sort_ok t (tl (preorder t))) as (P & SS). set (L := stable_sort t (tl (preorder t))) in *.
  assert (IL : forall p, In p L <-> p <> [] /\ exists n, get t p = Some n).
  { intros p. rewrite <- below_top. split; apply Permutation_in; [exact P|apply Permutation_sym; exact P]. }
  assert (ND : NoDup L).
  { apply (Permutation_NoDup (Permutation_sym P)). destruct (tl_preorder t) as (r & E). assert (X := preorder_nodup t). rewrite E in *. apply NoDup_cons_iff in X. cbn [tl]. tauto. }
  assert (EA : forall p q, earlier L p q -> In p L /\ In q L /\ a_addr (at_pos t p) <= a_addr (at_pos t q)).
  { intros p q (l1 & l2 & E & I). split; [rewrite E; apply in_or_app; right; left; reflexivity|]. split; [rewrite E; apply in_or_app; right; right; exact I|].
    rewrite E in SS. clear - SS I. induction l1 as [|d l1 IH]; cbn [app] in SS; inversion SS as [|? ? S1 S2]; subst; [|auto].
    rewrite Forall_forall in S2. exact (S2 q I). }
  assert (KEY : forall p q, earlier L p q -> In (p, q) (scans t L) <-> overlap t p q).
  { intros p q E. destruct (EA p q E) as (IP & IQ & LE). apply IL in IP, IQ. destruct IP as (NP & n & GP), IQ as (NQ & m & GQ).
    rewrite (scans_in t L SS), (clash_spec t p q n m LB GP GQ NP NQ). unfold at_pos in *. rewrite GP, GQ in *.
    assert (CA := common_address (n_at n) (n_at m) (BF p n GP) (fun M => proj1 (BF q m GQ M)) LE). unfold overlap. split.
    - intros (_ & M & A & M' & C). exists n, m. split; [exact GP|]. split; [exact GQ|]. split; [apply CA; auto|exact C].
    - intros (n' & m' & GP' & GQ' & X & C). rewrite GP in GP'. rewrite GQ in GQ'. injection GP' as <-. injection GQ' as <-. apply CA in X. tauto. }
  assert (SYM : forall p q, overlap t p q <-> overlap t q p).
  { assert (H : forall p q, overlap t p q -> overlap t q p); [|intros; split; apply H].
    intros p q (n & m & A & B & (x & X & Y) & C). exists m, n. split; [exact B|]. split; [exact A|]. split; [exists x; auto|].
    intros S1 S2. destruct (C S2 S1) as ((i & I & J) & K1 & K2). split; [exists i; auto|auto]. }
  assert (E0 : forall p q, In (p, q) (scans t L) -> earlier L p q) by (intros p q I; apply (scans_in t L SS) in I; tauto).
  split; [|split; [|apply scans_nodup; exact ND]].
  - intros p q NP NQ NE. split.
    + intros [I|I]; [|apply SYM]; apply (KEY _ _ (E0 _ _ I)); exact I.
    + intros O. assert (OO := O). destruct O as (n & m & GP & GQ & _). destruct (earlier_total L p q) as [E|E]; [apply IL; eauto|apply IL; eauto|exact NE| |].
      * left. apply (KEY _ _ E). exact OO.
      * right. apply (KEY _ _ E). apply SYM. exact OO.
  - intros p q I. assert (E := E0 _ _ I). destruct (EA _ _ E) as (IP & IQ & _). apply IL in IP, IQ. destruct (earlier_once _ _ _ ND E) as (NE & NQ).
    split; [tauto|]. split; [tauto|]. split; [exact NQ|]. split; [apply (KEY _ _ E); exact I|]. intros J. exact (NE (E0 _ _ J)).
Qed.

(** Hierarchical nodes are never reported. *)
Theorem C40_hierarchical : forall t p q, linked_below t -> blocks_fit t -> In (p, q) (overlaps t) ->
  forall n, get t p = Some n \/ get t q = Some n -> a_mode (n_at n) <> HIERARCHICAL.
Proof.
  intros t p q LB BF I n G. destruct (C40_report t LB BF) as (_ & X & _). destruct (X p q I) as (_ & _ & _ & (n1 & m1 & GP & GQ & (x & X1 & X2) & _) & _).
  unfold occupies in *. destruct G as [G|G]; [rewrite GP in G|rewrite GQ in G]; injection G as <-; intros M; rewrite M in *; contradiction.
Qed.

(** Refuted without [blocks_fit]: a block past the end of the address space, which
    the builder accepts (C36_refuted), overlaps a register that is not reported. *)
Definition ov_at (id : string) (addr mask : N) (md : mode) (sz : N) (ptr : nat) : attrs :=
  mkAttrs id addr addr mask true true md sz "" "" "" "" [] [] ptr true.
Definition ov_wrap : node :=
  Node (ov_at "" 0 NOMASK HIERARCHICAL 1 0) []
    [Node (ov_at "mem" 0xFFFFFFF0 NOMASK INCREMENTAL 256 0) [] []; Node (ov_at "reg" 0xFFFFFFF8 NOMASK SINGLE 1 1) [] []].
Theorem C40_wrap_refuted : linked_below ov_wrap /\ overlap ov_wrap [0%nat] [1%nat] /\ overlaps ov_wrap = [].
Proof.
  split; [|split; [|vm_compute; reflexivity]].
  - constructor; repeat constructor.
  - do 2 eexists. split; [reflexivity|]. split; [reflexivity|]. split; [exists 0xFFFFFFF8; vm_compute; split; [split; [discriminate|reflexivity]|reflexivity]|]. discriminate.
Qed.

(** Registers with fields, a block over one of them, and a nested register. *)
Definition ov_tree : node :=
  Node (ov_at "" 0 NOMASK HIERARCHICAL 1 0) []
    [Node (ov_at "reg" 4 NOMASK SINGLE 1 0) []
       [Node (ov_at "lo" 4 0x0F SINGLE 1 0) [] []; Node (ov_at "mid" 4 0x18 SINGLE 1 1) [] []; Node (ov_at "hi" 4 0xF0 SINGLE 1 2) [] []];
     Node (ov_at "mem" 0 NOMASK INCREMENTAL 5 1) [] []; Node (ov_at "sub" 4 NOMASK HIERARCHICAL 1 2) [] [Node (ov_at "x" 5 NOMASK SINGLE 1 0) [] []]].
Example C40_case : linked_below ov_tree /\ blocks_fit ov_tree /\
  overlaps ov_tree = [([1], [0]); ([1], [0; 0]); ([1], [0; 1]); ([1], [0; 2]); ([0; 0], [0; 1]); ([0; 1], [0; 2])]%nat.
Proof.
  split; [|split; [|vm_compute; reflexivity]].
  - repeat (constructor; try reflexivity).
  - intros p n G M. destruct p as [|[|[|[|i]]] p]; cbn in G.
    + injection G as <-. discriminate.
    + destruct p as [|[|[|[|i]]] p]; cbn in G; try (injection G as <-; discriminate); try (destruct i; discriminate);
      destruct p as [|j p]; cbn in G; try (injection G as <-; discriminate); destruct j; discriminate.
    + destruct p as [|j p]; cbn in G; [injection G as <-; cbn; lia|destruct j; discriminate].
    + destruct p as [|[|j] p]; cbn in G; try (injection G as <-; discriminate); try (destruct j; discriminate);
      destruct p as [|j p]; cbn in G; try (injection G as <-; discriminate); destruct j; discriminate.
    + destruct i; discriminate.
Qed.

(** Not reported: an unmasked register and its own unmasked child at the same
    address. *)
Example C40_own_child :
  let t := Node (ov_at "" 0 NOMASK HIERARCHICAL 1 0) [] [Node (ov_at "r" 4 NOMASK SINGLE 1 0) [] [Node (ov_at "c" 4 NOMASK SINGLE 1 0) [] []]] in
  overlaps t = [] /\ own_child t [0; 0]%nat [0]%nat.
Proof. split; [vm_compute; reflexivity|]. split; [exists 0%nat; reflexivity|]. eexists. split; reflexivity. Qed.

Print Assumptions C40_report.
Print Assumptions C40_hierarchical.
Print Assumptions C40_wrap_refuted.
