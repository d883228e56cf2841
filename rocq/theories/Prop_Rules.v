(** C41: attribute rules select a unique handler. *)
From Coq Require Import NArith ZArith List Bool String Lia PeanoNat ZifyBool ZifyNat ZifyN.
From Verif Require Import NodeTree NodeProofs Rules.
Import ListNotations.
Open Scope N_scope.

(** ** Specification *)

(** An element with attributes [l] satisfies a rule. *)
Definition satisfies (r : rule) (l : list string) : Prop :=
  incl (r_req r) l /\ forall s, In s l -> ~ In s (r_forb r).

(** The attributes a list of rules mentions. *)
Definition mentions (rs : list rule) (s : string) : Prop :=
  exists r, In r rs /\ (In s (r_req r) \/ In s (r_forb r) \/ In s (r_opt r)).

(** Rule [k] is satisfied and requires more attributes than any other satisfied
    rule. *)
Definition best (rs : list rule) (l : list string) (k : nat) : Prop :=
  exists r, nth_error rs k = Some r /\ satisfies r l /\
  forall j r', j <> k -> nth_error rs j = Some r' -> satisfies r' l -> (List.length (r_req r') < List.length (r_req r))%nat.

(** ** Bits *)

(** The bit of each name is its position in mHashes. *)
Definition hashes_ok (hs : list (string * N)) (next : N) : Prop :=
  (List.length hs <= 64)%nat /\ NoDup (map fst hs) /\
  (forall i s h, nth_error hs i = Some (s, h) -> h = 2 ^ N.of_nat i) /\
  next = (2 ^ N.of_nat (List.length hs)) mod 2 ^ 64.

(** [acc] has exactly the bits of the names in [l]. *)
Definition bits_of (hs : list (string * N)) (acc : N) (P : string -> Prop) : Prop :=
  forall i, N.testbit acc i = true <-> exists s, P s /\ assoc s hs = Some (2 ^ i).

Lemma assoc_nth {A} s (m : list (string * A)) x : assoc s m = Some x -> exists i, nth_error m i = Some (s, x).
Proof.
  induction m as [|[k v] r IH]; cbn [assoc]; [discriminate|]. destruct (String.eqb_spec s k) as [->|N].
  - intros E. injection E as ->. exists 0%nat. reflexivity.
  - intros E. destruct (IH E) as (i & H). exists (S i). exact H.
Qed.

Lemma assoc_in {A} s (m : list (string * A)) x : NoDup (map fst m) -> In (s, x) m -> assoc s m = Some x.
Proof.
  induction m as [|[k v] r IH]; cbn [assoc map In]; intros N I; [contradiction|]. inversion N; subst.
  destruct (String.eqb_spec s k) as [->|Q].
  - destruct I as [I|I]; [congruence|]. exfalso. apply H1. apply in_map_iff. exists (k, x). auto.
  - destruct I as [I|I]; [congruence|]. auto.
Qed.

Lemma assoc_none {A} s (m : list (string * A)) : assoc s m = None <-> ~ In s (map fst m).
Proof.
  induction m as [|[k v] r IH]; cbn [assoc map In fst]; [tauto|]. destruct (String.eqb_spec s k) as [->|Q].
  - split; [discriminate|]. intros H. exfalso. apply H. left. reflexivity.
  - rewrite IH. split; [intros H [X|X]; [congruence|tauto]|tauto].
Qed.

Lemma hash_pow hs next s h : hashes_ok hs next -> assoc s hs = Some h -> exists i, h = 2 ^ i /\ i < 64.
Proof.
  intros (L & _ & E & _) A. destruct (assoc_nth _ _ _ A) as (i & X). exists (N.of_nat i). split; [apply (E _ _ _ X)|].
  assert (i < List.length hs)%nat by (apply nth_error_Some; congruence). lia.
Qed.

Lemma hash_inj hs next s s' h : hashes_ok hs next -> assoc s hs = Some h -> assoc s' hs = Some h -> s = s'.
Proof.
  intros (L & ND & E & _) A A'. destruct (assoc_nth _ _ _ A) as (i & X). destruct (assoc_nth _ _ _ A') as (j & Y).
  assert (P : 2 ^ N.of_nat i = 2 ^ N.of_nat j) by (rewrite <- (E _ _ _ X), <- (E _ _ _ Y); reflexivity).
  apply N.pow_inj_r in P; [|lia]. assert (i = j) by lia. congruence.
Qed.

Lemma NoDup_snoc {A} (l : list A) x : NoDup l -> ~ In x l -> NoDup (l ++ [x]).
Proof.
  induction l as [|y l IH]; cbn; intros N I; [constructor; [intros []|constructor]|]. inversion N; subst.
  constructor; [|apply IH; tauto]. rewrite in_app_iff. cbn. intros [X|[X|[]]]; [contradiction|]. subst. tauto.
Qed.

Lemma add_names_ok : forall l hs next acc hs' next' acc' P,
  hashes_ok hs next -> bits_of hs acc P -> (forall s, P s -> assoc s hs <> None) ->
  add_names hs next acc l = Some (hs', next', acc') ->
  hashes_ok hs' next' /\ (exists e, hs' = hs ++ e) /\ bits_of hs' acc' (fun s => P s \/ In s l) /\
  (forall s, In s (map fst hs') <-> In s (map fst hs) \/ In s l).
Proof.
  induction l as [|s t IH]; intros hs next acc hs' next' acc' P OK B D E; cbn [add_names] in E.
  - injection E as <- <- <-. split; [exact OK|]. split; [exists []; symmetry; apply app_nil_r|]. split.
    + intros i. rewrite (B i). split; intros (s & H & A); exists s; [auto|]. destruct H as [H|[]]. auto.
    + intros s. cbn [In]. tauto.
  - destruct (assoc s hs) as [h|] eqn:A.
    + destruct (hash_pow _ _ _ _ OK A) as (k & -> & K).
      destruct (IH hs next (N.lor acc (2 ^ k)) hs' next' acc' (fun x => P x \/ x = s) OK) as (O1 & X1 & B1 & N1); trivial.
      * intros i. rewrite N.lor_spec, orb_true_iff, (B i). split.
        -- intros [(x & H & Q)|H]; [exists x; auto|]. exists s. split; [auto|].
           destruct (N.eq_dec k i) as [->|NE]; [exact A|]. rewrite N.pow2_bits_false in H by exact NE. discriminate.
        -- intros (x & [H| ->] & Q); [left; exists x; auto|]. right. rewrite A in Q. injection Q as Q.
           apply N.pow_inj_r in Q; [|lia]. subst. apply N.pow2_bits_true.
      * intros x [H| ->]; [auto|congruence].
      * split; [exact O1|]. split; [exact X1|]. split.
        -- intros i. rewrite (B1 i). split; intros (x & H & Q); exists x; (split; [|exact Q]); cbn [In] in *; intuition.
        -- intros x. rewrite (N1 x). cbn [In]. split; [tauto|]. intros [H|[<-|H]]; auto. left.
           destruct (in_dec string_dec s (map fst hs)) as [Y|Y]; [exact Y|]. apply assoc_none in Y. congruence.
    + destruct (next =? 0) eqn:Z; [discriminate|].
      destruct OK as (L & ND & HV & NX).
      assert (LT : (List.length hs < 64)%nat).
      { destruct (Nat.eq_dec (List.length hs) 64) as [Q|Q]; [|lia]. rewrite Q in NX.
        change (2 ^ N.of_nat 64 mod 2 ^ 64) with 0 in NX. lia. }
      assert (NV : next = 2 ^ N.of_nat (List.length hs)).
      { rewrite NX. apply N.mod_small. apply N.pow_lt_mono_r; lia. }
      assert (OK' : hashes_ok (hs ++ [(s, next)]) ((2 * next) mod 2 ^ 64)).
      { split; [rewrite app_length; cbn; lia|]. split; [|split].
        - rewrite map_app. cbn [map fst]. apply assoc_none in A. apply NoDup_snoc; assumption.
        - intros i x h X. destruct (Nat.lt_ge_cases i (List.length hs)) as [Q|Q].
          + rewrite nth_error_app1 in X by exact Q. exact (HV _ _ _ X).
          + rewrite nth_error_app2 in X by exact Q. destruct (i - List.length hs)%nat as [|m] eqn:M; [|destruct m; discriminate].
            cbn [nth_error] in X. injection X as <- <-. replace i with (List.length hs) by lia. exact NV.
        - rewrite NV, app_length. cbn [List.length]. f_equal. rewrite <- N.pow_succ_r by lia. f_equal. lia. }
      assert (AS : forall x, assoc x (hs ++ [(s, next)]) = match assoc x hs with Some h => Some h | None => if String.eqb x s then Some next else None end).
      { intros x. clear. induction hs as [|[k v] r IH]; cbn [assoc app]; [reflexivity|]. destruct (String.eqb x k); [reflexivity|exact IH]. }
      destruct (IH (hs ++ [(s, next)]) ((2 * next) mod 2 ^ 64) (N.lor acc next) hs' next' acc' (fun x => P x \/ x = s) OK') as (O1 & X1 & B1 & N1); trivial.
      * intros i. rewrite N.lor_spec, orb_true_iff, (B i). split.
        -- intros [(x & H & Q)|H].
           ++ exists x. split; [auto|]. rewrite AS, Q. reflexivity.
           ++ exists s. split; [auto|]. rewrite AS, A, String.eqb_refl. f_equal. rewrite NV in H |- *.
              destruct (N.eq_dec (N.of_nat (List.length hs)) i) as [<-|NE]; [reflexivity|].
              rewrite N.pow2_bits_false in H by exact NE. discriminate.
        -- intros (x & H & Q). rewrite AS in Q. destruct (assoc x hs) as [h|] eqn:AX.
           ++ left. destruct H as [H| ->]; [|congruence]. exists x. rewrite AX. auto.
           ++ destruct (String.eqb_spec x s); [|discriminate]. right. injection Q as Q. rewrite Q. apply N.pow2_bits_true.
      * intros x [H| ->]; rewrite AS.
        -- destruct (assoc x hs) eqn:AX; [discriminate|]. exfalso. exact (D x H AX).
        -- rewrite A, String.eqb_refl. discriminate.
      * split; [exact O1|]. split.
        -- destruct X1 as (e & ->). exists ((s, next) :: e). rewrite <- app_assoc. reflexivity.
        -- split.
           ++ intros i. rewrite (B1 i). split; intros (x & H & Q); exists x; (split; [|exact Q]); cbn [In] in *; intuition.
           ++ intros x. rewrite (N1 x), map_app, in_app_iff. cbn [map fst In]. tauto.
Qed.

Lemma bits_extend hs e acc (P : string -> Prop) : NoDup (map fst (hs ++ e)) -> (forall s, P s -> In s (map fst hs)) ->
  bits_of hs acc P -> bits_of (hs ++ e) acc P.
Proof.
  intros N D B i. rewrite (B i).
  assert (X : forall s, P s -> assoc s (hs ++ e) = assoc s hs).
  { intros s H. specialize (D s H). destruct (assoc s hs) as [x|] eqn:A.
    - apply assoc_in; [exact N|]. destruct (assoc_nth _ _ _ A) as (j & J). apply nth_error_In in J. apply in_or_app. auto.
    - apply assoc_none in A. contradiction. }
  split; intros (s & H & A); exists s; (split; [exact H|]); rewrite X in * by exact H; exact A.
Qed.

(** The parser after adding the rules [rs]. *)
Record parser_ok (p : parser) (rs : list rule) : Prop := {
  po_hash : hashes_ok (p_hashes p) (p_next p);
  po_names : forall s, In s (map fst (p_hashes p)) <-> mentions rs s;
  po_rules : Forall2 (fun x r => fst (fst x) = r /\
               bits_of (p_hashes p) (snd (fst x)) (fun s => In s (r_req r)) /\
               bits_of (p_hashes p) (snd x) (fun s => In s (r_forb r))) (p_rules p) rs
}.

Lemma bits_zero hs : bits_of hs 0 (fun s => In s []).
Proof. intros i. rewrite N.bits_0. split; [discriminate|]. intros (s & [] & _). Qed.

Lemma bits_ext hs acc (P Q : string -> Prop) : (forall s, P s <-> Q s) -> bits_of hs acc P -> bits_of hs acc Q.
Proof. intros H B i. rewrite (B i). split; intros (s & X & Y); exists s; (split; [apply H; exact X|exact Y]). Qed.

Lemma empty_parser_ok : parser_ok empty_parser [].
Proof.
  constructor; cbn.
  - split; [cbn; lia|]. split; [constructor|]. split; [intros [|i]; discriminate|reflexivity].
  - intros s. split; [intros []|]. intros (r & [] & _).
  - constructor.
Qed.

Lemma add_rule_ok p rs r p' : parser_ok p rs -> add_rule p r = Some p' -> parser_ok p' (rs ++ [r]).
Proof.
  intros [H NM R] E. unfold add_rule in E.
  destruct (add_names (p_hashes p) (p_next p) 0 (r_req r)) as [[[h1 n1] req]|] eqn:E1; [|discriminate].
  destruct (add_names h1 n1 0 (r_forb r)) as [[[h2 n2] forb]|] eqn:E2; [|discriminate].
  destruct (add_names h2 n2 0 (r_opt r)) as [[[h3 n3] opt]|] eqn:E3; [|discriminate]. injection E as <-.
  assert (Z : forall hs, forall s : string, In s [] -> assoc s hs <> @None BinNums.N) by (intros hs s []).
  destruct (add_names_ok _ _ _ _ _ _ _ _ H (bits_zero _) (Z _) E1) as (H1 & (e1 & X1) & B1 & N1).
  destruct (add_names_ok _ _ _ _ _ _ _ _ H1 (bits_zero _) (Z _) E2) as (H2 & (e2 & X2) & B2 & N2).
  destruct (add_names_ok _ _ _ _ _ _ _ _ H2 (bits_zero _) (Z _) E3) as (H3 & (e3 & X3) & B3 & N3).
  assert (ND : NoDup (map fst h3)) by (destruct H3 as (_ & D & _); exact D).
  constructor; cbn [p_hashes p_next p_rules]; trivial.
  - intros s. rewrite N3, N2, N1, NM. split.
    + intros [[[(r0 & I & M)|M]|M]|M].
      * exists r0. split; [apply in_or_app; auto|exact M].
      * exists r. split; [apply in_or_app; right; left; reflexivity|auto].
      * exists r. split; [apply in_or_app; right; left; reflexivity|auto].
      * exists r. split; [apply in_or_app; right; left; reflexivity|auto].
    + intros (r0 & I & M). apply in_app_or in I. destruct I as [I|[<-|[]]].
      * left. left. left. exists r0. auto.
      * tauto.
  - apply Forall2_app.
    + assert (MO : forall r0, In r0 rs -> forall s, In s (r_req r0) \/ In s (r_forb r0) -> In s (map fst (p_hashes p))).
      { intros r0 I s M. apply NM. exists r0. tauto. }
      assert (XX : h3 = p_hashes p ++ (e1 ++ e2 ++ e3)) by (rewrite X3, X2, X1, <- !app_assoc; reflexivity).
      clear -R MO ND XX. induction R as [|x r0 xs rs0 (A & B & C) R IH]; constructor.
      * split; [exact A|]. rewrite XX in ND |- *. split; apply bits_extend; trivial; intros s M; apply (MO r0 (or_introl eq_refl)); auto.
      * apply IH. intros r1 I. apply MO. right. exact I.
    + constructor; [|constructor]. cbn [fst snd]. split; [reflexivity|]. split.
      * rewrite X3, X2 in ND |- *. rewrite <- app_assoc in ND |- *. apply bits_extend; trivial.
        -- intros s I. apply N1. auto.
        -- eapply bits_ext; [|exact B1]. intros s. cbn [In]. tauto.
      * rewrite X3 in ND |- *. apply bits_extend; trivial.
        -- intros s I. apply N2. auto.
        -- eapply bits_ext; [|exact B2]. intros s. cbn [In]. tauto.
Qed.

Lemma add_rules_ok : forall rs p rs0 p', parser_ok p rs0 -> add_rules p rs = Some p' -> parser_ok p' (rs0 ++ rs).
Proof.
  induction rs as [|r t IH]; intros p rs0 p' H E; cbn [add_rules] in E.
  - injection E as <-. rewrite app_nil_r. exact H.
  - destruct (add_rule p r) as [p1|] eqn:A; [|discriminate].
    replace (rs0 ++ r :: t) with ((rs0 ++ [r]) ++ t) by (rewrite <- app_assoc; reflexivity).
    apply (IH p1); [apply (add_rule_ok p); assumption|exact E].
Qed.

(** ** The selection *)

Lemma attr_hash_ok hs next : hashes_ok hs next -> forall l acc P, bits_of hs acc P ->
  match attr_hash hs acc l with
  | Some h => bits_of hs h (fun s => P s \/ In s l) /\ (forall s, In s l -> In s (map fst hs))
  | None => exists s, In s l /\ ~ In s (map fst hs)
  end.
Proof.
  intros OK. induction l as [|s t IH]; intros acc P B; cbn [attr_hash].
  - split; [|intros s []]. eapply bits_ext; [|exact B]. intros s. cbn [In]. tauto.
  - destruct (assoc s hs) as [h|] eqn:A.
    + destruct (hash_pow _ _ _ _ OK A) as (k & -> & K).
      assert (B' : bits_of hs (N.lor acc (2 ^ k)) (fun x => P x \/ x = s)).
      { intros i. rewrite N.lor_spec, orb_true_iff, (B i). split.
        - intros [(x & H & Q)|H]; [exists x; auto|]. exists s. split; [auto|].
          destruct (N.eq_dec k i) as [->|NE]; [exact A|]. rewrite N.pow2_bits_false in H by exact NE. discriminate.
        - intros (x & [H| ->] & Q); [left; exists x; auto|]. right. rewrite A in Q. injection Q as Q.
          apply N.pow_inj_r in Q; [|lia]. subst. apply N.pow2_bits_true. }
      specialize (IH _ _ B'). destruct (attr_hash hs (N.lor acc (2 ^ k)) t) as [h'|].
      * destruct IH as (X & Y). split.
        -- eapply bits_ext; [|exact X]. intros x. cbn [In]. intuition.
        -- intros x [<-|I]; [|auto]. destruct (in_dec string_dec s (map fst hs)) as [Z|Z]; [exact Z|]. apply assoc_none in Z. congruence.
      * destruct IH as (x & I & Z). exists x. split; [right; exact I|exact Z].
    + exists s. split; [left; reflexivity|]. apply assoc_none. exact A.
Qed.

Lemma rule_bits hs next r l h req forb : hashes_ok hs next ->
  bits_of hs h (fun s => In s l) -> (forall s, In s l -> In s (map fst hs)) ->
  bits_of hs req (fun s => In s (r_req r)) -> bits_of hs forb (fun s => In s (r_forb r)) ->
  (forall s, In s (r_req r) -> In s (map fst hs)) ->
  (N.land forb h = 0 /\ N.ldiff req h = 0 <-> satisfies r l).
Proof.
  intros OK BH KH BR BF KR. unfold satisfies.
  assert (PW : forall s, In s (map fst hs) -> exists i, assoc s hs = Some (2 ^ i)).
  { intros s I. destruct (assoc s hs) as [x|] eqn:A; [|apply assoc_none in A; contradiction].
    destruct (hash_pow _ _ _ _ OK A) as (i & -> & _). eauto. }
  split.
  - intros (L & D). split.
    + intros s I. destruct (PW s (KR s I)) as (i & A).
      assert (T : N.testbit req i = true) by (apply BR; exists s; auto).
      assert (X : N.testbit (N.ldiff req h) i = false) by (rewrite D; apply N.bits_0).
      rewrite N.ldiff_spec, T in X. cbn in X. apply negb_false_iff in X. apply BH in X. destruct X as (s' & I' & A').
      rewrite (hash_inj _ _ _ _ _ OK A A'). exact I'.
    + intros s I F. destruct (PW s (KH s I)) as (i & A).
      assert (T1 : N.testbit h i = true) by (apply BH; exists s; auto).
      assert (T2 : N.testbit forb i = true) by (apply BF; exists s; auto).
      assert (X : N.testbit (N.land forb h) i = false) by (rewrite L; apply N.bits_0).
      rewrite N.land_spec, T1, T2 in X. discriminate.
  - intros (I & F). split; apply N.bits_inj; intros i; rewrite N.bits_0.
    + rewrite N.land_spec. destruct (N.testbit forb i) eqn:T1; [|reflexivity]. destruct (N.testbit h i) eqn:T2; [|reflexivity].
      exfalso. apply BF in T1. apply BH in T2. destruct T1 as (s & S1 & A1). destruct T2 as (s' & S2 & A2).
      rewrite (hash_inj _ _ _ _ _ OK A1 A2) in S1. exact (F s' S2 S1).
    + rewrite N.ldiff_spec. destruct (N.testbit req i) eqn:T1; [|reflexivity]. cbn. apply negb_false_iff.
      apply BR in T1. destruct T1 as (s & S1 & A1). apply BH. exists s. auto.
Qed.

Lemma passed_ok hs next h l : hashes_ok hs next ->
  bits_of hs h (fun s => In s l) -> (forall s, In s l -> In s (map fst hs)) ->
  forall xs rs k, Forall2 (fun x r => fst (fst x) = r /\ bits_of hs (snd (fst x)) (fun s => In s (r_req r)) /\
                                  bits_of hs (snd x) (fun s => In s (r_forb r))) xs rs ->
  (forall r s, In r rs -> In s (r_req r) -> In s (map fst hs)) ->
  NoDup (map fst (passed h k xs)) /\
  forall j n, In (j, n) (passed h k xs) <->
    exists r, (k <= j)%nat /\ nth_error rs (j - k) = Some r /\ satisfies r l /\ n = List.length (r_req r).
Proof.
  intros OK BH KH. induction xs as [|[[r0 req] forb] xs IH]; intros rs k F M; inversion F as [|? r ? rs' (A & B & C) F']; subst; cbn [passed].
  - split; [constructor|]. intros j n. split; [intros []|]. intros (r & _ & X & _). destruct (j - k)%nat; discriminate.
  - cbn [fst snd] in *.
    destruct (IH rs' (S k) F' (fun r1 s I => M r1 s (or_intror I))) as (ND & IN).
    assert (RB := rule_bits hs next r0 l h req forb OK BH KH B C (fun s I => M r0 s (or_introl eq_refl) I)).
    assert (SK : forall j n, (exists r, (S k <= j)%nat /\ nth_error rs' (j - S k) = Some r /\ satisfies r l /\ n = List.length (r_req r)) <->
                 (exists r, (k <= j)%nat /\ j <> k /\ nth_error (r0 :: rs') (j - k) = Some r /\ satisfies r l /\ n = List.length (r_req r))).
    { intros j n. split; intros (r & L & X).
      - exists r. split; [lia|]. split; [lia|]. replace (j - k)%nat with (S (j - S k)) by lia. exact X.
      - destruct X as (Q & X). exists r. split; [lia|]. replace (j - k)%nat with (S (j - S k)) in X by lia. exact X. }
    destruct (N.land forb h =? 0) eqn:E1; cbn [negb].
    + destruct (N.ldiff req h =? 0) eqn:E2; cbn [negb].
      * split.
        -- cbn [map fst]. constructor; [|exact ND]. intros X. apply in_map_iff in X. destruct X as ([j n] & E & X).
           cbn in E. subst. apply IN in X. destruct X as (r & L & _). lia.
        -- intros j n. cbn [In]. rewrite (IN j n), (SK j n). split.
           ++ intros [X|(r & L & Q & X)]; [|exists r; tauto]. injection X as <- <-. exists r0.
              rewrite Nat.sub_diag. split; [lia|]. split; [reflexivity|]. split; [|reflexivity]. apply RB. lia.
           ++ intros (r & L & X). destruct (Nat.eq_dec j k) as [->|Q]; [|right; exists r; tauto]. left.
              rewrite Nat.sub_diag in X. destruct X as (X & _ & ->). injection X as ->. reflexivity.
      * split; [exact ND|]. intros j n. rewrite (IN j n), (SK j n). split; intros (r & L & X); exists r; [tauto|].
        split; [exact L|]. split; [|exact X]. intros ->. rewrite Nat.sub_diag in X. destruct X as (X & Y & _). injection X as <-.
        apply RB in Y. lia.
    + split; [exact ND|]. intros j n. rewrite (IN j n), (SK j n). split; intros (r & L & X); exists r; [tauto|].
      split; [exact L|]. split; [|exact X]. intros ->. rewrite Nat.sub_diag in X. destruct X as (X & Y & _). injection X as <-.
      apply RB in Y. lia.
Qed.

(** State of the search for the most stringent rule, after the entries [seen]. *)
Definition search_ok (b : option nat) (c : nat) (seen : list (nat * nat)) : Prop :=
  (forall k n, In (k, n) seen -> (n <= c)%nat) /\
  match b with
  | Some k => In (k, c) seen /\ forall j n, In (j, n) seen -> j <> k -> (n < c)%nat
  | None => c = 0%nat \/ exists j1 j2, j1 <> j2 /\ In (j1, c) seen /\ In (j2, c) seen
  end.

Lemma most_stringent_ok : forall l b c seen, NoDup (map fst (seen ++ l)) -> search_ok b c seen ->
  exists c', search_ok (most_stringent b c l) c' (seen ++ l).
Proof.
  induction l as [|[k n] t IH]; intros b c seen ND (B1 & B2); cbn [most_stringent].
  - rewrite app_nil_r. exists c. split; assumption.
  - replace (seen ++ (k, n) :: t) with ((seen ++ [(k, n)]) ++ t) in * by (rewrite <- app_assoc; reflexivity).
    assert (NK : forall m, ~ In (k, m) seen).
    { intros m X. rewrite <- app_assoc in ND. cbn [app] in ND. rewrite map_app in ND. cbn [map fst] in ND. apply NoDup_remove_2 in ND. apply ND.
      apply in_or_app. left. apply in_map_iff. exists (k, m). auto. }
    destruct (Nat.ltb_spec c n) as [L|L]; [|destruct (Nat.eqb_spec c n) as [->|Q]]; apply IH; trivial; split.
    + intros j m X. apply in_app_or in X. destruct X as [X|[X|[]]]; [apply B1 in X; lia|injection X as <- <-; lia].
    + split; [apply in_or_app; right; left; reflexivity|]. intros j m X N. apply in_app_or in X.
      destruct X as [X|[X|[]]]; [apply B1 in X; lia|congruence].
    + intros j m X. apply in_app_or in X. destruct X as [X|[X|[]]]; [apply B1 in X; lia|injection X as <- <-; lia].
    + destruct b as [k'|].
      * right. exists k', k. destruct B2 as (B2 & _). split; [intros ->; exact (NK _ B2)|].
        split; apply in_or_app; [left; exact B2|right; left; reflexivity].
      * destruct B2 as [->|(j1 & j2 & D & J1 & J2)]; [left; reflexivity|]. right. exists j1, j2. split; [exact D|].
        split; apply in_or_app; left; assumption.
    + intros j m X. apply in_app_or in X. destruct X as [X|[X|[]]]; [apply B1 in X; lia|injection X as <- <-; lia].
    + destruct b as [k'|].
      * destruct B2 as (B2 & B3). split; [apply in_or_app; left; exact B2|]. intros j m X N. apply in_app_or in X.
        destruct X as [X|[X|[]]]; [exact (B3 _ _ X N)|injection X as <- <-; lia].
      * destruct B2 as [->|(j1 & j2 & D & J1 & J2)]; [lia|]. right. exists j1, j2. split; [exact D|].
        split; apply in_or_app; left; assumption.
Qed.

(** C41: the handler that runs is that of the satisfied rule that requires
    strictly more attributes than every other satisfied one (in particular, of
    the only one); an element with an attribute no rule mentions is refused, and
    so is an element for which there is no such rule. *)
Theorem C41_unique_handler : forall rs p l, add_rules empty_parser rs = Some p ->
  (parse p l = UnknownAttribute <-> exists s, In s l /\ ~ mentions rs s) /\
  ((forall s, In s l -> mentions rs s) -> forall k, parse p l = Run k <-> best rs l k).
Proof.
  intros rs p l E. destruct (add_rules_ok rs _ [] _ empty_parser_ok E) as [OK NM RU]. cbn [app] in *.
  assert (AH := attr_hash_ok _ _ OK l 0 _ (bits_zero _)). unfold parse.
  destruct (attr_hash (p_hashes p) 0 l) as [h|].
  - destruct AH as (BH & KH). assert (BH' : bits_of (p_hashes p) h (fun s => In s l)).
    { eapply bits_ext; [|exact BH]. intros s. cbn [In]. tauto. }
    assert (MR : forall r s, In r rs -> In s (r_req r) -> In s (map fst (p_hashes p))) by (intros r s I J; apply NM; exists r; tauto).
    destruct (passed_ok _ _ h l OK BH' KH _ _ 0 RU MR) as (ND & IN).
    assert (IN' : forall j n, In (j, n) (passed h 0 (p_rules p)) <-> exists r, nth_error rs j = Some r /\ satisfies r l /\ n = List.length (r_req r)).
    { intros j n. rewrite (IN j n). split; intros (r & X); exists r; rewrite Nat.sub_0_r in *; [tauto|]. split; [lia|tauto]. }
    clear IN. set (ps := passed h 0 (p_rules p)) in *.
    assert (BE : forall k, best rs l k <-> exists n, In (k, n) ps /\ forall j m, In (j, m) ps -> j <> k -> (m < n)%nat).
    { intros k. split.
      - intros (r & X & Y & Z). exists (List.length (r_req r)). split; [apply IN'; exists r; auto|].
        intros j m J NE. apply IN' in J. destruct J as (r' & J1 & J2 & ->). exact (Z j r' NE J1 J2).
      - intros (n & X & Y). apply IN' in X. destruct X as (r & X1 & X2 & ->). exists r. split; [exact X1|]. split; [exact X2|].
        intros j r' NE J1 J2. apply (Y j); [apply IN'; exists r'; auto|exact NE]. }
    split.
    + split.
      * destruct ps as [|[k1 n1] [|[k2 n2] ps']]; [destruct l; discriminate|discriminate|].
        destruct (most_stringent None 0 _); discriminate.
      * intros (s & I & M). exfalso. apply M, NM, KH. exact I.
    + intros _ k. rewrite (BE k). clear BE IN' RU. destruct ps as [|[k1 n1] [|[k2 n2] ps']] eqn:PS.
      * split; [destruct l; discriminate|]. intros (n & [] & _).
      * split.
        -- intros X. injection X as ->. exists n1. split; [left; reflexivity|]. intros j m [X|[]] NE. congruence.
        -- intros (n & [X|[]] & _). congruence.
      * rewrite <- PS in *. destruct (most_stringent_ok ps None 0 [] ND) as (c & (S1 & S2)).
        { split; [intros j m []|]. left. reflexivity. }
        cbn [app] in *. destruct (most_stringent None 0 ps) as [b|].
        -- split.
           ++ intros X. injection X as ->. exists c. exact S2.
           ++ intros (n & X & Y). destruct S2 as (S2 & S3). destruct (Nat.eq_dec b k) as [->|NE]; [reflexivity|]. exfalso.
              assert (A := Y b c S2 NE). apply S1 in X. lia.
        -- split; [discriminate|]. intros (n & X & Y). exfalso.
           destruct S2 as [->|(j1 & j2 & D & J1 & J2)].
           ++ assert (N0 : n = 0%nat) by (apply S1 in X; lia). subst n.
              assert (K1 : In (k1, n1) ps) by (rewrite PS; left; reflexivity).
              assert (K2 : In (k2, n2) ps) by (rewrite PS; right; left; reflexivity).
              destruct (Nat.eq_dec k1 k) as [->|NE]; [|specialize (Y _ _ K1 NE); lia].
              destruct (Nat.eq_dec k2 k) as [->|NE]; [|specialize (Y _ _ K2 NE); lia].
              rewrite PS in ND. cbn [map fst] in ND. inversion ND as [|? ? A B]; subst. apply A. left. reflexivity.
           ++ assert (NX : (n <= c)%nat) by (apply S1 in X; exact X).
              destruct (Nat.eq_dec j1 k) as [->|NE].
              ** specialize (Y _ _ J2 (not_eq_sym D)). lia.
              ** specialize (Y _ _ J1 NE). lia.
  - split.
    + split; [|reflexivity]. intros _. destruct AH as (s & I & M). exists s. split; [exact I|]. intros X. apply M, NM. exact X.
    + intros K. exfalso. destruct AH as (s & I & M). apply M, NM, K. exact I.
Qed.

(** Two rules pass, one of them requires more. *)
Definition ex_rules : list rule :=
  [mkRule ["a"] [] ["b"; "c"]; mkRule ["a"; "b"] [] ["c"]; mkRule ["c"] ["b"] []]%string.
Example C41_case :
  match add_rules empty_parser ex_rules with
  | Some p => (parse p ["b"; "a"], parse p ["a"; "c"], parse p ["d"], parse p ["b"])%string =
              (Run 1, AmbiguousParserRules, UnknownAttribute, NoRulesPassed)
  | None => False
  end /\ best ex_rules ["b"; "a"]%string 1.
Proof.
  split; [reflexivity|]. exists (mkRule ["a"; "b"] [] ["c"])%string. split; [reflexivity|]. split.
  - split; cbn; [intros s [<-|[<-|[]]]; cbn; auto|intros s _ []].
  - intros [|[|[|j]]] r' NE E; try congruence; cbn in E.
    + injection E as <-. cbn. lia.
    + injection E as <-. intros (I & _). exfalso. specialize (I "c"%string (or_introl eq_refl)). cbn in I.
      destruct I as [I|[I|[]]]; discriminate.
    + destruct j; discriminate.
Qed.

Print Assumptions C41_unique_handler.
