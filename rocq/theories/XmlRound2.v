(** The parser of Xml.v on well-formed files: tags, contents, and whole
    files. *)
From Coq Require Import NArith ZArith List Bool Arith Lia ZifyBool ZifyNat ZifyN.
From Verif Require Import Xml XmlSpec XmlProofs XmlRound.
Import ListNotations.
Open Scope N_scope.

(** ** The '>' at the end of a piece *)

(** the end of a tag at [p], the next piece begins at [p']: the last byte of
    the file is kept in [endch], and has been replaced by zero *)
Definition gt (endch : N) (b : bytes) (p p' : nat) : Prop :=
  exists x, nth_error b p = Some x /\ endswith endch x 62 = true /\
            p' = (p + if (x =? 62)%N then 1 else 0)%nat.

Lemma gt_here endch b p : nth_error b p = Some 62 -> gt endch b p (S p).
Proof. intros H. exists 62. repeat split; [exact H|cbn; lia]. Qed.

Lemma gt_last b p : nth_error b p = Some 0 -> gt 62 b p p.
Proof. intros H. exists 0. repeat split; [exact H|cbn; lia]. Qed.

Lemma gt_chg lo hi endch b b' p p' : gt endch b p p' -> chg lo hi b b' -> (hi <= p)%nat -> gt endch b' p p'.
Proof. intros (x & E & H) [_ C] L. exists x. rewrite C by lia. auto. Qed.

Lemma gt_le endch b p p' : gt endch b p p' -> (p <= p' <= S p)%nat.
Proof. intros (x & _ & _ & ->). destruct (x =? 62); lia. Qed.

Lemma gt_bound endch L b p p' : okb L b -> gt endch b p p' -> (p' < L)%nat.
Proof.
  intros O (x & E & _ & ->). destruct (N.eqb_spec x 62) as [->|N].
  - pose proof (okb_next L b p _ O E ltac:(lia)). lia.
  - destruct O as (LB & _). assert (p < length b)%nat by (apply nth_error_Some; congruence). lia.
Qed.

Lemma gt_cases endch b p p' : gt endch b p p' ->
  (nth_error b p = Some 62 /\ p' = S p) \/ (nth_error b p = Some 0 /\ endch = 62 /\ p' = p).
Proof.
  intros (x & E & W & ->). unfold endswith in W. destruct (N.eqb_spec x 62) as [->|N].
  - left. split; [exact E|lia].
  - right. assert (x = 0) as -> by lia. split; [exact E|]. lia.
Qed.

(** what is below a place is kept *)
Definition keeps (P : nat) (b b' : bytes) : Prop :=
  forall i, (i < P)%nat -> nth_error b' i = nth_error b i.

Lemma keeps_chg lo hi P b b' : chg lo hi b b' -> (P <= lo)%nat -> keeps P b b'.
Proof. intros [_ C] H i Hi. apply C. lia. Qed.

Lemma keeps_trans P b1 b2 b3 : keeps P b1 b2 -> keeps P b2 b3 -> keeps P b1 b3.
Proof. intros H1 H2 i Hi. rewrite H2, H1 by exact Hi. reflexivity. Qed.

Lemma keeps_less P P' b b' : keeps P b b' -> (P' <= P)%nat -> keeps P' b b'.
Proof. intros H L i Hi. apply H. lia. Qed.

Lemma at_keeps P b b' s w : at_ b s w -> keeps P b b' -> (s + length w <= P)%nat -> at_ b' s w.
Proof. intros A K H. eapply at_same; [exact A|]. intros i Hi. apply K. lia. Qed.

(** ** Comments and processing instructions *)

Lemma scan_for_at t b : forall w s n c,
  at_ b s (w ++ [c]) -> Forall (fun c => c <> 0) w ->
  (forall a d w2, w = a ++ d :: w2 -> t b (s + length a)%nat = Val false) ->
  c <> 0 -> t b (s + length w)%nat = Val true -> (length w < n)%nat ->
  scan_for n t b s = Val (s + length w)%nat.
Proof.
  induction w as [|d w IH]; intros s n c A NZ NO NC YES F; (destruct n as [|n]; [lia|]); cbn [scan_for];
    cbn [app length] in *; apply at_cons in A; destruct A as [E A]; rewrite (rd_ok _ _ _ E); cbn [bind].
  - replace (c =? 0) with false by lia. rewrite Nat.add_0_r in *. now rewrite YES.
  - inversion NZ; subst. replace (d =? 0) with false by lia.
    pose proof (NO [] d w eq_refl) as N1. cbn [length] in N1. rewrite Nat.add_0_r in N1. rewrite N1. cbn [bind].
    rewrite (IH (S s) n c); auto.
    + f_equal. lia.
    + intros a x w2 ->. replace (S s + length a)%nat with (s + length (d :: a))%nat by (cbn; lia).
      apply (NO (d :: a) x w2). reflexivity.
    + now replace (S s + length w)%nat with (s + S (length w))%nat by lia.
    + lia.
Qed.

Lemma at_app2 b s w1 w2 : at_ b s (w1 ++ w2) -> at_ b (s + length w1) w2.
Proof. intros H. apply at_app in H. apply H. Qed.

Lemma at_app1 b s w1 w2 : at_ b s (w1 ++ w2) -> at_ b s w1.
Proof. intros H. apply at_app in H. apply H. Qed.

Lemma at_snoc b s w c r : at_ b s (w ++ c :: r) -> at_ b s (w ++ [c]).
Proof. intros H. change (c :: r) with ([c] ++ r) in H. rewrite app_assoc in H. now apply at_app1 in H. Qed.

Lemma comment_at endch b s st w p' :
  without [45; 45; 62] w -> at_ b s ([33; 45; 45] ++ w ++ [45; 45]) ->
  gt endch b (s + length ([33; 45; 45] ++ w ++ [45; 45])) p' ->
  exclamation endch b s st = Val (b, p', st).
Proof.
  intros WO A (x & EX & WX & EP). unfold exclamation.
  change ([33; 45; 45] ++ w ++ [45; 45]) with (33 :: 45 :: 45 :: w ++ [45; 45]) in *.
  cbn [length] in EX, EP. rewrite app_length in EX, EP. cbn [length] in EX, EP.
  apply at_cons in A. destruct A as [_ A]. apply at_cons in A. destruct A as [E1 A].
  apply at_cons in A. destruct A as [E2 A].
  rewrite (rd_ok _ _ _ E1). cbn [bind]. change (45 =? 45) with true. cbn iota.
  rewrite (rd_ok _ _ _ E2). cbn [bind]. change (45 =? 45) with true. cbn iota.
  set (t := S (S (S s))) in *.
  assert (at_ b t (w ++ [45])) as A1.
  { change [45; 45] with ([45] ++ [45]) in A. rewrite app_assoc in A. now apply at_app1 in A. }
  pose proof (at_app2 _ _ _ _ A) as A2.
  rewrite (scan_for_at (starts_end endch [45; 45] 62) b w t (fuel b) 45 A1); [|apply WO| |lia| |].
  - cbn [bind]. apply at_cons in A2. destruct A2 as [E3 A2]. rewrite (rd_ok _ _ _ E3). cbn [bind].
    change (45 =? 0) with false. cbn iota.
    rewrite (rd_ok b (t + length w + 2) x) by (rewrite <- EX; f_equal; subst t; lia).
    cbn [bind]. f_equal. f_equal. f_equal. subst p' t. destruct (x =? 62); lia.
  - intros a d w2 ->. apply (starts_end_no endch 62 b [45; 45] _ ((d :: w2) ++ [45; 45])).
    + rewrite <- app_assoc in A. now apply at_app2 in A.
    + apply Forall_app. split; [|repeat constructor; lia].
      destruct WO as [Z _]. apply Forall_app in Z. apply Z.
    + rewrite app_length. cbn. lia.
    + eapply (no_mark2 45 62 (a ++ d :: w2)); [apply WO|lia|reflexivity|reflexivity].
  - rewrite <- WX. apply starts_end_at. change ([45; 45] ++ [x]) with ([45; 45] ++ [x]).
    apply at_app. split; [exact A2|]. apply at_cons. split; [|apply at_nil].
    rewrite <- EX. f_equal. subst t. cbn [length]. lia.
  - apply at_bound in A; [|destruct w; discriminate]. rewrite app_length in A. unfold fuel. cbn [length] in A. lia.
Qed.

Lemma name_first w : is_name w -> exists c r, w = c :: r /\ is_type ct_start_symbol c = true.
Proof. intros (c & r & -> & H & _). exists c, r. split; [reflexivity|now apply name_start_type]. Qed.

Lemma is_name_types w : is_name w -> Forall (fun c => is_type ct_symbol c = true) w.
Proof. intros H. destruct (name_types w H) as (c & r & _ & _ & T & _). exact T. Qed.

Lemma symbol_nz c : is_type ct_symbol c = true -> c <> 0.
Proof. intros H ->. discriminate. Qed.

Lemma name_nz w : is_name w -> Forall (fun c => c <> 0) w.
Proof. intros H. apply is_name_types in H. eapply Forall_impl; [|exact H]. intros c. apply symbol_nz. Qed.

Lemma not_symbol c : ~ name_char c -> is_type ct_symbol c = false.
Proof. intros H. destruct (is_type ct_symbol c) eqn:E; [|reflexivity]. exfalso. now apply H, name_char_type. Qed.

Lemma question_at endch b s nm w p' :
  is_name nm -> without [63; 62] w -> (forall c r, w = c :: r -> ~ name_char c) ->
  at_ b s ([63] ++ nm ++ w ++ [63]) ->
  gt endch b (s + length ([63] ++ nm ++ w ++ [63])) p' ->
  question endch b s = Val p'.
Proof.
  intros NM WO NC A (x & EX & WX & EP). unfold question.
  change ([63] ++ nm ++ w ++ [63]) with (63 :: nm ++ w ++ [63]) in *.
  cbn [length] in EX, EP. rewrite !app_length in EX, EP. cbn [length] in EX, EP.
  apply at_cons in A. destruct A as [_ A].
  destruct (name_first nm NM) as (c & r & En & TS).
  assert (nth_error b (S s) = Some c) as E1 by (rewrite En in A; cbn [app] in A; apply at_cons in A; apply A).
  rewrite (rd_ok _ _ _ E1). cbn [bind]. rewrite TS. cbn [negb].
  pose proof (at_app2 _ _ _ _ A) as A2.
  assert (exists d, at_ b (S s) (nm ++ [d]) /\ is_type ct_symbol d = false /\ d <> 0 /\
                    nth_error b (S s + length nm)%nat = Some d) as (d & Ad & Td & Zd & Ed).
  { destruct w as [|d w].
    - exists 63. cbn [app] in A. split; [exact A|]. split; [reflexivity|]. split; [lia|].
      cbn [app] in A2. apply at_cons in A2. apply A2.
    - exists d. split; [|split; [apply not_symbol, (NC d w eq_refl)|]].
      + cbn [app] in A. change (d :: w ++ [63]) with ([d] ++ w ++ [63]) in A. rewrite app_assoc in A.
        now apply at_app1 in A.
      + split; [destruct WO as [Z _]; now inversion Z|].
        cbn [app] in A2. apply at_cons in A2. apply A2. }
  rewrite (scan_at (is_type ct_symbol) b nm (S s) d Ad (is_name_types nm NM) Td). cbn [bind].
  rewrite (rd_ok _ _ _ Ed). cbn [bind]. replace (d =? 0) with false by lia.
  set (t := (S s + length nm)%nat) in *.
  rewrite (scan_for_at (starts_end endch [63] 62) b w t (fuel b) 63 A2); [|apply WO| |lia| |].
  - cbn [bind]. pose proof (at_app2 _ _ _ _ A2) as A3. apply at_cons in A3. destruct A3 as [E3 _].
    rewrite (rd_ok _ _ _ E3). cbn [bind]. change (63 =? 0) with false. cbn iota.
    rewrite (rd_ok b (S (t + length w)) x) by (rewrite <- EX; f_equal; subst t; lia).
    cbn [bind]. f_equal. subst p' t. destruct (x =? 62); lia.
  - intros a e w2 ->. apply (starts_end_no endch 62 b [63] _ ((e :: w2) ++ [63])).
    + rewrite <- app_assoc in A2. now apply at_app2 in A2.
    + apply Forall_app. split; [|repeat constructor; lia].
      destruct WO as [Z _]. apply Forall_app in Z. apply Z.
    + rewrite app_length. cbn. lia.
    + eapply (no_mark1 63 62 (a ++ e :: w2)); [apply WO|lia|reflexivity|reflexivity].
  - rewrite <- WX. apply starts_end_at.
    apply at_app. split; [now apply at_app2 in A2|]. apply at_cons. split; [|apply at_nil].
    rewrite <- EX. f_equal. subst t. cbn [length]. lia.
  - apply at_bound in A2; [|destruct w; discriminate]. rewrite app_length in A2. unfold fuel. cbn [length] in A2. lia.
Qed.

(** the inside of a piece "<...>" *)
Lemma body_inv (x y : bytes) (c d : N) : [c] ++ x ++ [d] = [c] ++ y ++ [d] -> x = y.
Proof. intros H. cbn [app] in H. injection H as H. now apply app_inv_tail in H. Qed.

Lemma aside_at wa : aside wa -> exists body, wa = [60] ++ body ++ [62] /\ (0 < length body)%nat /\
  forall endch b s st p', at_ b s body -> gt endch b (s + length body) p' ->
  tag endch b s st = Val (b, p', st).
Proof.
  intros [w WO|nm w NM WO NC].
  - exists ([33; 45; 45] ++ w ++ [45; 45]). split; [cbn [app]; now rewrite <- app_assoc|].
    split; [cbn; lia|]. intros endch b s st p' A G.
    pose proof A as A0. apply at_cons in A0. destruct A0 as [E _].
    unfold tag. rewrite (rd_ok _ _ _ E). cbn [bind].
    change (is_type ct_start_symbol 33) with false. cbn iota.
    change (33 =? 47) with false. change (33 =? 63) with false. change (33 =? 33) with true. cbn iota.
    now apply comment_at with (w := w).
  - exists ([63] ++ nm ++ w ++ [63]). split; [cbn [app]; now rewrite <- !app_assoc|].
    split; [cbn; lia|]. intros endch b s st p' A G.
    pose proof A as A0. apply at_cons in A0. destruct A0 as [E _].
    unfold tag. rewrite (rd_ok _ _ _ E). cbn [bind].
    change (is_type ct_start_symbol 63) with false. cbn iota.
    change (63 =? 47) with false. change (63 =? 63) with true. cbn iota.
    now rewrite (question_at endch b s nm w p').
Qed.

(** ** Attributes *)

Definition add_attrs (pl : list (nat * nat)) (st : list frame) : list frame :=
  match st with
  | f :: r => {| f_name := f_name f; f_attrs := f_attrs f ++ pl; f_kids := f_kids f |} :: r
  | [] => []
  end.

Lemma add_attrs_nil st : add_attrs [] st = st.
Proof. destruct st as [|[nm a k] r]; [reflexivity|]. cbn. now rewrite app_nil_r. Qed.

Lemma add_attrs_cons x pl st : add_attrs pl (add_attr x st) = add_attrs (x :: pl) st.
Proof. destruct st as [|f r]; [reflexivity|]. cbn. now rewrite <- app_assoc. Qed.

Definition strings (b : bytes) (pl : list (nat * nat)) : list (bytes * bytes) :=
  map (fun a => (cstr b (fst a), cstr b (snd a))) pl.

Lemma decoded_none b v : decoded b no_gap v v = [].
Proof. unfold decoded, slice. cbn. rewrite Nat.sub_diag. reflexivity. Qed.

Lemma gapok_none v : gapok v v no_gap.
Proof. now apply gapok_no. Qed.

Lemma not_start_space c : is_type ct_space c = true -> is_type ct_start_symbol c = false.
Proof. rewrite type_space, type_start. unfold spaceb, startb. lia. Qed.

Lemma not_symbol_space c : is_type ct_space c = true -> is_type ct_symbol c = false.
Proof. rewrite type_space, type_symbol. unfold spaceb, symbolb, startb. lia. Qed.

Lemma not_space_start c : is_type ct_start_symbol c = true -> is_type ct_space c = false.
Proof. rewrite type_space, type_start. unfold spaceb, startb. lia. Qed.

Lemma attr_text_length q v w : attr_text q v w -> (length v <= length w)%nat.
Proof.
  induction 1; cbn [length]; try lia.
  rewrite !app_length. match goal with H : reference _ _ |- _ => apply reference_length in H end. lia.
Qed.

Lemma char_text_length v w : char_text v w -> (length v <= length w)%nat.
Proof.
  induction 1; cbn [length]; try lia.
  rewrite !app_length. match goal with H : reference _ _ |- _ => apply reference_length in H end. lia.
Qed.

Lemma raw_text_length v w : raw_text v w -> (length v <= length w)%nat.
Proof. induction 1; cbn [length]; lia. Qed.

(** an attribute, up to its value *)
Lemma attribute_at L endch n b s st sp nm s1 s2 q v w x :
  okb L b -> spaces sp -> is_name nm -> spaces s1 -> spaces s2 -> q = 34 \/ q = 39 ->
  attr_text q v w -> is_type ct_start_symbol x = false ->
  at_ b s ((sp ++ nm ++ s1 ++ [61] ++ s2 ++ [q] ++ w ++ [q]) ++ [x]) ->
  let s' := Nat.add s (length (sp ++ nm ++ s1 ++ [61] ++ s2 ++ [q] ++ w ++ [q])) in
  exists b' np vp,
    attributes (S n) endch b s st = attributes n endch b' s' (add_attr (np, vp) st) /\
    okb L b' /\ chg s s' b b' /\
    forall b'', keeps s' b' b'' -> cstr b'' np = nm /\ cstr b'' vp = v.
Proof.
  intros O SP NM S1 S2 Q T X A s'. assert (length b = L) as LB by apply O.
  subst s'. rewrite !app_length. cbn [length].
  rewrite <- !app_assoc in A. cbn [attributes].
  destruct (name_first nm NM) as (c0 & r0 & En & TS).
  assert (at_ b s (sp ++ [c0])) as A0.
  { apply at_app. split; [now apply at_app1 in A|]. apply at_app2 in A. rewrite En in A. cbn [app] in A.
    apply at_cons in A. apply at_cons. split; [apply A|apply at_nil]. }
  rewrite (skip_at b sp s c0 A0 SP (not_space_start _ TS)). cbn [bind].
  apply at_app2 in A. set (np := (s + length sp)%nat) in *.
  assert (nth_error b np = Some c0) as E0 by (rewrite En in A; cbn [app] in A; apply at_cons in A; apply A).
  rewrite (rd_ok _ _ _ E0). cbn [bind]. rewrite TS.
  (* the name *)
  assert (exists d, at_ b np (nm ++ [d]) /\ is_type ct_symbol d = false /\
                    nth_error b (np + length nm)%nat = Some d /\
                    ((s1 = [] /\ d = 61) \/ exists r1, s1 = d :: r1)) as (d & Ad & Td & Ed & Cd).
  { destruct s1 as [|d r1].
    - exists 61. cbn [app] in A. split; [|split; [reflexivity|split; [|left; auto]]].
      + now apply at_snoc in A.
      + apply at_app2 in A. apply at_cons in A. apply A.
    - exists d. split; [|split; [|split; [|right; eauto]]].
      + cbn [app] in A. now apply at_snoc in A.
      + apply not_symbol_space, space_type. now inversion S1.
      + apply at_app2 in A. cbn [app] in A. apply at_cons in A. apply A. }
  rewrite (scan_at (is_type ct_symbol) b nm np d Ad (is_name_types nm NM) Td). cbn [bind].
  rewrite (rd_ok _ _ _ Ed). cbn [bind].
  set (ne := (np + length nm)%nat) in *.
  assert (d <> 0) as Nd.
  { destruct Cd as [[_ ->]|[r1 ->]]; [lia|]. inversion S1 as [|? ? H]; subst. unfold space in H. lia. }
  pose proof (okb_next L b ne d O Ed Nd) as N1.
  rewrite wr_ok by lia. cbn [bind].
  set (b1 := upd b ne 0).
  assert (okb L b1) as O1 by (apply okb_upd; [exact O|exact N1]).
  assert (chg ne (S ne) b b1) as C1 by (apply chg_upd; lia).
  assert (at_ b1 np (nm ++ [0])) as AN.
  { apply at_app. split.
    - eapply at_chg_before; [apply (at_app1 _ _ _ _ Ad)|exact C1|]. subst ne. lia.
    - apply at_cons. split; [apply upd_eq; lia|apply at_nil]. }
  apply at_app2 in A. fold ne in A.
  (* up to the sign *)
  assert (at_ b1 (S (ne + length s1)) (s2 ++ [q] ++ w ++ [q] ++ [x])) as A3.
  { eapply at_chg; [|exact C1|lia].
    change (s1 ++ [61] ++ s2 ++ [q] ++ w ++ [q] ++ [x])
      with (s1 ++ ([61] ++ (s2 ++ [q] ++ w ++ [q] ++ [x]))) in A.
    apply at_app2 in A. apply at_app2 in A. cbn [length] in A.
    now replace (ne + length s1 + 1)%nat with (S (ne + length s1)) in A by lia. }
  assert ((do (ch, s) <- (if is_type ct_space d
                          then do s <- skip_ws b1 (S ne); do ch <- rd b1 s; Val (ch, S s)
                          else Val (d, S ne)); Val (ch, s)) = Val (61, S (ne + length s1))) as SIGN.
  { destruct Cd as [[-> ->]|[r1 E1]].
    - change (is_type ct_space 61) with false. cbn [bind length]. do 2 f_equal. lia.
    - subst s1. inversion S1 as [|? ? SD SR]; subst. rewrite (space_type d SD).
      assert (at_ b1 (S ne) (r1 ++ [61])) as AR.
      { eapply at_chg; [|exact C1|lia]. cbn [app] in A. apply at_cons in A. destruct A as [_ A].
        now apply at_snoc in A. }
      rewrite (skip_at b1 r1 (S ne) 61 AR SR eq_refl). cbn [bind].
      apply at_app2 in AR. apply at_cons in AR. destruct AR as [ER _].
      rewrite (rd_ok _ _ _ ER). cbn [bind length]. do 2 f_equal. lia. }
  destruct (if is_type ct_space d
            then do s <- skip_ws b1 (S ne); do ch <- rd b1 s; Val (ch, S s)
            else Val (d, S ne)) as [[ch sx]| | |]; cbn [bind] in SIGN; try discriminate.
  injection SIGN as -> ->. cbn [bind]. change (61 =? 61) with true. cbn iota.
  (* the value *)
  assert (at_ b1 (S (ne + length s1)) (s2 ++ [q])) as A4.
  { rewrite app_assoc in A3. now apply at_app1 in A3. }
  rewrite (skip_at b1 s2 _ q A4 S2) by (destruct Q as [-> | ->]; reflexivity). cbn [bind].
  apply at_app2 in A3. apply at_app2 in A4. apply at_cons in A4. destruct A4 as [EQ _].
  rewrite (rd_ok _ _ _ EQ). cbn [bind].
  replace ((q =? 34) || (q =? 39)) with true by lia.
  set (vq := (S (ne + length s1) + length s2)%nat) in *.
  change ([q] ++ w ++ [q] ++ [x]) with (q :: w ++ [q] ++ [x]) in A3.
  apply at_cons in A3. destruct A3 as [_ A3].
  assert (at_ b1 (S vq) (w ++ [q])) as A5 by (rewrite app_assoc in A3; now apply at_app1 in A3).
  assert (vq < L)%nat as VB.
  { assert (vq < length b1)%nat by (apply nth_error_Some; congruence). destruct O1 as (<- & _). assumption. }
  destruct (attr_conv_at L q (S vq) Q v w T (fuel b1) b1 no_gap (S vq) O1 (gapok_none _) A5)
    as (b2 & -> & O2 & C2 & A6).
  { unfold fuel. destruct O1 as (-> & _). lia. }
  cbn [bind]. rewrite decoded_none in A6. cbn [app] in A6.
  rewrite app_assoc in A3. apply at_app2 in A3. rewrite app_length in A3. cbn [length] in A3.
  apply at_cons in A3. destruct A3 as [EX _].
  rewrite (rd_ok b2 (S (S vq + length w)) x).
  2: { destruct C2 as [_ C2]. rewrite C2 by lia. rewrite <- EX. f_equal. lia. }
  cbn [bind]. rewrite X.
  exists b2, np, (S vq).
  replace (s + (length sp + (length nm + (length s1 + (1 + (length s2 + (1 + (length w + 1))))))))%nat
    with (S (S vq + length w)) by (subst vq ne np; lia).
  split; [reflexivity|]. split; [exact O2|]. split.
  - eapply chg_trans; [eapply chg_weaken; [exact C1| |]|eapply chg_weaken; [exact C2| |]];
      subst vq ne np; lia.
  - intros b'' K. split.
    + apply cstr_at; [|now apply name_nz].
      eapply at_keeps; [eapply at_chg_before; [exact AN|exact C2|]|exact K|];
        rewrite app_length; cbn [length]; subst vq ne np; lia.
    + apply cstr_at; [|eapply attr_text_nz; exact T].
      eapply at_keeps; [exact A6|exact K|].
      pose proof (attr_text_length q v w T). rewrite app_length. cbn [length]. lia.
Qed.

Lemma attrs_first a r sp c : attrs a r -> spaces sp ->
  exists x t, (r ++ sp) ++ [c] = x :: t /\ (space x \/ x = c).
Proof.
  intros [|sp1 nm s1 s2 q v w a' r' H1 N1 H3 H4 H5 H6 H7 H8] S.
  - destruct S as [|x sp H S]; cbn [app]; eauto.
  - destruct H1 as [|x sp1 H H1]; [congruence|]. cbn [app]. eauto.
Qed.

Lemma attributes_at L endch : forall a wa, attrs a wa -> forall sp w c n b s st,
  spaces sp -> (w = wa ++ sp \/ exists d, d :: w = wa ++ sp) -> c = 62 \/ c = 47 ->
  okb L b -> at_ b s (w ++ [c]) -> (L - s <= n)%nat ->
  exists n' b' pl,
    attributes n endch b s st = attributes n' endch b' (s + length w)%nat (add_attrs pl st) /\
    (L - (s + length w) <= n')%nat /\ okb L b' /\ chg s (s + length w) b b' /\
    forall b'', keeps (s + length w) b' b'' -> strings b'' pl = a.
Proof.
  induction 1 as [|sp1 nm s1 s2 q v w1 a r H1 N1 H3 H4 H5 H6 H7 H8 IH]; intros sp w c n b s st SP W C O A F.
  - assert (spaces w) as SW.
    { cbn [app] in W. destruct W as [-> |[d W]]; [exact SP|]. rewrite <- W in SP. now inversion SP. }
    exists n, b, []. rewrite add_attrs_nil.
    split; [|split; [lia|split; [exact O|split; [apply chg_refl|reflexivity]]]].
    destruct n as [|n].
    { assert (s < L)%nat; [|lia]. destruct O as (<- & _). apply at_bound in A; [|destruct w; discriminate].
      rewrite app_length in A. cbn [length] in A. lia. }
    assert (is_type ct_space c = false) as TC by (destruct C as [-> | ->]; reflexivity).
    cbn [attributes]. rewrite (skip_at b w s c A SW TC).
    rewrite (skip_at b [] (s + length w) c (at_app2 _ _ _ _ A) (Forall_nil _) TC). cbn [bind length].
    now rewrite Nat.add_0_r.
  - assert (exists sp2, spaces sp2 /\
              w = (sp2 ++ nm ++ s1 ++ [61] ++ s2 ++ [q] ++ w1 ++ [q]) ++ (r ++ sp)) as (sp2 & S2 & ->).
    { rewrite <- !app_assoc in W. destruct W as [-> |[d W]].
      - exists sp1. split; [exact H1|]. now rewrite <- !app_assoc.
      - destruct H1 as [|x sp1 X H1]; [congruence|]. exists sp1. split; [exact H1|].
        cbn [app] in W. injection W as -> ->. cbn [app]. repeat (rewrite <- app_assoc; cbn [app]). reflexivity. }
    set (u := sp2 ++ nm ++ s1 ++ [61] ++ s2 ++ [q] ++ w1 ++ [q]) in *.
    rewrite <- app_assoc in A.
    destruct (attrs_first a r sp c H8 SP) as (x & t & EX & CX).
    assert (at_ b s (u ++ [x])) as AU by (rewrite EX in A; now apply at_snoc in A).
    assert (s < L)%nat as SL.
    { destruct O as (<- & _). apply at_bound in AU; [|destruct u; discriminate].
      rewrite app_length in AU. cbn [length] in AU. lia. }
    destruct n as [|n]; [lia|].
    destruct (attribute_at L endch n b s st sp2 nm s1 s2 q v w1 x) as (b1 & np & vp & E1 & O1 & C1 & K1); auto.
    { destruct CX as [CX | ->]; [apply not_start_space, space_type, CX|]. destruct C as [-> | ->]; reflexivity. }
    fold u in E1, C1, K1. rewrite E1.
    assert (0 < length u)%nat as LU by (subst u; rewrite !app_length; cbn [length]; lia).
    destruct (IH sp (r ++ sp) c n b1 (s + length u)%nat (add_attr (np, vp) st) SP (or_introl eq_refl) C O1)
      as (n' & b' & pl & E2 & F2 & O2 & C2 & K2).
    { eapply at_chg; [apply (at_app2 _ _ _ _ A)|exact C1|lia]. }
    { lia. }
    rewrite app_length. replace (s + (length u + length (r ++ sp)))%nat with (s + length u + length (r ++ sp))%nat by lia.
    exists n', b', ((np, vp) :: pl). split; [rewrite E2, add_attrs_cons; reflexivity|].
    split; [exact F2|]. split; [exact O2|]. split.
    + eapply chg_trans; eapply chg_weaken; [exact C1| | |exact C2| |]; lia.
    + intros b'' K. unfold strings. cbn [map fst snd]. f_equal; [|now apply K2].
      destruct (K1 b'') as [-> ->]; [|reflexivity].
      eapply keeps_trans; [eapply keeps_chg; [exact C2|lia]|]. eapply keeps_less; [exact K|lia].
Qed.

(** ** Start tags and end tags *)

Definition open_frame (np : nat) (pl : list (nat * nat)) : frame :=
  {| f_name := Some np; f_attrs := pl; f_kids := [] |}.

(** the name of a start tag, and what follows it *)
Lemma start_at L endch nm a wa sp c b s st :
  is_name nm -> attrs a wa -> spaces sp -> c = 62 \/ c = 47 ->
  okb L b -> at_ b s (nm ++ wa ++ sp ++ [c]) ->
  let p := Nat.add s (length (nm ++ wa ++ sp)) in
  exists b' pl,
    tag endch b s st =
      (if c =? 62 then Val (b', S p, open_frame s pl :: st)
       else do x <- rd b' (S p);
            if negb (endswith endch x 62) then Err BadStart (S p) b'
            else do st <- pop_node (open_frame s pl :: st);
                 Val (b', (S p + (if (x =? 62)%N then 1 else 0))%nat, st)) /\
    okb L b' /\ chg s (S p) b b' /\
    forall b'', keeps (S p) b' b'' -> at_ b'' s (nm ++ [0]) /\ strings b'' pl = a.
Proof.
  intros NM AT SP C O A p. assert (length b = L) as LB by apply O.
  destruct (name_first nm NM) as (c0 & r0 & En & TS).
  assert (nth_error b s = Some c0) as E0 by (rewrite En in A; cbn [app] in A; apply at_cons in A; apply A).
  unfold tag. rewrite (rd_ok _ _ _ E0). cbn [bind]. rewrite TS.
  destruct (attrs_first a wa sp c AT SP) as (d & t & ET & CD).
  assert (at_ b s (nm ++ d :: t)) as A1 by (rewrite <- ET, <- app_assoc; exact A).
  assert (is_type ct_symbol d = false) as TD.
  { destruct CD as [CD | ->]; [apply not_symbol_space, space_type, CD|]. destruct C as [-> | ->]; reflexivity. }
  assert (d <> 0) as ND.
  { destruct CD as [CD | ->]; [unfold space in CD; lia|lia]. }
  rewrite (scan_at (is_type ct_symbol) b nm s d (at_snoc _ _ _ _ _ A1) (is_name_types nm NM) TD). cbn [bind].
  apply at_app2 in A1. set (ne := (s + length nm)%nat) in *. apply at_cons in A1. destruct A1 as [ED A1].
  rewrite (rd_ok _ _ _ ED). cbn [bind].
  pose proof (okb_next L b ne d O ED ND) as N1. rewrite wr_ok by lia. cbn [bind].
  set (b1 := upd b ne 0).
  assert (okb L b1) as O1 by (apply okb_upd; [exact O|exact N1]).
  assert (chg ne (S ne) b b1) as C1 by (apply chg_upd; lia).
  assert (at_ b1 s (nm ++ [0])) as AN.
  { apply at_app. split.
    - eapply at_chg_before; [apply (at_app1 _ _ _ _ A)|exact C1|]. subst ne. lia.
    - apply at_cons. split; [apply upd_eq; lia|apply at_nil]. }
  assert (p = ne + length (wa ++ sp))%nat as PE by (subst p ne; rewrite app_length; lia).
  destruct CD as [CD | ->].
  - (* white space: the attributes follow *)
    assert (d =? 62 = false) as -> by (unfold space in CD; lia).
    rewrite (space_type d CD).
    assert (exists w, wa ++ sp = d :: w /\ t = w ++ [c]) as (w & EW & ->).
    { destruct (wa ++ sp) as [|d' w] eqn:EW.
      - cbn [app] in ET. injection ET as E _. unfold space in CD. lia.
      - cbn [app] in ET. injection ET as -> <-. eauto. }
    destruct (attributes_at L endch a wa AT sp w c (fuel b1) b1 (S ne) (push_node s st) SP)
      as (n' & b' & pl & E2 & F2 & O2 & C2 & K2); auto.
    { right. exists d. now rewrite EW. }
    { eapply at_chg; [exact A1|exact C1|lia]. }
    { unfold fuel. destruct O1 as (-> & _). lia. }
    rewrite E2. rewrite EW in PE. cbn [length] in PE.
    replace (S ne + length w)%nat with p in * by lia.
    exists b', pl.
    assert (nth_error b' p = Some c) as EC.
    { destruct C2 as [_ C2]. rewrite C2 by lia. destruct C1 as [_ C1]. rewrite C1 by lia.
      apply at_app2 in A1. apply at_cons in A1. rewrite <- (proj1 A1). f_equal. lia. }
    assert (S p < L)%nat as PL by (apply (okb_next L b' p c O2 EC); lia).
    split.
    + destruct n' as [|n']; [lia|]. cbn [attributes].
      unfold skip_ws. rewrite (scan_here _ _ _ _ EC) by (destruct C as [-> | ->]; reflexivity). cbn [bind].
      rewrite (rd_ok _ _ _ EC). cbn [bind].
      assert (add_attrs pl (push_node s st) = open_frame s pl :: st) as -> by reflexivity.
      destruct C as [-> | ->].
      * reflexivity.
      * change (is_type ct_start_symbol 47) with false. cbn iota.
        change (47 =? 47) with true. change (47 =? 62) with false. cbn iota.
        destruct (rd_in b' (S p)) as (x & EX & ->); [destruct O2 as (-> & _); lia|]. cbn [bind].
        unfold endswith. destruct (N.eqb_spec x 62) as [->|NX]; cbn [orb negb].
        -- destruct (pop_node _); cbn [bind]; try reflexivity. repeat f_equal. lia.
        -- destruct ((x =? 0) && (endch =? 62)); cbn [negb]; [|reflexivity].
           destruct (pop_node _); cbn [bind]; try reflexivity. repeat f_equal. lia.
    + split; [exact O2|]. split.
      * eapply chg_trans; eapply chg_weaken; [exact C1| | |exact C2| |]; subst ne; lia.
      * intros b'' K. split; [|apply K2; eapply keeps_less; [exact K|lia]].
        eapply at_keeps; [eapply at_chg_before; [exact AN|exact C2|]|exact K|];
          rewrite app_length; cbn [length]; subst ne; lia.
  - (* no white space: no attributes *)
    assert (wa ++ sp = []) as EW.
    { destruct (wa ++ sp) as [|d' w] eqn:EW; [reflexivity|]. cbn [app] in ET. injection ET as -> _.
      exfalso. destruct AT as [|sp1 ? ? ? ? ? ? ? ? H1 N1'].
      - cbn [app] in EW. subst sp. inversion SP as [|? ? H]; subst. unfold space in H. lia.
      - destruct H1 as [|y sp1 Y H1]; [congruence|]. cbn [app] in EW. injection EW as -> _. unfold space in Y. lia. }
    assert (a = []) as EA.
    { destruct AT as [|sp1 ? ? ? ? ? ? ? ? H1 N1']; [reflexivity|]. destruct sp1; [congruence|discriminate]. }
    rewrite EW in PE. cbn [length] in PE.
    assert (p = (s + length nm)%nat) as PS by (subst ne; lia).
    assert (ne = p) as PN by lia. clearbody p ne. subst ne.
    exists b1, []. split.
    + assert (push_node s st = open_frame s [] :: st) as -> by reflexivity.
      destruct C as [-> | ->]; [reflexivity|].
      change (47 =? 62) with false. change (is_type ct_space 47) with false. change (47 =? 47) with true. cbn iota.
      reflexivity.
    + split; [exact O1|]. split; [eapply chg_weaken; [exact C1| |]; lia|].
      intros b'' K. split; [|now rewrite EA].
      eapply at_keeps; [exact AN|exact K|]. rewrite app_length. cbn [length]. lia.
Qed.

Lemma match_name_at b : forall nm n s np c,
  at_ b s (nm ++ [c]) -> at_ b np nm -> Forall (fun c => is_type ct_symbol c = true) nm ->
  is_type ct_symbol c = false -> (length nm < n)%nat ->
  match_name n b s np = Val (Some (s + length nm, np + length nm)%nat).
Proof.
  induction nm as [|d nm IH]; intros n s np c A AN T TC F; (destruct n as [|n]; [lia|]); cbn [match_name];
    cbn [app length] in *; apply at_cons in A; destruct A as [E A]; rewrite (rd_ok _ _ _ E); cbn [bind].
  - rewrite TC. repeat f_equal; lia.
  - inversion T as [|? ? T1 T2]; subst. rewrite T1.
    apply at_cons in AN. destruct AN as [EN AN]. rewrite (rd_ok _ _ _ EN). cbn [bind]. rewrite N.eqb_refl.
    rewrite (IH n (S s) (S np) c A AN T2 TC) by lia. do 3 f_equal; lia.
Qed.

Lemma end_at L endch nm sp b s np pl kids f r p' :
  is_name nm -> spaces sp -> okb L b -> at_ b s (nm ++ sp) ->
  at_ b np (nm ++ [0]) -> gt endch b (s + length (nm ++ sp)) p' ->
  end_tag endch b s ({| f_name := Some np; f_attrs := pl; f_kids := kids |} :: f :: r) =
    Val (b, p', add_kid (Elem np pl kids) (f :: r)).
Proof.
  intros NM SP O A AN G. pose proof G as (x & EX & WX & EP). unfold end_tag.
  cbn [f_name]. assert (length b = L) as LB by apply O.
  assert (is_type ct_space x = false /\ is_type ct_symbol x = false) as [T1 T2].
  { unfold endswith in WX. destruct (N.eqb_spec x 62) as [->|N]; [split; reflexivity|].
    assert (x = 0) as -> by lia. split; reflexivity. }
  assert (at_ b s ((nm ++ sp) ++ [x])) as A1.
  { apply at_app. split; [exact A|]. apply at_cons. split; [exact EX|apply at_nil]. }
  assert (exists d, at_ b s (nm ++ [d]) /\ is_type ct_symbol d = false) as (d & AD & TD).
  { rewrite <- app_assoc in A1. destruct SP as [|y sp Y SP].
    - exists x. auto.
    - exists y. cbn [app] in A1. apply at_snoc in A1. split; [exact A1|now apply not_symbol_space, space_type]. }
  rewrite (match_name_at b nm (fuel b) s np d AD (at_app1 _ _ _ _ AN) (is_name_types nm NM) TD).
  2: { apply at_bound in AD; [|destruct nm; discriminate]. rewrite app_length in AD. cbn [length] in AD. unfold fuel. lia. }
  cbn [bind]. apply at_app2 in AN. apply at_cons in AN. destruct AN as [EN _].
  rewrite (rd_ok _ _ _ EN). cbn [bind]. change (0 =? 0) with true. cbn [negb].
  cbn [pop_node f_name f_attrs f_kids bind].
  rewrite <- app_assoc in A1. apply at_app2 in A1.
  rewrite (skip_at b sp _ x A1 SP T1). cbn [bind].
  rewrite app_length in EX, EP. rewrite Nat.add_assoc in EX, EP.
  rewrite (rd_ok _ _ _ EX). cbn [bind].
  unfold endswith in WX. destruct (N.eqb_spec x 62) as [->|N].
  - change (62 =? 0) with false. change (negb (62 =? 62)) with false. cbn iota.
    change (62 =? 62) with true in EP. cbn iota in EP.
    replace p' with (S (s + length nm + length sp)) by lia. reflexivity.
  - assert (x = 0) as -> by lia. change (0 =? 0) with true. cbn iota.
    change (0 =? 62) with false in EP. cbn iota in EP.
    replace (negb (endch =? 62)) with false by lia.
    replace p' with (s + length nm + length sp)%nat by lia. reflexivity.
Qed.
