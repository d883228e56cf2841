(** The parser of Xml.v on well-formed files: contents of elements, whole
    files. *)
From Coq Require Import NArith ZArith List Bool Arith Lia ZifyBool ZifyNat ZifyN.
From Verif Require Import Xml XmlSpec XmlProofs XmlRound XmlRound2.
Import ListNotations.
Open Scope N_scope.

Definition add_kids (l : list node) (st : list frame) : list frame :=
  match st with
  | f :: r => {| f_name := f_name f; f_attrs := f_attrs f; f_kids := f_kids f ++ l |} :: r
  | [] => []
  end.

Lemma add_kids_nil st : add_kids [] st = st.
Proof. destruct st as [|[nm a k] r]; [reflexivity|]. cbn. now rewrite app_nil_r. Qed.

Lemma add_kids_cons x l st : add_kids l (add_kid x st) = add_kids (x :: l) st.
Proof. destruct st as [|f r]; [reflexivity|]. cbn. now rewrite <- app_assoc. Qed.

Lemma nested_add_kid x st : nested st = true -> nested (add_kid x st) = true.
Proof. destruct st as [|f [|g r]]; cbn; auto. Qed.

(** the nodes show as [k], as long as nothing below [P] changes *)
Definition shows (P : nat) (k : list xml) (l : list node) (b : bytes) : Prop :=
  forall b', keeps P b b' -> map (shown b') l = k.

(** from a place to the '<' of an end tag, in the two ways of entering the loop *)
Definition ends (L : nat) (endch : N) (k : list xml) (n : nat) (b : bytes) (s e : nat) (st : list frame) (m : bool) : Prop :=
  exists n' b' l,
    tree n endch b s st m = tree n' endch b' e (add_kids l st) true /\
    (L - e <= n')%nat /\ okb L b' /\ chg s e b b' /\ shows e k l b'.

Definition reads_content (k : list xml) (wk : bytes) : Prop :=
  forall L endch,
  (forall n b s st, okb L b -> nested st = true -> at_ b s (wk ++ [60; 47]) -> (L - s <= n)%nat ->
     ends L endch k n b s (S (s + length wk)) st false) /\
  (markup wk -> forall n b s st t, okb L b -> nested st = true -> wk ++ [60; 47] = 60 :: t ->
     at_ b (S s) t -> (L - S s <= n)%nat -> ends L endch k n b (S s) (S (s + length wk)) st true).

Definition reads_element (x : xml) (we : bytes) : Prop :=
  exists body, we = [60] ++ body ++ [62] /\ (0 < length body)%nat /\
  forall L endch n b s st p', okb L b -> st <> [] -> at_ b s body -> gt endch b (s + length body) p' ->
  (L - s <= n)%nat ->
  exists n' b' y,
    tree n endch b s st true = tree n' endch b' p' (add_kid y st) false /\
    (L - p' <= n')%nat /\ okb L b' /\ chg s p' b b' /\ shows p' [x] [y] b'.

Lemma tree_tag n endch b s st r :
  tag endch b s st = Val r -> tree (S n) endch b s st true = (let '(b, s, st) := r in tree n endch b s st false).
Proof. intros H. cbn [tree]. rewrite H. reflexivity. Qed.

Lemma tree_open n endch b s st :
  nth_error b s = Some 60 -> tree (S n) endch b s st false = tree n endch b (S s) st true.
Proof. intros H. cbn [tree]. rewrite (rd_ok _ _ _ H). reflexivity. Qed.

(** *** An empty element *)
Lemma reads_empty nm a wa sp : is_name nm -> attrs a wa -> spaces sp ->
  reads_element (El nm a []) ([60] ++ nm ++ wa ++ sp ++ [47; 62]).
Proof.
  intros NM AT SP. exists (nm ++ wa ++ sp ++ [47]).
  split; [rewrite <- !app_assoc; reflexivity|]. split; [rewrite !app_length; cbn; lia|].
  intros L endch n b s st p' O NE A G F.
  assert (length b = L) as LB by apply O.
  assert (s < L)%nat as SL.
  { apply at_bound in A; [|destruct nm; [|discriminate]; destruct wa; [|discriminate]; destruct sp; discriminate].
    rewrite !app_length in A. cbn [length] in A. lia. }
  destruct n as [|n]; [lia|].
  destruct (start_at L endch nm a wa sp 47 b s st NM AT SP (or_intror eq_refl) O A) as (b' & pl & E & O' & C' & K).
  rewrite !app_length in G. cbn [length] in G.
  set (p := Nat.add s (length (nm ++ wa ++ sp))) in *.
  assert (p = s + (length nm + (length wa + length sp)))%nat as PE by (subst p; rewrite !app_length; lia).
  replace (s + (length nm + (length wa + (length sp + 1))))%nat with (S p) in G by lia.
  assert (gt endch b' (S p) p') as (x & EX & WX & EP) by (eapply gt_chg; [exact G|exact C'|lia]).
  change (47 =? 62) with false in E. cbn iota in E. rewrite (rd_ok _ _ _ EX) in E. cbn [bind] in E.
  rewrite WX in E. cbn [negb] in E. destruct st as [|f r]; [congruence|].
  cbn [pop_node f_name f_attrs f_kids open_frame bind] in E.
  exists n, b', (Elem s pl []). pose proof (gt_le _ _ _ _ G).
  rewrite (tree_tag n _ _ _ _ _ E). rewrite <- EP. split; [reflexivity|]. split; [lia|]. split; [exact O'|].
  split; [eapply chg_weaken; [exact C'| |]; lia|].
  intros b'' KK. cbn [map shown].
  destruct (K b'') as [K1 K2]; [eapply keeps_less; [exact KK|lia]|].
  rewrite (cstr_at _ _ _ K1 (name_nz nm NM)). unfold strings in K2. now rewrite K2.
Qed.

(** *** An element with content *)
Lemma reads_full nm a wa sp k wk sp' :
  is_name nm -> attrs a wa -> spaces sp -> reads_content k wk -> spaces sp' ->
  reads_element (El nm a k) ([60] ++ nm ++ wa ++ sp ++ [62] ++ wk ++ [60; 47] ++ nm ++ sp' ++ [62]).
Proof.
  intros NM AT SP RC SP'. exists (nm ++ wa ++ sp ++ [62] ++ wk ++ [60; 47] ++ nm ++ sp').
  split; [repeat (rewrite <- app_assoc; cbn [app]); reflexivity|].
  split; [rewrite !app_length; cbn; lia|].
  intros L endch n b s st p' O NE A G F.
  assert (length b = L) as LB by apply O.
  assert (s < L)%nat as SL.
  { apply at_bound in A; [|destruct NM as (c & r & -> & _); discriminate].
    rewrite !app_length in A. cbn [length] in A. lia. }
  destruct n as [|n]; [lia|].
  assert (at_ b s (nm ++ wa ++ sp ++ [62])) as A1.
  { replace (nm ++ wa ++ sp ++ [62] ++ wk ++ [60; 47] ++ nm ++ sp')
      with ((nm ++ wa ++ sp ++ [62]) ++ (wk ++ [60; 47] ++ nm ++ sp')) in A by now rewrite <- !app_assoc.
    now apply at_app1 in A. }
  destruct (start_at L endch nm a wa sp 62 b s st NM AT SP (or_introl eq_refl) O A1) as (b1 & pl & E & O1 & C1 & K1).
  rewrite !app_length in G. cbn [length] in G.
  set (p := Nat.add s (length (nm ++ wa ++ sp))) in *.
  assert (p = s + (length nm + (length wa + length sp)))%nat as PE by (subst p; rewrite !app_length; lia).
  change (62 =? 62) with true in E. cbn iota in E.
  assert (at_ b1 (S p) ((wk ++ [60; 47]) ++ nm ++ sp')) as A2.
  { eapply at_chg; [|exact C1|lia].
    replace (nm ++ wa ++ sp ++ [62] ++ wk ++ [60; 47] ++ nm ++ sp')
      with ((nm ++ wa ++ sp ++ [62]) ++ ((wk ++ [60; 47]) ++ nm ++ sp')) in A by now rewrite <- !app_assoc.
    apply at_app2 in A. rewrite !app_length in A. cbn [length] in A.
    now replace (s + (length nm + (length wa + (length sp + 1))))%nat with (S p) in A by lia. }
  destruct st as [|f r]; [congruence|].
  destruct (proj1 (RC L endch) n b1 (S p) (open_frame s pl :: f :: r) O1 eq_refl (at_app1 _ _ _ _ A2))
    as (n2 & b2 & l & E2 & F2 & O2 & C2 & K2); [lia|].
  set (q := S (S p + length wk)) in *.
  assert (q = S (S p + length wk))%nat as QE by reflexivity. clearbody q.
  assert (at_ b2 q (47 :: nm ++ sp')) as A3.
  { eapply at_chg; [|exact C2|lia]. rewrite <- app_assoc in A2. apply at_app2 in A2. cbn [app] in A2.
    apply at_cons in A2. replace q with (S (S p + length wk)) by lia. apply A2. }
  apply at_cons in A3. destruct A3 as [E47 A3].
  assert (gt endch b2 (S q + length (nm ++ sp')) p') as G2.
  { rewrite app_length.
    replace (s + (length nm + (length wa + (length sp + (1 + (length wk + (2 + (length nm + length sp'))))))))%nat
      with (S q + (length nm + length sp'))%nat in G by lia.
    eapply gt_chg; [eapply gt_chg; [exact G|exact C1|lia]|exact C2|lia]. }
  assert (q < L)%nat as QL.
  { pose proof (okb_next L b2 q _ O2 E47 ltac:(lia)). lia. }
  destruct n2 as [|n2]; [lia|].
  assert (at_ b2 s (nm ++ [0])) as AN.
  { apply (K1 b2). eapply keeps_chg; [exact C2|lia]. }
  assert (tag endch b2 q (add_kids l (open_frame s pl :: f :: r)) = Val (b2, p', add_kid (Elem s pl l) (f :: r))) as ET.
  { unfold tag. rewrite (rd_ok _ _ _ E47). cbn [bind]. change (is_type ct_start_symbol 47) with false. cbn iota.
    change (47 =? 47) with true. cbn iota. cbn [add_kids open_frame f_name f_attrs f_kids app].
    apply (end_at L endch nm sp' b2 (S q) s pl l f r p' NM SP' O2 A3 AN G2). }
  exists n2, b2, (Elem s pl l). pose proof (gt_le _ _ _ _ G2) as GL. rewrite app_length in GL.
  rewrite (tree_tag n _ _ _ _ _ E). rewrite E2. rewrite (tree_tag n2 _ _ _ _ _ ET).
  split; [reflexivity|]. split; [lia|]. split; [exact O2|].
  split; [eapply chg_trans; eapply chg_weaken; [exact C1| | |exact C2| |]; lia|].
  intros b'' KK. cbn [map shown].
  destruct (K1 b'') as [K3 K4].
  { eapply keeps_trans; [eapply keeps_chg; [exact C2|lia]|eapply keeps_less; [exact KK|lia]]. }
  rewrite (cstr_at _ _ _ K3 (name_nz nm NM)). unfold strings in K4. rewrite K4.
  rewrite (K2 b''); [reflexivity|]. eapply keeps_less; [exact KK|lia].
Qed.

(** *** Contents *)

Lemma first_way L endch k wk n b s st :
  (forall n b s st t, okb L b -> nested st = true -> wk ++ [60; 47] = 60 :: t ->
     at_ b (S s) t -> (L - S s <= n)%nat -> ends L endch k n b (S s) (S (s + length wk)) st true) ->
  markup wk -> okb L b -> nested st = true -> at_ b s (wk ++ [60; 47]) -> (L - s <= n)%nat ->
  ends L endch k n b s (S (s + length wk)) st false.
Proof.
  intros H M O N A F.
  assert (exists t, wk ++ [60; 47] = 60 :: t) as (t & ET) by (destruct M as [-> |[r ->]]; cbn [app]; eauto).
  pose proof A as A0. rewrite ET in A0. apply at_cons in A0. destruct A0 as [E A0].
  pose proof (okb_next L b s _ O E ltac:(lia)) as SL. destruct n as [|n]; [lia|].
  destruct (H n b s st t O N ET A0 ltac:(lia)) as (n' & b' & l & E1 & F1 & O1 & C1 & K1).
  exists n', b', l. rewrite (tree_open n endch b s st E). split; [exact E1|]. split; [exact F1|]. split; [exact O1|].
  split; [|exact K1]. eapply chg_weaken; [exact C1| |]; lia.
Qed.

Lemma content_nil : reads_content [] [].
Proof.
  intros L endch.
  assert (forall n b s st t, okb L b -> nested st = true -> [] ++ [60; 47] = 60 :: t ->
     at_ b (S s) t -> (L - S s <= n)%nat -> ends L endch [] n b (S s) (S (s + length (@nil N))) st true) as H2.
  { intros n b s st t O N ET A F. cbn [length]. rewrite Nat.add_0_r. exists n, b, []. rewrite add_kids_nil.
    split; [reflexivity|]. split; [lia|]. split; [exact O|]. split; [apply chg_refl|]. intros b' _. reflexivity. }
  split; [|intros _; exact H2]. intros n b s st O N A F. apply (first_way L endch [] []); auto. now left.
Qed.

Lemma spaces_not_markup sp w : spaces sp -> sp <> [] -> ~ markup (sp ++ w).
Proof.
  intros S N [E|[r E]]; destruct S as [|c sp C S]; try congruence; cbn [app] in E; [discriminate|].
  injection E as -> _. unfold space in C. lia.
Qed.

Lemma content_spaces sp k w : spaces sp -> sp <> [] -> markup w -> reads_content k w -> reads_content k (sp ++ w).
Proof.
  intros S NS M RC L endch. split; [|intros X; exfalso; now apply (spaces_not_markup sp w S NS)].
  intros n b s st O N A F. rewrite <- app_assoc in A.
  assert (length b = L) as LB by apply O.
  destruct S as [|c sp C S]; [congruence|].
  assert (nth_error b s = Some c) as E by (cbn [app] in A; apply at_cons in A; apply A).
  pose proof (okb_next L b s c O E ltac:(unfold space in C; lia)) as SL. destruct n as [|n]; [lia|].
  assert (exists t, w ++ [60; 47] = 60 :: t) as (t & ET) by (destruct M as [-> |[r ->]]; cbn [app]; eauto).
  pose proof A as A0. rewrite ET in A0.
  pose proof (at_app2 _ _ _ _ A0) as A1. apply at_cons in A1. destruct A1 as [E1 _].
  unfold ends. cbn [tree]. rewrite (rd_ok _ _ _ E). cbn [bind].
  assert (c =? 0 = false) as -> by (unfold space in C; lia).
  assert (c =? 60 = false) as -> by (unfold space in C; lia).
  rewrite (skip_at b (c :: sp) s 60 (at_snoc _ _ _ _ _ A0)) by (try reflexivity; now constructor). cbn [bind].
  rewrite (rd_ok _ _ _ E1). cbn [bind]. change ((60 =? 60) || (60 =? 0)) with true. cbn iota.
  destruct (proj1 (RC L endch) n b (s + length (c :: sp))%nat st O N (at_app2 _ _ _ _ A)) as (n' & b' & l & E2 & F2 & O2 & C2 & K2).
  { cbn [length]. lia. }
  rewrite app_length. replace (s + (length (c :: sp) + length w))%nat with (s + length (c :: sp) + length w)%nat by lia.
  exists n', b', l. split; [exact E2|]. split; [exact F2|]. split; [exact O2|]. split; [|exact K2].
  eapply chg_weaken; [exact C2| |]; lia.
Qed.

Lemma char_text_first t w : char_text t w -> ~ spaces w ->
  exists sp c r, w = sp ++ c :: r /\ spaces sp /\ is_type ct_space c = false /\ c <> 60 /\ c <> 0.
Proof.
  assert (forall c, c <> 0 -> c <> 60 ->
            (space c \/ is_type ct_space c = false /\ c <> 60 /\ c <> 0)) as DEC.
  { intros c C0 C1. destruct (is_type ct_space c) eqn:E; [left|right; auto].
    rewrite type_space in E. unfold spaceb in E. unfold space. lia. }
  induction 1 as [|c v w N0 NA NL NR T IH|v w T IH|v w NL T IH|t r v w R T IH]; intros NS.
  - exfalso. apply NS. constructor.
  - destruct (DEC c N0 NL) as [C|C].
    + destruct IH as (sp & d & r & -> & S & D); [intros X; apply NS; now constructor|].
      exists (c :: sp), d, r. split; [reflexivity|]. split; [now constructor|exact D].
    + exists [], c, w. split; [reflexivity|]. split; [constructor|exact C].
  - destruct IH as (sp & d & r & -> & S & D).
    { intros X. apply NS. constructor; [unfold space; lia|]. constructor; [unfold space; lia|exact X]. }
    exists (13 :: 10 :: sp), d, r. split; [reflexivity|]. split; [|exact D].
    constructor; [unfold space; lia|]. constructor; [unfold space; lia|exact S].
  - destruct IH as (sp & d & r & -> & S & D).
    { intros X. apply NS. constructor; [unfold space; lia|exact X]. }
    exists (13 :: sp), d, r. split; [reflexivity|]. split; [|exact D]. constructor; [unfold space; lia|exact S].
  - destruct (reference_amp t r R) as (r' & ->). exists [], 38, (r' ++ w). split; [reflexivity|].
    split; [constructor|]. split; [reflexivity|]. lia.
Qed.

Lemma name_first0 nm : is_name nm -> exists c r, nm = c :: r /\ c <> 0.
Proof. intros H. pose proof (name_nz nm H) as Z. destruct H as (c & r & -> & _). inversion Z. eauto. Qed.

Lemma aside_second wa : aside wa -> exists c r, wa = 60 :: c :: r /\ c <> 0.
Proof. intros [w _|nm w _ _ _]; cbn [app]; eexists; eexists; (split; [reflexivity|lia]). Qed.

Lemma element_second x we : element x we -> exists c r, we = 60 :: c :: r /\ c <> 0.
Proof.
  intros [nm a wa sp NM _ _|nm a wa sp k wk sp' NM _ _ _ _]; destruct (name_first0 nm NM) as (c & r & -> & Z);
    cbn [app]; eauto.
Qed.

Lemma content_second k w x : content k w -> markup w -> w ++ [60; 47] = 60 :: x -> exists c r, x = c :: r /\ c <> 0.
Proof.
  intros C M E. destruct C as [|sp k w S NS _ _|t wt k w T NS _ _|t wt k w _ _ _|wa k w A _|e we k w EL _].
  - cbn [app] in E. injection E as <-. eexists; eexists; split; [reflexivity|lia].
  - exfalso. now apply (spaces_not_markup sp w S NS).
  - exfalso. destruct (char_text_first t wt T NS) as (sp & c & r & -> & S & _ & C60 & _).
    destruct S as [|y sp Y S]; cbn [app] in E; injection E as E _; [congruence|]. unfold space in Y. lia.
  - cbn [app] in E. injection E as <-. eexists; eexists; split; [reflexivity|lia].
  - destruct (aside_second wa A) as (c & r & -> & Z). cbn [app] in E. injection E as <-. eauto.
  - destruct (element_second e we EL) as (c & r & -> & Z). cbn [app] in E. injection E as <-. eauto.
Qed.

Lemma content_chars t wt k w : char_text t wt -> ~ spaces wt -> markup w -> content k w -> reads_content k w ->
  reads_content (Tx t :: k) (wt ++ w).
Proof.
  intros T NS M CW RC L endch.
  destruct (char_text_first t wt T NS) as (sp & c & r & EW & SP & TC & C60 & C0).
  assert (exists c0 w0, wt = c0 :: w0 /\ c0 <> 60 /\ c0 <> 0) as (c0 & w0 & EC & CC & CZ).
  { destruct SP as [|x sp X SP]; cbn [app] in EW; [eauto|]. exists x, (sp ++ c :: r).
    split; [exact EW|]. unfold space in X. lia. }
  split.
  2: { intros [X|[r' X]]; rewrite EC in X; cbn [app] in X; [discriminate|]. injection X as X _. congruence. }
  intros n b s st O N A F. rewrite <- app_assoc in A.
  assert (length b = L) as LB by apply O.
  assert (nth_error b s = Some c0) as E by (rewrite EC in A; cbn [app] in A; apply at_cons in A; apply A).
  pose proof (okb_next L b s c0 O E CZ) as SL. destruct n as [|n]; [lia|].
  assert (exists x, w ++ [60; 47] = 60 :: x) as (x & ET) by (destruct M as [-> |[y ->]]; cbn [app]; eauto).
  unfold ends. cbn [tree]. rewrite (rd_ok _ _ _ E). cbn [bind].
  replace (c0 =? 0) with false by lia. replace (c0 =? 60) with false by lia.
  assert (at_ b s (sp ++ [c])) as AS.
  { rewrite EW in A. rewrite <- app_assoc in A. cbn [app] in A. now apply at_snoc in A. }
  rewrite (skip_at b sp s c AS SP TC). cbn [bind].
  pose proof (at_app2 _ _ _ _ AS) as A1. apply at_cons in A1. destruct A1 as [E1 _].
  rewrite (rd_ok _ _ _ E1). cbn [bind]. replace ((c =? 60) || (c =? 0)) with false by lia. rewrite N.
  assert (at_ b s (wt ++ [60])) as A2 by (rewrite ET in A; now apply at_snoc in A).
  destruct (pcdata_conv_at L s t wt T (fuel b) b no_gap s O (gapok_none _) A2) as (b1 & -> & O1 & C1 & A3).
  { unfold fuel. lia. }
  rewrite decoded_none in A3. cbn [app] in A3. cbn [bind].
  assert (at_ b1 (S (s + length wt)) x) as A4.
  { eapply at_chg; [|exact C1|lia]. apply at_app2 in A. rewrite ET in A. apply at_cons in A. apply A. }
  assert (exists x0 y, x = x0 :: y /\ x0 <> 0 /\ nth_error b1 (S (s + length wt)) = Some x0) as (x0 & y & EX & NX & E2).
  { destruct (content_second k w x CW M ET) as (x0 & y & -> & NX). apply at_cons in A4. destruct A4 as [A4 _]. eauto. }
  rewrite (rd_ok _ _ _ E2). cbn [bind]. replace (x0 =? 0) with false by lia.
  destruct (proj2 (RC L endch) M n b1 (s + length wt)%nat (add_kid (Text s) st) x O1) as (n' & b' & l & E3 & F3 & O3 & C3 & K3); auto.
  { now apply nested_add_kid. }
  { rewrite EC. cbn [length]. lia. }
  rewrite app_length. replace (s + (length wt + length w))%nat with (s + length wt + length w)%nat by lia.
  exists n', b', (Text s :: l). rewrite E3, add_kids_cons. split; [reflexivity|]. split; [exact F3|]. split; [exact O3|]. split.
  - eapply chg_trans; eapply chg_weaken; [exact C1| | |exact C3| |]; lia.
  - intros b'' KK. cbn [map shown]. f_equal; [|now apply K3]. f_equal. apply cstr_at; [|eapply char_text_nz; exact T].
    pose proof (char_text_length t wt T).
    eapply at_keeps; [eapply at_chg_before; [exact A3|exact C3|]|exact KK|]; rewrite app_length; cbn [length]; lia.
Qed.

(** a piece "<...>" in a content *)
Lemma content_piece body k0 w k :
  (0 < length body)%nat ->
  (forall L endch n b s st p', okb L b -> nested st = true -> at_ b s body -> nth_error b (s + length body) = Some 62 ->
     p' = S (s + length body) -> (L - s <= n)%nat ->
     exists n' b' l, tree n endch b s st true = tree n' endch b' p' (add_kids l st) false /\
       (L - p' <= n')%nat /\ okb L b' /\ chg s p' b b' /\ shows p' k0 l b') ->
  reads_content k w -> reads_content (k0 ++ k) (([60] ++ body ++ [62]) ++ w).
Proof.
  intros LB0 RP RC L endch.
  assert (forall n b s st t, okb L b -> nested st = true -> (([60] ++ body ++ [62]) ++ w) ++ [60; 47] = 60 :: t ->
     at_ b (S s) t -> (L - S s <= n)%nat ->
     ends L endch (k0 ++ k) n b (S s) (S (s + length (([60] ++ body ++ [62]) ++ w))) st true) as H2.
  { intros n b s st t O N ET A F. rewrite <- !app_assoc in ET. cbn [app] in ET. injection ET as <-.
    pose proof (at_app2 _ _ _ _ A) as A2. apply at_cons in A2. destruct A2 as [E62 A2].
    destruct (RP L endch n b (S s) st _ O N (at_app1 _ _ _ _ A) E62 eq_refl F) as (n1 & b1 & l1 & E1 & F1 & O1 & C1 & K1).
    destruct (proj1 (RC L endch) n1 b1 (S (S s + length body)) (add_kids l1 st) O1) as (n2 & b2 & l2 & E2 & F2 & O2 & C2 & K2); auto.
    { destruct st as [|f [|g r]]; auto. }
    { eapply at_chg; [exact A2|exact C1|lia]. }
    rewrite !app_length. cbn [length].
    replace (S (s + (1 + (length body + 1) + length w)))%nat with (S (S (S s + length body) + length w)) by lia.
    exists n2, b2, (l1 ++ l2). rewrite E1, E2.
    split; [f_equal; destruct st as [|f r]; [reflexivity|]; cbn; now rewrite <- app_assoc|].
    split; [exact F2|]. split; [exact O2|].
    split; [eapply chg_trans; eapply chg_weaken; [exact C1| | |exact C2| |]; lia|].
    intros b'' KK. rewrite map_app. rewrite (K2 b'' KK). f_equal. apply K1.
    eapply keeps_trans; [eapply keeps_chg; [exact C2|lia]|]. eapply keeps_less; [exact KK|lia]. }
  split; [|intros _; exact H2]. intros n b s st O N A F.
  apply first_way; auto. right. cbn [app]. eauto.
Qed.

Lemma content_asides wa k w : aside wa -> reads_content k w -> reads_content k (wa ++ w).
Proof.
  intros AS RC. destruct (aside_at wa AS) as (body & -> & LB & H).
  apply (content_piece body [] w k LB); [|exact RC].
  intros L endch n b s st p' O N A E -> F. assert (s < L)%nat as SL.
  { pose proof (okb_next L b _ _ O E ltac:(lia)). lia. }
  destruct n as [|n]; [lia|].
  exists n, b, []. rewrite add_kids_nil. rewrite (tree_tag n _ _ _ _ _ (H endch b s st _ A (gt_here endch b _ E))).
  split; [reflexivity|]. split; [lia|]. split; [exact O|]. split; [apply chg_refl|]. intros b' _. reflexivity.
Qed.

Lemma content_elements e we k w : reads_element e we -> reads_content k w -> reads_content (e :: k) (we ++ w).
Proof.
  intros (body & -> & LB & H) RC. apply (content_piece body [e] w k LB); [|exact RC].
  intros L endch n b s st p' O N A E -> F.
  destruct (H L endch n b s st _ O ltac:(destruct st; discriminate) A (gt_here endch b _ E) F) as (n' & b' & y & R).
  exists n', b', [y]. replace (add_kids [y] st) with (add_kid y st) by (destruct st; reflexivity). exact R.
Qed.

Lemma content_cdatas t wt k w : raw_text t wt -> without [93; 93; 62] wt -> reads_content k w ->
  reads_content (Cd t :: k) ([60; 33; 91; 67; 68; 65; 84; 65; 91] ++ wt ++ [93; 93; 62] ++ w).
Proof.
  intros T WO RC.
  replace ([60; 33; 91; 67; 68; 65; 84; 65; 91] ++ wt ++ [93; 93; 62] ++ w)
    with (([60] ++ ([33; 91; 67; 68; 65; 84; 65; 91] ++ wt ++ [93; 93]) ++ [62]) ++ w)
    by (repeat (rewrite <- app_assoc; cbn [app]); reflexivity).
  apply (content_piece _ [Cd t] w k); [cbn; lia| |exact RC].
  intros L endch n b s st p' O N A E EP F. assert (length b = L) as LB by apply O.
  pose proof (okb_next L b _ _ O E ltac:(lia)) as SL.
  rewrite !app_length in E, EP, SL. cbn [length] in E, EP, SL.
  destruct n as [|n]; [lia|].
  pose proof A as A0. cbn [app] in A0. apply at_cons in A0. destruct A0 as [E0 A0].
  apply at_cons in A0. destruct A0 as [E1 A0].
  change (67 :: 68 :: 65 :: 84 :: 65 :: 91 :: wt ++ [93; 93]) with ([67; 68; 65; 84; 65; 91] ++ wt ++ [93; 93]) in A0.
  pose proof (at_app2 _ _ _ _ A0) as A2. cbn [length] in A2.
  set (v := (S (S s) + 6)%nat) in *.
  assert (at_ b v (wt ++ [93; 93; 62])) as A3.
  { change [93; 93; 62] with ([93; 93] ++ [62]). rewrite app_assoc. apply at_app. split; [exact A2|].
    apply at_cons. split; [|apply at_nil]. rewrite <- E. f_equal. rewrite app_length. cbn [length]. subst v. lia. }
  destruct (cdata_conv_at L endch v t wt T WO (fuel b) b no_gap v O (gapok_none _) A3) as (b1 & EC & O1 & C1 & A4).
  { unfold fuel. lia. }
  rewrite decoded_none in A4. cbn [app] in A4.
  assert (nth_error b1 (S (S (v + length wt))) = Some 62) as E62.
  { destruct C1 as [_ C1]. rewrite C1 by lia. rewrite <- E. f_equal. subst v. lia. }
  assert (tag endch b s st = Val (b1, p', add_kid (Cdata v) st)) as ET.
  { unfold tag. rewrite (rd_ok _ _ _ E0). cbn [bind]. change (is_type ct_start_symbol 33) with false. cbn iota.
    change (33 =? 47) with false. change (33 =? 63) with false. change (33 =? 33) with true. cbn iota.
    unfold exclamation. rewrite (rd_ok _ _ _ E1). cbn [bind]. change (91 =? 45) with false.
    change (91 =? 91) with true. cbn iota.
    rewrite (chain_at b [67; 68; 65; 84; 65; 91] (S s) (at_app1 _ _ _ _ A0)). cbn [bind length].
    replace (S (S s + 6)) with v by (subst v; lia). rewrite EC. cbn [bind].
    rewrite (rd_ok _ _ _ E62). cbn [bind]. change (62 =? 62) with true. cbn iota.
    replace p' with (S (v + length wt) + 2)%nat by (subst p' v; lia). reflexivity. }
  exists n, b1, [Cdata v]. rewrite (tree_tag n _ _ _ _ _ ET).
  split; [destruct st; reflexivity|]. split; [lia|]. split; [exact O1|].
  split; [eapply chg_weaken; [exact C1| |]; subst v; lia|].
  intros b'' KK. cbn [map shown]. do 2 f_equal. apply cstr_at; [|eapply raw_text_nz; exact T].
  pose proof (raw_text_length t wt T).
  eapply at_keeps; [exact A4|exact KK|]. rewrite app_length. cbn [length]. subst v. lia.
Qed.

Lemma all_contents k w : content k w -> reads_content k w.
Proof.
  apply (content_ind2 (fun x we _ => reads_element x we) (fun k w _ => reads_content k w)).
  - intros. now apply reads_empty.
  - intros. now apply reads_full.
  - apply content_nil.
  - intros. now apply content_spaces.
  - intros. now apply content_chars.
  - intros. now apply content_cdatas.
  - intros. now apply content_asides.
  - intros. now apply content_elements.
Qed.

Lemma all_elements x we : element x we -> reads_element x we.
Proof.
  intros [nm a wa sp NM AT SP|nm a wa sp k wk sp' NM AT SP C SP'].
  - now apply reads_empty.
  - apply reads_full; auto. now apply all_contents.
Qed.

(** ** Around the element *)

Lemma piece_at L endch n b s st body p' :
  okb L b -> at_ b s ([60] ++ body) -> (0 < length body)%nat ->
  tag endch b (S s) st = Val (b, p', st) -> (S (s + length body) <= p')%nat -> (L - s <= n)%nat ->
  exists n', tree n endch b s st false = tree n' endch b p' st false /\ (L - p' <= n')%nat.
Proof.
  intros O A B T LE F. cbn [app] in A. apply at_cons in A. destruct A as [E A].
  assert (S (s + length body) <= L)%nat as SL.
  { destruct O as (<- & _). apply at_bound in A; [lia|]. destruct body; [cbn in B; lia|discriminate]. }
  destruct n as [|[|n]]; [lia|lia|]. exists n. rewrite (tree_open _ _ _ _ _ E). rewrite (tree_tag _ _ _ _ _ _ T).
  split; [reflexivity|lia].
Qed.

Lemma misc_at m : misc m -> forall L endch n b s st, okb L b -> at_ b s (m ++ [60]) -> (L - s <= n)%nat ->
  exists n', tree n endch b s st false = tree n' endch b (s + length m)%nat st false /\ (L - (s + length m) <= n')%nat.
Proof.
  induction 1 as [|sp w S NS M H IH|wa w AS H IH]; intros L endch n b s st O A F.
  - exists n. cbn [length]. rewrite Nat.add_0_r. auto.
  - rewrite <- app_assoc in A. destruct S as [|c sp C S]; [congruence|].
    assert (nth_error b s = Some c) as E by (cbn [app] in A; apply at_cons in A; apply A).
    pose proof (okb_next L b s c O E ltac:(unfold space in C; lia)) as SL. destruct n as [|n]; [lia|].
    assert (exists t, w ++ [60] = 60 :: t) as (t & ET) by (destruct M as [-> |[r ->]]; cbn [app]; eauto).
    pose proof A as A0. rewrite ET in A0.
    pose proof (at_app2 _ _ _ _ A0) as A1. apply at_cons in A1. destruct A1 as [E1 _].
    destruct (IH L endch n b (s + length (c :: sp))%nat st O (at_app2 _ _ _ _ A)) as (n' & E2 & F2).
    { cbn [length]. lia. }
    exists n'. rewrite app_length. rewrite Nat.add_assoc. split; [|exact F2]. rewrite <- E2.
    cbn [tree]. rewrite (rd_ok _ _ _ E). cbn [bind].
    assert (c =? 0 = false) as -> by (unfold space in C; lia).
    assert (c =? 60 = false) as -> by (unfold space in C; lia).
    rewrite (skip_at b (c :: sp) s 60 (at_snoc _ _ _ _ _ A0)) by (try reflexivity; now constructor). cbn [bind].
    rewrite (rd_ok _ _ _ E1). cbn [bind]. reflexivity.
  - destruct (aside_at wa AS) as (body & -> & LB & T).
    rewrite <- !app_assoc in A. rewrite app_assoc in A.
    pose proof (at_app2 _ _ _ _ A) as A2. cbn [app length] in A2. apply at_cons in A2. destruct A2 as [E62 A2].
    destruct (piece_at L endch n b s st body (S (S s + length body)) O (at_app1 _ _ _ _ A) LB) as (n1 & E1 & F1); [|lia|exact F|].
    { apply T; [apply at_app1 in A; cbn [app] in A; apply at_cons in A; apply A|]. apply gt_here.
      rewrite <- E62. f_equal. lia. }
    destruct (IH L endch n1 b (S (S s + length body)) st O) as (n' & E2 & F2); auto.
    { now replace (S (S s + length body)) with (S (s + S (length body))) by lia. }
    exists n'. rewrite !app_length. cbn [length].
    replace (s + (1 + (length body + 1) + length w))%nat with (S (S s + length body) + length w)%nat by lia.
    split; [congruence|exact F2].
Qed.

Lemma tree_stop n endch b s st : nth_error b s = Some 0 -> tree (S n) endch b s st false = Val (b, s, st).
Proof. intros E. cbn [tree]. rewrite (rd_ok _ _ _ E). reflexivity. Qed.

Lemma last_case (l : bytes) : l = [] \/ exists l0 x, l = l0 ++ [x].
Proof. destruct l as [|x l] using rev_ind; eauto. Qed.

Lemma misc_last m : misc m -> forall L endch n b s st m0, okb L b -> m = m0 ++ [endch] ->
  at_ b s (m0 ++ [0]) -> S (s + length m0) = L -> (L - s <= n)%nat ->
  exists s', tree n endch b s st false = Val (b, s', st).
Proof.
  induction 1 as [|sp w S NS M H IH|wa w AS H IH]; intros L endch n b s st m0 O EM A EL F.
  - destruct m0; discriminate.
  - destruct n as [|n]; [lia|].
    assert (exists t1 t2 c, m0 ++ [0] = t1 ++ c :: t2 /\ spaces t1 /\ (c = 60 \/ c = 0) /\
              (c = 60 -> t1 = sp /\ exists w0, w = w0 ++ [endch] /\ m0 = sp ++ w0 /\ length t1 = length sp) /\
              (c = 0 -> t2 = [])) as (t1 & t2 & c & ET & ST & CC & C1 & C2).
    { destruct (last_case w) as [-> |(w0 & x & ->)].
      - rewrite app_nil_r in EM. subst sp. exists m0, [], 0. repeat split; auto; try lia.
        apply Forall_app in S. apply S.
      - rewrite app_assoc in EM. apply app_inj_tail in EM. destruct EM as [<- ->].
        destruct w0 as [|y w0].
        + rewrite app_nil_r. exists sp, [], 0. repeat split; auto; lia.
        + destruct M as [M|[r M]]; [discriminate|]. cbn [app] in M. injection M as -> _.
          exists sp, (w0 ++ [0]), 60. rewrite <- app_assoc. cbn [app]. repeat split; auto; try lia.
          exists (60 :: w0). auto. }
    rewrite ET in A.
    destruct ST as [|d t1 D ST].
    + cbn [app] in *. apply at_cons in A. destruct A as [E A].
      destruct CC as [-> | ->].
      * destruct (C1 eq_refl) as [E1 _]. congruence.
      * exists s. now apply tree_stop.
    + pose proof (at_snoc _ _ _ _ _ A) as A1.
      assert (nth_error b s = Some d) as E by (cbn [app] in A; apply at_cons in A; apply A).
      pose proof (at_app2 _ _ _ _ A) as A2. apply at_cons in A2. destruct A2 as [E2 A2].
      assert (tree (Datatypes.S n) endch b s st false = tree n endch b (s + length (d :: t1))%nat st false) as STEP.
      { cbn [tree]. rewrite (rd_ok _ _ _ E). cbn [bind].
        assert (d =? 0 = false) as -> by (unfold space in D; lia).
        assert (d =? 60 = false) as -> by (unfold space in D; lia).
        rewrite (skip_at b (d :: t1) s c A1) by (try (now constructor); destruct CC as [-> | ->]; reflexivity).
        cbn [bind]. rewrite (rd_ok _ _ _ E2). cbn [bind].
        replace ((c =? 60) || (c =? 0)) with true by lia. reflexivity. }
      rewrite STEP. pose proof (okb_next L b s d O E ltac:(unfold space in D; lia)) as SL.
      destruct CC as [-> | ->].
      * destruct (C1 eq_refl) as (E1 & w0 & EW & EM0 & _).
        apply (IH L endch n b (s + length (d :: t1))%nat st w0 O EW).
        -- rewrite EM0, <- E1, <- app_assoc in ET. apply app_inv_head in ET. rewrite ET.
           apply at_cons. auto.
        -- rewrite EM0 in EL. rewrite app_length in EL. rewrite E1. lia.
        -- cbn [length]. lia.
      * rewrite (C2 eq_refl) in ET. apply app_inj_tail in ET. destruct ET as [ET _].
        destruct n as [|n].
        { rewrite ET in EL. cbn [length] in EL. lia. }
        exists (s + length (d :: t1))%nat. now apply tree_stop.
  - destruct (aside_at wa AS) as (body & -> & LB & T).
    destruct (last_case w) as [-> |(w0 & x & ->)].
    + rewrite app_nil_r in EM. cbn [app] in EM.
      change (60 :: body ++ [62]) with ((60 :: body) ++ [62]) in EM.
      apply app_inj_tail in EM. destruct EM as [<- <-].
      pose proof (at_app2 _ _ _ _ A) as A2. apply at_cons in A2. destruct A2 as [E0 _]. cbn [length] in E0, EL.
      destruct (piece_at L 62 n b s st body (S s + length body)%nat O (at_app1 _ _ _ _ A) LB) as (n1 & E1 & F1); [|lia|exact F|].
      { apply T; [apply at_app1 in A; apply at_cons in A; apply A|]. apply gt_last. rewrite <- E0. f_equal. lia. }
      rewrite E1. destruct n1 as [|n1]; [lia|]. exists (S s + length body)%nat. apply tree_stop.
      rewrite <- E0. f_equal. lia.
    + rewrite app_assoc in EM. apply app_inj_tail in EM. destruct EM as [<- <-].
      rewrite <- !app_assoc in A. rewrite app_assoc in A.
      pose proof (at_app2 _ _ _ _ A) as A2. cbn [app length] in A2. apply at_cons in A2. destruct A2 as [E62 A2].
      destruct (piece_at L x n b s st body (S (S s + length body)) O (at_app1 _ _ _ _ A) LB) as (n1 & E1 & F1); [|lia|exact F|].
      { apply T; [apply at_app1 in A; cbn [app] in A; apply at_cons in A; apply A|]. apply gt_here.
        rewrite <- E62. f_equal. lia. }
      rewrite E1. rewrite !app_length in EL. cbn [length] in EL.
      apply (IH L x n1 b (S (S s + length body)) st w0 O eq_refl); [|lia|exact F1].
      now replace (S (S s + length body)) with (S (s + S (length body))) by lia.
Qed.

Lemma starts_at b : forall l s, at_ b s l -> starts l b s = Val true.
Proof.
  induction l as [|c l IH]; intros s A; [reflexivity|]. cbn [starts]. apply at_cons in A. destruct A as [E A].
  rewrite (rd_ok _ _ _ E). cbn [bind]. rewrite N.eqb_refl. now apply IH.
Qed.

Lemma starts_no b : forall l s w, at_ b s w -> (length l <= length w)%nat -> (forall r, w <> l ++ r) -> starts l b s = Val false.
Proof.
  induction l as [|x l IH]; intros s w A LW NE; [exfalso; apply (NE w); reflexivity|].
  destruct w as [|c w]; [cbn in LW; lia|]. apply at_cons in A. destruct A as [E A]. cbn [starts].
  rewrite (rd_ok _ _ _ E). cbn [bind]. destruct (N.eqb_spec c x) as [->|N]; [|reflexivity].
  apply (IH (S s) w A); [cbn in LW; lia|]. intros r ->. apply (NE r). reflexivity.
Qed.

(** the doctype *)
Lemma group_plain endch b n s d c : nth_error b s = Some c -> plain c -> group_loop (S n) endch b s d = group_loop n endch b (S s) d.
Proof.
  intros E (P0 & P1 & P2 & P3 & P4). cbn [group_loop].
  rewrite (rd_ok _ _ _ E). cbn [bind]. replace (c =? 0) with false by lia. cbn [starts].
  rewrite (rd_ok _ _ _ E). cbn [bind]. replace (c =? 60) with false by lia. cbn [bind andb orb].
  replace (c =? 34) with false by lia. replace (c =? 39) with false by lia. cbn [orb].
  replace (c =? 62) with false by lia. reflexivity.
Qed.

Lemma group_close endch b n s d : nth_error b s = Some 62 ->
  group_loop (S n) endch b s d = match d with O => Val s | S d => group_loop n endch b (S s) d end.
Proof.
  intros E. cbn [group_loop]. rewrite (rd_ok _ _ _ E). cbn [bind]. change (62 =? 0) with false. cbn iota. cbn [starts].
  rewrite (rd_ok _ _ _ E). cbn [bind]. change (62 =? 60) with false. cbn iota. cbn [bind andb].
  change ((62 =? 60) || (62 =? 34) || (62 =? 39)) with false. cbn [orb]. change (62 =? 34) with false. change (62 =? 39) with false. cbn [orb].
  change (62 =? 62) with true. reflexivity.
Qed.

Lemma primitive_quoted b s q v : q = 34 \/ q = 39 -> Forall (fun c => c <> 0 /\ c <> q) v -> at_ b s ([q] ++ v ++ [q]) ->
  doctype_primitive b s = Val (S (S (s + length v))).
Proof.
  intros Q F A. cbn [app] in A. pose proof (at_bound _ _ _ A ltac:(discriminate)) as B. cbn [length] in B. rewrite app_length in B. cbn [length] in B.
  apply at_cons in A. destruct A as [E A]. pose proof (at_app2 _ _ _ _ A) as A2. pose proof A2 as A3. apply at_cons in A3. destruct A3 as [E2 _].
  unfold doctype_primitive. rewrite (rd_ok _ _ _ E). cbn [bind]. replace ((q =? 34) || (q =? 39)) with true by lia.
  rewrite (scan_for_at (starts [q]) b v (S s) (fuel b) q A).
  - cbn [bind]. rewrite (rd_ok _ _ _ E2). cbn [bind]. replace (q =? 0) with false by lia. f_equal.
  - eapply Forall_impl; [|exact F]. intros c (H & _). exact H.
  - intros a d w2 ->. rewrite <- app_assoc in A. apply at_app2 in A. cbn [app] in A. apply (starts_no b [q] _ (d :: w2 ++ [q]) A); [cbn; lia|].
    intros r H. cbn [app] in H. injection H as -> _. apply Forall_app in F. destruct F as [_ F]. inversion F. lia.
  - lia.
  - apply starts_at. exact A2.
  - unfold fuel. lia.
Qed.

Lemma primitive_aside b s w : aside w -> at_ b s w -> doctype_primitive b s = Val (s + length w)%nat.
Proof.
  intros AS A. pose proof (at_bound _ _ _ A) as B.
  destruct AS as [w (Z & WO)|nm w NM (Z & WO) NC].
  - specialize (B ltac:(discriminate)). rewrite !app_length in B. cbn [length] in B. rewrite !app_length. cbn [length].
    pose proof (at_app1 _ _ _ _ A) as A1. pose proof (at_app2 _ _ _ _ A) as A2. cbn [length] in A2.
    assert (nth_error b s = Some 60) as E by (apply at_cons in A1; apply A1).
    unfold doctype_primitive. rewrite (rd_ok _ _ _ E). cbn [bind]. change ((60 =? 34) || (60 =? 39)) with false. cbn iota.
    rewrite (starts_no b [60; 63] s [60; 33; 45; 45] A1) by (cbn; lia || discriminate). cbn [bind].
    rewrite (starts_at b [60; 33; 45; 45] s A1). cbn [bind].
    pose proof (at_snoc _ _ _ _ _ A2) as A3. pose proof (at_app2 _ _ _ _ A2) as A4.
    rewrite (scan_for_at (starts [45; 45; 62]) b w (s + 4) (fuel b) 45 A3 Z).
    + cbn [bind]. assert (nth_error b (s + 4 + length w)%nat = Some 45) as E2 by (apply at_cons in A4; apply A4).
      rewrite (rd_ok _ _ _ E2). cbn [bind]. change (45 =? 0) with false. cbn iota. f_equal. lia.
    + intros a d w2 ->. rewrite <- app_assoc in A2. apply at_app2 in A2.
      apply (starts_no b [45; 45; 62] _ _ A2); [cbn [app length]; rewrite app_length; cbn; lia|]. intros r H. cbn [app] in H.
      destruct w2 as [|x w2]; cbn [app] in H; [congruence|]. destruct w2 as [|y w2]; cbn [app] in H; [congruence|].
      injection H as -> -> -> H. apply (WO a w2). reflexivity.
    + lia.
    + apply starts_at. exact A4.
    + unfold fuel. lia.
  - specialize (B ltac:(discriminate)). rewrite !app_length in B. cbn [length] in B. rewrite !app_length. cbn [length].
    pose proof (at_app1 _ _ _ _ A) as A1. pose proof (at_app2 _ _ _ _ A) as A2. cbn [length] in A2.
    assert (nth_error b s = Some 60) as E by (apply at_cons in A1; apply A1).
    unfold doctype_primitive. rewrite (rd_ok _ _ _ E). cbn [bind]. change ((60 =? 34) || (60 =? 39)) with false. cbn iota.
    rewrite (starts_at b [60; 63] s A1). cbn [bind].
    rewrite app_assoc in A2. pose proof (at_snoc _ _ _ _ _ A2) as A3. pose proof (at_app2 _ _ _ _ A2) as A4.
    rewrite (scan_for_at (starts [63; 62]) b (nm ++ w) (s + 2) (fuel b) 63 A3).
    + cbn [bind]. assert (nth_error b (s + 2 + length (nm ++ w))%nat = Some 63) as E2 by (apply at_cons in A4; apply A4).
      rewrite (rd_ok _ _ _ E2). cbn [bind]. change (63 =? 0) with false. cbn iota. f_equal. rewrite app_length. lia.
    + apply Forall_app. split; [now apply name_nz|exact Z].
    + intros a d w2 EQ. rewrite EQ, <- app_assoc in A2. apply at_app2 in A2.
      apply (starts_no b [63; 62] _ _ A2); [cbn [app length]; rewrite app_length; cbn; lia|]. intros r H. cbn [app] in H.
      destruct w2 as [|x w2]; cbn [app] in H; [congruence|]. injection H as -> -> _.
      assert (NQ : ~ In 63 nm).
      { intros I. pose proof (is_name_types nm NM) as T. rewrite Forall_forall in T. specialize (T 63 I). discriminate. }
      apply app_eq_app in EQ. destruct EQ as (l & [(-> & EQ)|(-> & EQ)]).
      * destruct l as [|y l]; [cbn [app] in EQ; subst w; apply (WO [] w2); reflexivity|].
        cbn [app] in EQ. injection EQ as <- _. apply NQ. apply in_app_iff. right. left. reflexivity.
      * apply (WO l w2). exact EQ.
    + lia.
    + apply starts_at. exact A4.
    + unfold fuel. rewrite app_length. lia.
Qed.

Definition over (endch : N) (b w : bytes) : Prop := forall n s d, at_ b s w -> (length b - s <= n)%nat ->
  exists n', group_loop n endch b s d = group_loop n' endch b (s + length w)%nat d /\ (length b - (s + length w) <= n')%nat.

Lemma over_nil endch b : over endch b [].
Proof. intros n s d _ F. exists n. cbn [length]. rewrite Nat.add_0_r. auto. Qed.
Lemma over_app endch b w1 w2 : over endch b w1 -> over endch b w2 -> over endch b (w1 ++ w2).
Proof.
  intros H1 H2 n s d A F. destruct (H1 n s d (at_app1 _ _ _ _ A) F) as (n1 & E1 & F1). destruct (H2 n1 _ d (at_app2 _ _ _ _ A) F1) as (n2 & E2 & F2).
  exists n2. rewrite app_length, Nat.add_assoc. split; [congruence|exact F2].
Qed.
Lemma over_plain endch b c : plain c -> over endch b [c].
Proof.
  intros P n s d A F. pose proof (at_bound _ _ _ A ltac:(discriminate)) as B. cbn [length] in B. apply at_cons in A. destruct A as [E _].
  destruct n as [|n]; [lia|]. exists n. rewrite (group_plain _ _ _ _ _ _ E P). cbn [length]. rewrite Nat.add_1_r. split; [reflexivity|lia].
Qed.
Lemma over_quoted endch b q v : q = 34 \/ q = 39 -> Forall (fun c => c <> 0 /\ c <> q) v -> over endch b ([q] ++ v ++ [q]).
Proof.
  intros Q P n s d A F. pose proof (primitive_quoted b s q v Q P A) as X. pose proof (at_bound _ _ _ A ltac:(discriminate)) as B. rewrite !app_length in *. cbn [length] in *.
  apply at_cons in A. destruct A as [E _].
  destruct n as [|n]; [lia|]. exists n. split; [|lia]. cbn [group_loop]. rewrite (rd_ok _ _ _ E). cbn [bind]. replace (q =? 0) with false by lia. cbn [starts].
  rewrite (rd_ok _ _ _ E). cbn [bind]. replace (q =? 60) with false by lia. cbn [bind andb orb].
  replace ((q =? 34) || (q =? 39)) with true by lia. rewrite X. cbn [bind]. f_equal. lia.
Qed.
Lemma over_aside endch b w : aside w -> over endch b w.
Proof.
  intros AS n s d A F. pose proof (primitive_aside b s w AS A) as X.
  assert (exists x r, w = 60 :: x :: r /\ (x = 63 \/ x = 33 /\ exists r', r = 45 :: r')) as (x & r & -> & XR) by (destruct AS; cbn [app]; eauto 10).
  pose proof (at_bound _ _ _ A ltac:(discriminate)) as B. cbn [length] in *. apply at_cons in A. destruct A as [E A]. apply at_cons in A. destruct A as [E1 A].
  destruct n as [|n]; [lia|]. exists n. split; [|lia]. cbn [group_loop]. rewrite (rd_ok _ _ _ E). cbn [bind]. change (60 =? 0) with false. cbn iota. cbn [starts].
  rewrite (rd_ok _ _ _ E). cbn [bind]. change (60 =? 60) with true. cbn iota. rewrite (rd_ok _ _ _ E1). cbn [bind]. destruct XR as [->|(-> & r' & ->)].
  - change (63 =? 33) with false. cbn [bind andb orb]. rewrite X. cbn [bind]. reflexivity.
  - change (33 =? 33) with true. cbn [bind]. apply at_cons in A. destruct A as [E2 _]. replace (s + 2)%nat with (S (S s)) by lia. rewrite (rd_ok _ _ _ E2). cbn [bind].
    change (45 =? 45) with true. cbn [negb andb orb]. rewrite X. cbn [bind]. reflexivity.
Qed.
Lemma over_decl endch b w : decl_text w -> over endch b w.
Proof.
  induction 1 as [|c w P _ IH|q v w Q P _ IH]; [apply over_nil|apply (over_app _ _ [c]); [now apply over_plain|exact IH]|].
  replace ([q] ++ v ++ [q] ++ w) with (([q] ++ v ++ [q]) ++ w) by (rewrite <- !app_assoc; reflexivity).
  apply over_app; [now apply over_quoted|exact IH].
Qed.
Lemma over_declaration endch b c t : name_start c -> decl_text t -> over endch b ([60; 33; c] ++ t ++ [62]).
Proof.
  intros NS T n s d A F. assert (decl_text (c :: t)) as T' by (apply decl_plain; [unfold name_start in NS; unfold plain; lia|exact T]).
  pose proof (at_bound _ _ _ A ltac:(discriminate)) as B. rewrite !app_length in *. cbn [length] in *.
  change ([60; 33; c] ++ t ++ [62]) with (60 :: 33 :: (c :: t) ++ [62]) in A.
  apply at_cons in A. destruct A as [E A]. apply at_cons in A. destruct A as [E1 A]. pose proof (at_app2 _ _ _ _ A) as A2. apply at_cons in A2. destruct A2 as [E2 _].
  apply at_app1 in A. assert (nth_error b (S (S s)) = Some c) as E3 by (apply at_cons in A; apply A).
  destruct n as [|n]; [lia|]. destruct (over_decl endch b _ T' n (S (S s)) (S d) A ltac:(lia)) as (n1 & X1 & F1).
  cbn [length] in X1, F1, E2. destruct n1 as [|n1]; [lia|]. exists n1. split; [|lia].
  cbn [group_loop]. rewrite (rd_ok _ _ _ E). cbn [bind]. change (60 =? 0) with false. cbn iota. cbn [starts].
  rewrite (rd_ok _ _ _ E). cbn [bind]. change (60 =? 60) with true. cbn iota. rewrite (rd_ok _ _ _ E1). cbn [bind]. change (33 =? 33) with true. cbn [bind].
  replace (s + 2)%nat with (S (S s)) by lia. rewrite (rd_ok _ _ _ E3). cbn [bind]. replace (c =? 45) with false by (unfold name_start in NS; lia).
  replace (c =? 91) with false by (unfold name_start in NS; lia). cbn [negb andb]. rewrite X1, (group_close _ _ _ _ _ E2). f_equal. lia.
Qed.
Lemma over_subset endch b w : subset w -> over endch b w.
Proof.
  induction 1 as [|c w P _ IH|a w AS _ IH|c t w NS T _ IH]; [apply over_nil|apply (over_app _ _ [c]); [now apply over_plain|exact IH]|apply over_app; [now apply over_aside|exact IH]|].
  replace ([60; 33; c] ++ t ++ [62] ++ w) with (([60; 33; c] ++ t ++ [62]) ++ w) by (rewrite <- !app_assoc; reflexivity).
  apply over_app; [now apply over_declaration|exact IH].
Qed.

Lemma plain_space sp : spaces sp -> decl_text sp.
Proof. induction 1 as [|c sp C _ IH]; [constructor|]. apply decl_plain; [unfold space in C; unfold plain; lia|exact IH]. Qed.

Lemma group_at endch b r t i n s : r = t ++ i -> decl_text t -> (i = [] \/ exists u sp, i = [91] ++ u ++ [93] ++ sp /\ subset u /\ spaces sp) ->
  at_ b s (([68; 79; 67; 84; 89; 80; 69] ++ r) ++ [62]) -> (length b - s <= n)%nat ->
  group_loop n endch b s 0 = Val (s + (7 + length r))%nat.
Proof.
  intros -> T I A F.
  assert (over endch b ([68; 79; 67; 84; 89; 80; 69] ++ t ++ i)) as OV.
  { apply over_app; [apply over_decl; repeat (apply decl_plain; [unfold plain; lia|]); constructor|]. apply over_app; [now apply over_decl|].
    destruct I as [->|(u & sp & -> & U & SP)]; [apply over_nil|]. apply over_app; [apply over_plain; unfold plain; lia|]. apply over_app; [now apply over_subset|].
    apply over_app; [apply over_plain; unfold plain; lia|]. now apply over_decl, plain_space. }
  destruct (OV n s 0%nat (at_app1 _ _ _ _ A) F) as (n' & X & F'). rewrite X. pose proof (at_app2 _ _ _ _ A) as A2. apply at_cons in A2. destruct A2 as [E _].
  change (length ([68; 79; 67; 84; 89; 80; 69] ++ t ++ i)) with (7 + length (t ++ i))%nat in *.
  assert (s + (7 + length (t ++ i)) < length b)%nat by (apply nth_error_Some; congruence).
  destruct n' as [|n']; [lia|]. now rewrite (group_close _ _ _ _ _ E).
Qed.

Lemma doctype_at dt : doctype dt -> forall L endch n b s f, okb L b -> at_ b s dt -> (L - s <= n)%nat ->
  exists n' b', tree n endch b s [f] false = tree n' endch b' (s + length dt)%nat [f] false /\
    (L - (s + length dt) <= n')%nat /\ okb L b' /\ chg s (s + length dt) b b'.
Proof.
  intros (r & -> & t & i & ER & DT & IS) L endch n b s f O A F. assert (length b = L) as LB by apply O.
  cbn [app] in A. apply at_cons in A. destruct A as [E A]. pose proof A as A0. apply at_cons in A0. destruct A0 as [E33 A0].
  change (68 :: 79 :: 67 :: 84 :: 89 :: 80 :: 69 :: r ++ [62]) with (([68; 79; 67; 84; 89; 80] ++ [69]) ++ r ++ [62]) in A0.
  pose proof (at_app1 _ _ _ _ A0) as A1. rewrite <- app_assoc in A0.
  assert (nth_error b (S (S s)) = Some 68) as E68 by (apply at_cons in A1; apply A1).
  assert (at_ b (S (S s)) (([68; 79; 67; 84; 89; 80; 69] ++ r) ++ [62])) as A2 by exact A0.
  pose proof (at_app2 _ _ _ _ A2) as A3. apply at_cons in A3. destruct A3 as [E62 _].
  rewrite app_length in E62. cbn [length] in E62.
  pose proof (okb_next L b _ _ O E62 ltac:(lia)) as SL.
  rewrite !app_length. cbn [length].
  destruct n as [|[|n]]; [lia|lia|]. exists n, (upd b (S (S s) + (7 + length r)) 0).
  rewrite (tree_open _ _ _ _ _ E).
  assert (tag endch b (S s) [f] = Val (upd b (S (S s) + (7 + length r)) 0, (s + (9 + (length r + 1)))%nat, [f])) as T.
  { unfold tag. rewrite (rd_ok _ _ _ E33). cbn [bind]. change (is_type ct_start_symbol 33) with false. cbn iota.
    change (33 =? 47) with false. change (33 =? 63) with false. change (33 =? 33) with true. cbn iota.
    unfold exclamation. rewrite (rd_ok _ _ _ E68). cbn [bind]. change (68 =? 45) with false. change (68 =? 91) with false. cbn iota.
    rewrite (starts_end_at endch 69 69 b [68; 79; 67; 84; 89; 80] (S (S s)) A1). cbn [bind].
    change (endswith endch 69 69) with true. cbn iota. cbn [nested].
    unfold doctype_group. replace (S (S s) - 2 + 2)%nat with (S (S s)) by lia.
    rewrite (group_at endch b r t i (fuel b) (S (S s)) ER DT IS A2) by (unfold fuel; lia).
    cbn [bind]. rewrite (rd_ok _ _ _ E62). cbn [bind]. change (62 =? 0) with false. cbn iota.
    rewrite wr_ok by lia. cbn [bind]. do 3 f_equal. lia. }
  rewrite (tree_tag _ _ _ _ _ _ T). split; [reflexivity|]. split; [lia|].
  split; [apply okb_upd; [exact O|lia]|].
  eapply chg_weaken; [apply chg_upd; lia| |]; lia.
Qed.

(** ** Whole files *)

Lemma misc_first m : misc m -> m = [] \/ (exists c r, m = c :: r /\ space c) \/ (exists c r, m = 60 :: c :: r /\ c <> 0).
Proof.
  intros [|sp w S NS _ _|wa w A _]; [left; reflexivity| |].
  - destruct S as [|c sp C S]; [congruence|]. right. left. cbn [app]. eauto.
  - destruct (aside_second wa A) as (c & r & -> & Z). right. right. cbn [app]. eauto.
Qed.

Lemma begins m1 dt m2 e we m3 : misc m1 -> (dt = [] \/ doctype dt) -> misc m2 -> element e we ->
  exists c r, m1 ++ dt ++ m2 ++ we ++ m3 = c :: r /\ (space c \/ c = 60 /\ exists d r', r = d :: r' /\ d <> 0).
Proof.
  intros M1 DT M2 E.
  destruct (misc_first m1 M1) as [-> |[(c & r & -> & C)|(c & r & -> & C)]]; cbn [app];
    [|eexists; eexists; split; [reflexivity|left; exact C]|eexists; eexists; split; [reflexivity|right; eauto]].
  destruct DT as [-> |(r & -> & _)]; cbn [app];
    [|eexists; eexists; split; [reflexivity|right; split; [reflexivity|eexists; eexists; split; [reflexivity|lia]]]].
  destruct (misc_first m2 M2) as [-> |[(c & r & -> & C)|(c & r & -> & C)]]; cbn [app];
    [|eexists; eexists; split; [reflexivity|left; exact C]|eexists; eexists; split; [reflexivity|right; eauto]].
  destruct (element_second e we E) as (c & r & -> & C). cbn [app]. eexists; eexists; split; [reflexivity|right; eauto].
Qed.

Lemma at_whole w r : at_ (w ++ r) 0 w.
Proof. intros i c H. cbn [Nat.add]. rewrite nth_error_app1; [exact H|]. apply nth_error_Some. congruence. Qed.

Lemma upd_last w c d : upd (w ++ [c]) (length w) d = w ++ [d].
Proof.
  apply list_ext. intros i. destruct (Nat.eq_dec i (length w)) as [->|N].
  - rewrite upd_eq by (rewrite app_length; cbn; lia). rewrite nth_error_app2 by lia. now rewrite Nat.sub_diag.
  - rewrite upd_neq by (rewrite ?app_length; cbn; lia). destruct (Nat.lt_ge_cases i (length w)) as [H|H].
    + now rewrite !nth_error_app1 by exact H.
    + rewrite !nth_error_app2 by lia. destruct (i - length w)%nat as [|k] eqn:K; [lia|]. destruct k; reflexivity.
Qed.

Lemma okb_last w : okb (length (w ++ [0])) (w ++ [0]).
Proof.
  rewrite app_length. cbn [length]. split; [rewrite app_length; reflexivity|]. split; [lia|].
  replace (length w + 1 - 1)%nat with (length w) by lia. rewrite nth_error_app2 by lia. now rewrite Nat.sub_diag.
Qed.

Lemma misc_app m1 m2 : misc m1 -> misc m2 -> misc (m1 ++ m2).
Proof.
  intros M1 M2. induction M1 as [|sp w S NS M H IH|wa w A H IH]; [exact M2| |].
  - rewrite <- app_assoc. destruct M as [-> |[r ->]].
    + cbn [app]. destruct M2 as [|sp2 w2 S2 NS2 M2 H2|wa w2 A H2].
      * apply misc_space; [exact S|exact NS|now left|constructor].
      * rewrite app_assoc. apply misc_space; [now apply Forall_app| |exact M2|exact H2].
        intros X. apply app_eq_nil in X. now destruct X.
      * apply misc_space; [exact S|exact NS| |now apply misc_aside].
        destruct (aside_second wa A) as (c & r & -> & _). right. cbn [app]. eauto.
    + apply misc_space; [exact S|exact NS| |exact IH]. right. cbn [app]. eauto.
  - rewrite <- app_assoc. now apply misc_aside.
Qed.

Definition result (y : node) : frame := {| f_name := None; f_attrs := []; f_kids := [y] |}.

(** the element and what is before it *)
Lemma core_at m e body L endch n b s p' :
  misc m -> element e ([60] ++ body ++ [62]) -> okb L b -> at_ b s (m ++ [60] ++ body) ->
  gt endch b (s + length (m ++ [60] ++ body)) p' -> (L - s <= n)%nat ->
  exists n' b' y, tree n endch b s [root] false = tree n' endch b' p' [result y] false /\
    (L - p' <= n')%nat /\ okb L b' /\ shows p' [e] [y] b' /\
    (forall i, (p' <= i)%nat -> nth_error b' i = nth_error b i).
Proof.
  intros M EL O A G F.
  destruct (all_elements e _ EL) as (body' & EB & LB & R). apply body_inv in EB. subst body'.
  cbn [app] in A. destruct (misc_at m M L endch n b s [root] O (at_snoc _ _ _ _ _ A) F) as (n1 & E1 & F1).
  apply at_app2 in A. apply at_cons in A. destruct A as [E60 A].
  pose proof (okb_next L b _ _ O E60 ltac:(lia)) as SL. destruct n1 as [|n1]; [lia|].
  rewrite !app_length in G. cbn [length] in G.
  destruct (R L endch n1 b (S (s + length m)) [root] p' O ltac:(discriminate) A) as (n2 & b2 & y & E2 & F2 & O2 & C2 & K2).
  { now replace (S (s + length m) + length body)%nat with (s + (length m + (1 + length body)))%nat by lia. }
  { lia. }
  exists n2, b2, y. rewrite E1, (tree_open _ _ _ _ _ E60), E2. split; [reflexivity|]. split; [exact F2|].
  split; [exact O2|]. split; [exact K2|]. destruct C2 as [_ C2]. intros i Hi. apply C2. lia.
Qed.

(** everything up to and including the element *)
Lemma body_at m1 dt m2 e body L endch n b s p' :
  misc m1 -> (dt = [] \/ doctype dt) -> misc m2 -> element e ([60] ++ body ++ [62]) ->
  okb L b -> at_ b s (m1 ++ dt ++ m2 ++ [60] ++ body) ->
  gt endch b (s + length (m1 ++ dt ++ m2 ++ [60] ++ body)) p' -> (L - s <= n)%nat ->
  exists n' b' y, tree n endch b s [root] false = tree n' endch b' p' [result y] false /\
    (L - p' <= n')%nat /\ okb L b' /\ shows p' [e] [y] b' /\
    (forall i, (p' <= i)%nat -> nth_error b' i = nth_error b i).
Proof.
  intros M1 [-> |DT] M2 EL O A G F.
  - cbn [app] in A, G. rewrite app_assoc in A, G. apply (core_at (m1 ++ m2) e body); auto. now apply misc_app.
  - pose proof DT as (r & ED & _).
    assert (at_ b s (m1 ++ [60])) as AM by (rewrite ED in A; cbn [app] in A; now apply at_snoc in A).
    destruct (misc_at m1 M1 L endch n b s [root] O AM F) as (n1 & E1 & F1).
    pose proof (at_app2 _ _ _ _ A) as AD.
    destruct (doctype_at dt DT L endch n1 b (s + length m1)%nat root O (at_app1 _ _ _ _ AD) F1) as (n2 & b2 & E2 & F2 & O2 & C2).
    apply at_app2 in AD. rewrite (app_assoc m1 dt), app_length, (app_length m1 dt) in G.
    assert (forall k, s + length m1 + length dt + k = s + (length m1 + length dt + k))%nat as EQ by (intros; lia).
    destruct (core_at m2 e body L endch n2 b2 (s + length m1 + length dt) p') as (n3 & b3 & y & E3 & F3 & O3 & K3 & C3); auto.
    { eapply at_chg; [exact AD|exact C2|lia]. }
    { rewrite EQ. eapply gt_chg; [exact G|exact C2|lia]. }
    exists n3, b3, y. rewrite E1, E2. split; [exact E3|]. split; [exact F3|]. split; [exact O3|]. split; [exact K3|].
    intros i Hi. rewrite C3 by exact Hi. destruct C2 as [_ C2]. apply C2. apply gt_le in G. lia.
Qed.

Lemma misc_last_char m endch m0 : misc m -> m = m0 ++ [endch] -> endch = 62 \/ space endch.
Proof.
  intros M. revert m0. induction M as [|sp w S NS M H IH|wa w A H IH]; intros m0 E.
  - destruct m0; discriminate.
  - destruct (last_case w) as [-> |(w0 & x & ->)].
    + rewrite app_nil_r in E. subst sp. right. apply Forall_app in S. destruct S as [_ S]. now inversion S.
    + rewrite app_assoc in E. apply app_inj_tail in E. destruct E as [_ ->]. now apply (IH w0).
  - destruct (last_case w) as [-> |(w0 & x & ->)].
    + rewrite app_nil_r in E. destruct (aside_at wa A) as (body & -> & _). left.
      rewrite app_assoc in E. apply app_inj_tail in E. now destruct E.
    + rewrite app_assoc in E. apply app_inj_tail in E. destruct E as [_ ->]. now apply (IH w0).
Qed.

Lemma parse_at e file : well_formed e file -> exists b y, parse file = Val (b, [y]) /\ map (shown b) [y] = [e].
Proof.
  intros (bom & m1 & dt & m2 & we & m3 & EF & BOM & M1 & DT & M2 & EL & M3).
  pose proof (begins m1 dt m2 e we m3 M1 DT M2 EL) as (c0 & r0 & EB & CB).
  destruct (all_elements e we EL) as (body & -> & LB & _).
  (* the last byte *)
  assert (exists F0 endch, file = F0 ++ [endch] /\ endch <> 60 /\
            (exists t, F0 ++ [0] = (bom ++ m1 ++ dt ++ m2 ++ [60] ++ body) ++ t /\
               ((m3 = [] /\ endch = 62 /\ t = [0]) \/
                (exists m0, m3 = m0 ++ [endch] /\ t = [62] ++ m0 ++ [0])))) as (F0 & endch & EF0 & N60 & t & ET & CT).
  { destruct (last_case m3) as [-> |(m0 & x & ->)].
    - exists (bom ++ m1 ++ dt ++ m2 ++ [60] ++ body), 62.
      split; [rewrite EF, app_nil_r; now rewrite <- !app_assoc|]. split; [lia|]. exists [0]. auto.
    - exists (bom ++ m1 ++ dt ++ m2 ++ ([60] ++ body ++ [62]) ++ m0), x.
      split; [rewrite EF; now rewrite <- !app_assoc|].
      split; [destruct (misc_last_char _ x m0 M3 eq_refl) as [->|X]; [lia|unfold space in X; lia]|].
      exists ([62] ++ m0 ++ [0]). split; [now rewrite <- !app_assoc|]. right. eauto. }
  unfold parse. rewrite EF0. rewrite app_length. cbn [length]. rewrite Nat.add_1_r.
  rewrite (rd_ok (F0 ++ [endch]) (length F0) endch) by (rewrite nth_error_app2 by lia; now rewrite Nat.sub_diag).
  cbn [bind]. rewrite wr_ok by (rewrite app_length; cbn; lia). cbn [bind]. rewrite upd_last.
  set (b := F0 ++ [0]) in *. pose proof (okb_last F0) as O. fold b in O. set (L := length b) in *.
  assert (at_ b 0 (bom ++ m1 ++ dt ++ m2 ++ [60] ++ body)) as A by (rewrite ET; apply at_whole).
  assert (skip_bom b = Val (length bom)) as SB.
  { unfold skip_bom. destruct BOM as [-> | ->].
    - cbn [app] in A. cbn [length].
      assert (nth_error b 0 = Some c0) as E0.
      { assert (m1 ++ dt ++ m2 ++ ([60] ++ body ++ [62]) ++ m3 = (m1 ++ dt ++ m2 ++ 60 :: body) ++ 62 :: m3) as EQ
          by (cbn [app]; repeat (rewrite <- app_assoc; cbn [app]); reflexivity).
        rewrite EQ in EB. destruct (m1 ++ dt ++ m2 ++ 60 :: body) as [|x l] eqn:EX.
        - exfalso. apply app_eq_nil in EX. destruct EX as [_ EX]. apply app_eq_nil in EX. destruct EX as [_ EX].
          apply app_eq_nil in EX. destruct EX as [_ EX]. discriminate.
        - cbn [app] in EB. injection EB as -> _. apply at_cons in A. apply A. }
      cbn [starts]. rewrite (rd_ok _ _ _ E0). cbn [bind].
      replace (c0 =? 239) with false by (destruct CB as [CB|[-> _]]; [unfold space in CB; lia|reflexivity]). reflexivity.
    - rewrite (starts_at b [239; 187; 191] 0 (at_app1 _ _ _ _ A)). reflexivity. }
  rewrite SB. cbn [bind]. unfold parse_tree.
  apply at_app2 in A. cbn [Nat.add] in A.
  assert (length b = Nat.add (Nat.add (length bom) (length (m1 ++ dt ++ m2 ++ [60] ++ body))) (length t)) as LEN
    by (rewrite ET, !app_length; lia).
  assert (at_ b (length bom + length (m1 ++ dt ++ m2 ++ [60] ++ body)) t) as AT.
  { rewrite <- app_length. rewrite ET. intros i c H. rewrite nth_error_app2 by lia.
    rewrite Nat.add_comm, Nat.add_sub. exact H. }
  set (q := Nat.add (length bom) (length (m1 ++ dt ++ m2 ++ [60] ++ body))) in *.
  assert (exists p' b' y s', tree (fuel b) endch b (length bom) [root] false = Val (b', s', [result y]) /\ shows p' [e] [y] b') as (p' & b' & y & s' & E & K).
  { destruct CT as [(-> & -> & ->)|(m0 & EM & ->)].
    - apply at_cons in AT. destruct AT as [E0 _].
      destruct (body_at m1 dt m2 e body L 62 (fuel b) b (length bom) q M1 DT M2 EL O A (gt_last _ _ E0)) as (n' & b' & y & E1 & F1 & O1 & K1 & C1).
      { unfold fuel, L. lia. }
      cbn [length] in LEN. destruct n' as [|n']; [subst L; lia|].
      exists q, b', y, q. rewrite E1. split; [|exact K1]. apply tree_stop. now rewrite C1 by lia.
    - apply at_cons in AT. destruct AT as [E62 AT].
      destruct (body_at m1 dt m2 e body L endch (fuel b) b (length bom) (S q) M1 DT M2 EL O A (gt_here _ _ _ E62)) as (n' & b' & y & E1 & F1 & O1 & K1 & C1).
      { unfold fuel, L. lia. }
      destruct (misc_last m3 M3 L endch n' b' (S q) [result y] m0 O1 EM) as (s' & E2).
      { eapply at_same; [exact AT|]. intros i Hi. apply C1. lia. }
      { rewrite !app_length in LEN. cbn [length] in LEN. subst L. lia. }
      { exact F1. }
      exists (S q), b', y, s'. rewrite E1. split; [exact E2|exact K1]. }
  rewrite E. cbn [bind result f_kids]. replace (endch =? 60) with false by lia.
  assert (map (shown b') [y] = [e]) as SH by (apply K; intros i _; reflexivity).
  exists b', y. split; [|exact SH].
  assert (is_elem y = true) as IE.
  { destruct y as [nm at0 kids|v|v]; [reflexivity| |]; exfalso; cbn [map shown] in SH; injection SH as SH;
      destruct EL; discriminate. }
  cbn [existsb]. rewrite IE. reflexivity.
Qed.

(** ** Encodings *)

Lemma scan_word_starts w : forall l r, scan_word w l = Some r -> l = w ++ r.
Proof.
  induction w as [|c w IH]; intros [|x l] r H; cbn [scan_word app] in *; try congruence.
  destruct (N.eqb_spec x c) as [->|]; [|discriminate]. now rewrite (IH l r H).
Qed.

Lemma guess_at e file : well_formed e file -> in_utf8 file -> load file = InPlace (parse file).
Proof.
  intros (bom & m1 & dt & m2 & we & m3 & EF & BOM & M1 & DT & M2 & EL & M3) U.
  pose proof (begins m1 dt m2 e we m3 M1 DT M2 EL) as (c0 & r0 & EB & CB).
  unfold load. destruct BOM as [-> | ->].
  2: { assert (guess file = Utf8) as -> ; [|reflexivity]. rewrite EF, EB. reflexivity. }
  cbn [app] in EF. rewrite EB in EF.
  assert (guess file = Utf8 \/ (guess file = Latin1 /\ exists n, declared_encoding file = Some n)) as G.
  { rewrite EF. unfold guess. destruct r0 as [|d1 [|d2 [|d3 r0]]]; try (left; reflexivity).
    assert (c0 <> 0 /\ c0 <> 255 /\ c0 <> 254 /\ c0 <> 239 /\ (c0 = 60 -> d1 <> 0)) as (Z & X1 & X2 & X3 & X4).
    { destruct CB as [CB|[-> (d & r & E & D)]]; [unfold space in CB; lia|]. injection E as -> _. lia. }
    replace (c0 =? 0) with false by lia. replace (c0 =? 255) with false by lia.
    replace (c0 =? 254) with false by lia. replace (c0 =? 239) with false by lia. cbn [andb].
    replace ((c0 =? 60) && (d1 =? 0)) with false by lia. cbn [andb].
    destruct ((c0 =? 60) && (d1 =? 63) && (d2 =? 120) && (d3 =? 109)); [|left; reflexivity].
    destruct (declared_encoding (c0 :: d1 :: d2 :: d3 :: r0)) as [n|]; [|left; reflexivity].
    destruct (is_word iso_8859_1 n || is_word latin1 n); [right; eauto|left; reflexivity]. }
  destruct G as [-> |[G (n & D)]]; [reflexivity|].
  destruct U as [U|[U|(r & U)]].
  - rewrite G. replace (forallb (fun c => c <? 128) file) with true; [reflexivity|].
    symmetry. apply forallb_forall. rewrite Forall_forall in U. intros x I. specialize (U x I). lia.
  - exfalso. unfold declared_encoding in D.
    destruct (scan_word [60; 63; 120; 109; 108] file) as [l|] eqn:SW; [|discriminate].
    apply scan_word_starts in SW. now apply (U l).
  - exfalso. rewrite U in G. unfold guess in G. cbn [utf8_declaration app] in G. cbv in G. discriminate.
Qed.

Lemma open_at e file : well_formed e file -> in_utf8 file -> open_xml file = Document [e].
Proof.
  intros W U. unfold open_xml. rewrite (guess_at e file W U).
  destruct (parse_at e file W) as (b & y & -> & S). now rewrite S.
Qed.
