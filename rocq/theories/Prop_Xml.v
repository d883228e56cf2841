(** C114: XML files are read as the documents they stand for; no file makes
    the parser leave its buffer or run forever; and what is logged about a
    file that does not parse. *)
From Coq Require Import NArith ZArith List Bool Arith Lia ZifyBool ZifyNat ZifyN String Ascii.
From Verif Require Import Xml XmlSpec XmlProofs XmlRound XmlRound2 XmlRound3 XmlOnly.
Import ListNotations.
Open Scope N_scope.

(** ** What is read *)

(** Every well-formed file is read as the one document it stands for: every
    element with its name, every attribute with its value, every text, in
    order. *)
Theorem C114_reads e file : well_formed e file -> in_utf8 file -> open_xml file = Document [e].
Proof. apply open_at. Qed.

(** No file whatsoever makes the parser use memory outside the file, or keep
    it busy forever. *)
Theorem C114_safe file : open_xml file <> Crashed /\ open_xml file <> Hung.
Proof.
  assert (forall b, match parse b with Wild | Loop => False | _ => True end) as P.
  { intros b. pose proof (parse_safe b) as S. destruct (parse b); cbn [safe] in S; auto. }
  unfold open_xml, load.
  assert (match parse file with Wild | Loop => False | _ => True end) as P1 by apply P.
  assert (match parse (flat_map utf8 file ++ [0]) with Wild | Loop => False | _ => True end) as P2 by apply P.
  destruct (guess file); [|split; discriminate|split; discriminate|destruct (forallb _ file)].
  - destruct (parse file) as [[b k]|st off b| |]; try easy; split; discriminate.
  - destruct (parse file) as [[b k]|st off b| |]; try easy; split; discriminate.
  - destruct (parse (flat_map utf8 file ++ [0])) as [[b k]|st off b| |]; try easy; split; discriminate.
Qed.

(** Only files of roughly the right form are accepted, and what is read has
    the form of the file: every start tag has its end tag with the same name,
    elements are nested as in the file, attributes are names with quoted
    values and white space before them, comments, instructions and CDATA
    sections are closed, and nothing of the file is left over.  (The second
    case is a file that declares to be in Latin-1: then the copy in UTF-8,
    with the zero byte put after it, is of this form.)  Files with zero bytes
    are excepted, see below. *)
Theorem C114_only file k : Forall (fun c => c < 256) file -> ~ In 0 file -> open_xml file = Document k ->
  rough_file k file \/ Exists (fun c => 128 <= c) file /\ rough_file k (flat_map utf8_of file ++ [0]).
Proof. apply only. Qed.

(** ** What is reported *)

Lemma back_line file before l1 c r : file = before ++ l1 ++ c :: r -> c <> 10 -> ~ In 10 l1 ->
  (before = [] \/ exists p x, before = x :: p ++ [10]) ->
  back file (List.length (before ++ l1)) = Some (List.length before).
Proof.
  intros EF NC. revert c r EF NC. induction l1 as [|d l1 IH] using rev_ind; intros c r EF NC NI B.
  - rewrite app_nil_r. cbn [app] in EF. destruct B as [-> |(p & x & ->)]; [reflexivity|].
    assert (nth_error file (List.length (x :: p ++ [10])) = Some c) as E1.
    { rewrite EF. rewrite nth_error_app2 by lia. now rewrite Nat.sub_diag. }
    assert (nth_error file (S (List.length p)) = Some 10) as E2.
    { rewrite EF. cbn [app nth_error]. rewrite <- app_assoc. rewrite nth_error_app2 by lia. now rewrite Nat.sub_diag. }
    assert (List.length (x :: p ++ [10]) = S (S (List.length p))) as LE by (cbn [List.length]; rewrite app_length; cbn; lia).
    rewrite LE in *. cbn [back]. rewrite E1. replace (c =? 10) with false by lia.
    cbn [back]. rewrite E2. reflexivity.
  - assert (d <> 10 /\ ~ In 10 l1) as [ND NI'].
    { split; [intros ->; apply NI, in_or_app; right; now left|]. intros X. apply NI, in_or_app. now left. }
    assert (nth_error file (List.length (before ++ l1 ++ [d])) = Some c) as E1.
    { rewrite EF. rewrite (app_assoc before). rewrite nth_error_app2 by lia. now rewrite Nat.sub_diag. }
    assert (List.length (before ++ l1 ++ [d]) = S (List.length (before ++ l1))) as LE by (rewrite !app_length; cbn; lia).
    rewrite LE in *. cbn [back]. rewrite E1. replace (c =? 10) with false by lia.
    apply (IH d (c :: r)); auto. rewrite EF, <- app_assoc. reflexivity.
Qed.

Lemma forth_line l2 after : ~ In 10 l2 -> (after = [] \/ exists p, after = 10 :: p) -> forall i,
  forth (l2 ++ after) i = (Z.of_nat (i + List.length l2) - (match after with [] => 0 | _ => 1 end))%Z.
Proof.
  intros NI A. induction l2 as [|c l2 IH]; intros i; cbn [app forth List.length].
  - destruct A as [-> |(p & ->)]; cbn [forth]; [lia|]. change (10 =? 10) with true. cbn iota. lia.
  - assert (c <> 10) by (intros ->; apply NI; now left). replace (c =? 10) with false by lia.
    rewrite IH by (intros X; apply NI; now right). lia.
Qed.

Lemma count_no w : ~ In 10 w -> count_occ N.eq_dec w 10 = O.
Proof. intros H. now apply count_occ_not_In. Qed.

(** The report about a place: the number of the line, the number of the
    character, the line with characters that cannot be printed as '#', and
    the mark under the character.  Holds for places before the end of the
    file and not at an end of line, in the first line or after a line that is
    not empty or not the first.  MISSING: the last character of the line is
    left out unless the line is the last (and other failures, below). *)
Theorem C114_report_partial file off before l1 l2 after :
  place file off before l1 l2 after -> l2 <> [] -> List.length before <> 1%nat ->
  let l2' := match after with [] => l2 | _ => removelast l2 end in
  prettify file off =
    Report (1 + N.of_nat (newlines before)) (N.of_nat (List.length l1) + 1) (map shown_as (l1 ++ l2'))
           (N.of_nat (List.length l1)) (N.of_nat (List.length l2')).
Proof.
  intros (EF & EO & N1 & N2 & B & AF) NE LB l2'.
  destruct l2 as [|c l2]; [congruence|].
  assert (c <> 10) as NC by (intros ->; apply N2; now left).
  assert (before = [] \/ exists p x, before = x :: p ++ [10]) as B'.
  { destruct B as [B|(p & ->)]; [now left|]. destruct p as [|x p]; [cbn in LB; lia|]. right. exists p, x. reflexivity. }
  assert (file = before ++ l1 ++ c :: (l2 ++ after)) as EF' by (rewrite EF; now rewrite <- app_comm_cons).
  unfold prettify. rewrite EO.
  assert (List.length file = List.length (before ++ l1) + List.length (c :: l2 ++ after))%nat as LF
    by (rewrite EF', !app_length; lia).
  replace (List.length file <? List.length (before ++ l1))%nat with false by lia.
  rewrite (back_line file before l1 c _ EF' NC N1 B').
  assert (skipn (List.length (before ++ l1)) file = (c :: l2) ++ after) as SK.
  { rewrite EF', app_assoc. rewrite skipn_app, skipn_all, Nat.sub_diag. reflexivity. }
  rewrite SK. rewrite (forth_line (c :: l2) after N2 AF).
  assert (firstn (List.length (before ++ l1)) file = before ++ l1) as FI.
  { rewrite EF', app_assoc. rewrite firstn_app, firstn_all, Nat.sub_diag. now rewrite app_nil_r. }
  rewrite FI, count_occ_app, (count_no l1 N1).
  assert (List.length l2' = List.length (c :: l2) - match after with [] => 0 | _ => 1 end)%nat as LL.
  { subst l2'. destruct after as [|a after]; [lia|]. clear. revert c.
    induction l2 as [|d l2 IH]; intros c; [reflexivity|]. change (removelast (c :: d :: l2)) with (c :: removelast (d :: l2)).
    cbn [List.length]. rewrite IH. cbn [List.length]. lia. }
  assert (exists t, c :: l2 = l2' ++ t) as (t & ET).
  { subst l2'. destruct after as [|a after]; [exists []; now rewrite app_nil_r|].
    exists [last (c :: l2) 0]. apply app_removelast_last. discriminate. }
  assert (skipn (List.length before) file = (l1 ++ l2') ++ t ++ after) as SB.
  { rewrite EF', app_comm_cons, ET. rewrite skipn_app, skipn_all, Nat.sub_diag. cbn [skipn app]. now rewrite <- !app_assoc. }
  rewrite SB. rewrite app_length in *. cbn [List.length] in *.
  set (z := match after with [] => 0%nat | _ => 1%nat end) in *.
  assert (match after with [] => 0%Z | _ => 1%Z end = Z.of_nat z) as -> by (subst z; destruct after; reflexivity).
  assert (z <= 1)%nat as ZL by (subst z; destruct after; lia).
  replace (Z.of_nat (List.length before + List.length l1 + S (List.length l2)) - Z.of_nat z - Z.of_nat (List.length before) <? 0)%Z
    with false by lia.
  replace (Z.to_nat (Z.of_nat (List.length before + List.length l1 + S (List.length l2)) - Z.of_nat z - Z.of_nat (List.length before)))
    with (List.length (l1 ++ l2')) by (rewrite app_length; lia).
  rewrite firstn_app, firstn_all, Nat.sub_diag. cbn [firstn]. rewrite app_nil_r.
  replace (N.of_nat (List.length before + List.length l1 - List.length before)) with (N.of_nat (List.length l1)) by lia.
  replace (Z.to_N (Z.of_nat (List.length before + List.length l1 + S (List.length l2)) - Z.of_nat z - Z.of_nat (List.length before + List.length l1)))
    with (N.of_nat (List.length l2')) by lia.
  replace (map visible (l1 ++ l2')) with (map shown_as (l1 ++ l2')).
  - unfold newlines. rewrite Nat.add_0_r. reflexivity.
  - apply map_ext_in. intros x I. assert (x <> 10).
    { intros ->. apply in_app_or in I. destruct I as [I|I]; [now apply N1|]. apply N2. rewrite ET. apply in_or_app. now left. }
    unfold visible, shown_as. replace (x =? 10) with false by lia. now rewrite orb_false_r.
Qed.

(** *** Examples *)

Definition txt (s : string) : bytes := map N_of_ascii (list_ascii_of_string s).
Definition eol : bytes := [10].

(** a table with a declaration, a comment, a text and an entity *)
Definition a_table : bytes :=
  txt "<?xml version='1.0'?>" ++ eol ++ txt "<!-- t --><node id='T&lt;'>" ++ eol ++
  txt " a<node id=""A"" address = '0x1'/>" ++ eol ++ txt "</node>" ++ eol.

Definition a_tree : xml :=
  El (txt "node") [(txt "id", txt "T<")]
    [Tx (eol ++ txt " a"); El (txt "node") [(txt "id", txt "A"); (txt "address", txt "0x1")] []].

Lemma name_txt w : match w with c :: _ => forallb (fun c => (97 <=? c) && (c <=? 122)) w | [] => false end = true -> is_name w.
Proof.
  destruct w as [|c r]; [discriminate|]. intros F. exists c, r. split; [reflexivity|].
  cbn [forallb] in F. apply andb_prop in F. destruct F as [F1 F]. split; [unfold name_start; lia|].
  rewrite forallb_forall in F. apply Forall_forall. intros x I. specialize (F x I). left. unfold name_start. lia.
Qed.

Ltac name_tac := apply name_txt; vm_compute; reflexivity.
Ltac spaces_tac := repeat (apply Forall_cons; [unfold space; lia|]); apply Forall_nil.

Lemma plain_attr q w : forallb (fun c => negb ((c =? 0) || (c =? 38) || (c =? 60) || (c =? q) || (c =? 9) || (c =? 10) || (c =? 13))) w = true ->
  attr_text q w w.
Proof.
  induction w as [|c w IH]; intros H; [apply at_end|]. cbn [forallb] in H. apply andb_prop in H. destruct H as [H1 H2].
  apply at_char; try lia. now apply IH.
Qed.

Lemma without_dec x w : forallb (fun c => negb (c =? 0)) w = true ->
  (forall a b, w <> a ++ x ++ b) -> without x w.
Proof.
  intros H N. split; [|exact N]. rewrite forallb_forall in H. apply Forall_forall. intros c I. specialize (H c I). lia.
Qed.

Lemma no_char x0 x w : forallb (fun c => negb (c =? x0)) w = true -> forall a b, w <> a ++ (x ++ [x0]) ++ b.
Proof.
  intros H a b ->. rewrite !forallb_app in H. cbn [forallb] in H. rewrite N.eqb_refl in H. cbn in H.
  rewrite !andb_false_r in H. discriminate.
Qed.

Lemma a_well_formed : well_formed a_tree a_table.
Proof.
  exists [], (txt "<?xml version='1.0'?>" ++ eol ++ txt "<!-- t -->"), [], [],
    (txt "<node id='T&lt;'>" ++ eol ++ txt " a<node id=""A"" address = '0x1'/>" ++ eol ++ txt "</node>"), eol.
  split; [reflexivity|]. split; [now left|].
  split; [|split; [now left|split; [constructor|split]]].
  - apply (misc_aside (txt "<?xml version='1.0'?>")).
    + apply (instruction (txt "xml") (txt " version='1.0'")); [name_tac| |].
      * apply without_dec; [reflexivity|]. apply (no_char 62 [63]). reflexivity.
      * intros c r E. vm_compute in E. injection E as <- _. unfold name_char, name_start. lia.
    + apply (misc_space eol (txt "<!-- t -->")); [spaces_tac|discriminate|right; eexists; reflexivity|].
      rewrite <- (app_nil_r (txt "<!-- t -->")). apply misc_aside; [|constructor].
      apply (comment (txt " t ")). apply without_dec; [reflexivity|]. apply (no_char 62 [45; 45]). reflexivity.
  - apply (element_full (txt "node") [(txt "id", txt "T<")] (txt " id='T&lt;'") []
             [Tx (eol ++ txt " a"); El (txt "node") [(txt "id", txt "A"); (txt "address", txt "0x1")] []]
             (eol ++ txt " a<node id=""A"" address = '0x1'/>" ++ eol) []); [name_tac| |spaces_tac| |spaces_tac].
    + apply (attrs_more [32] (txt "id") [] [] 39 (txt "T<") (txt "T&lt;") [] []); try spaces_tac; try discriminate; [name_tac|now right| |constructor].
      apply at_char; try (vm_compute; lia). apply (at_ref 39 [60] (txt "&lt;") [] []); [constructor|constructor].
    + apply (content_text (eol ++ txt " a") (eol ++ txt " a") _ (txt "<node id=""A"" address = '0x1'/>" ++ eol)).
      * repeat (apply ch_char; [vm_compute; lia|vm_compute; lia|vm_compute; lia|vm_compute; lia|]). apply ch_end.
      * intros S. inversion S as [|? ? _ S1]. inversion S1 as [|? ? _ S2]. inversion S2 as [|? ? S3 _]. unfold space in S3. vm_compute in S3. lia.
      * right. eexists. reflexivity.
      * apply content_element.
        -- apply (element_empty (txt "node") [(txt "id", txt "A"); (txt "address", txt "0x1")] (txt " id=""A"" address = '0x1'") []); [name_tac| |spaces_tac].
           apply (attrs_more [32] (txt "id") [] [] 34 (txt "A") (txt "A") [(txt "address", txt "0x1")] (txt " address = '0x1'"));
             try spaces_tac; try discriminate; [name_tac|now left|apply plain_attr; reflexivity|].
           apply (attrs_more [32] (txt "address") [32] [32] 39 (txt "0x1") (txt "0x1") [] []);
             try spaces_tac; try discriminate; [name_tac|now right|apply plain_attr; reflexivity|constructor].
        -- rewrite <- (app_nil_r eol). apply content_space; [spaces_tac|discriminate|now left|constructor].
  - rewrite <- (app_nil_r eol). apply misc_space; [spaces_tac|discriminate|now left|constructor].
Qed.

Example C114_reads_case : well_formed a_tree a_table /\ in_utf8 a_table /\ open_xml a_table = Document [a_tree].
Proof.
  split; [exact a_well_formed|]. split; [|vm_compute; reflexivity].
  left. apply Forall_forall. assert (forallb (fun c => c <? 128) a_table = true) as H by (vm_compute; reflexivity).
  rewrite forallb_forall in H. intros x I. specialize (H x I). lia.
Qed.

(** a file with a document type that has quotes, declarations, a comment and an
    instruction, with '>' and "'" where they do not count *)
Definition typed : bytes :=
  txt "<!DOCTYPE a SYSTEM " ++ [34] ++ txt "x>'y" ++ [34] ++ txt " [<!ENTITY c '>'> <!-- ' > --><?p > ' ?>]><a/>".
Lemma typed_well_formed : well_formed (El (txt "a") [] []) typed.
Proof.
  exists [], [], (txt "<!DOCTYPE a SYSTEM " ++ [34] ++ txt "x>'y" ++ [34] ++ txt " [<!ENTITY c '>'> <!-- ' > --><?p > ' ?>]>"), [], (txt "<a/>"), [].
  split; [vm_compute; reflexivity|]. split; [now left|]. split; [constructor|]. split; [right|split; [constructor|split; [|constructor]]].
  - exists (txt " a SYSTEM " ++ [34] ++ txt "x>'y" ++ [34] ++ txt " [<!ENTITY c '>'> <!-- ' > --><?p > ' ?>]"). split; [vm_compute; reflexivity|].
    exists (txt " a SYSTEM " ++ [34] ++ txt "x>'y" ++ [34] ++ txt " "), (txt "[<!ENTITY c '>'> <!-- ' > --><?p > ' ?>]"). split; [vm_compute; reflexivity|]. split.
    + cbn. repeat (apply decl_plain; [unfold plain; lia|]). apply (decl_quoted 34 [120; 62; 39; 121] [32]); [now left|repeat constructor; lia|].
      apply decl_plain; [unfold plain; lia|constructor].
    + right. exists (txt "<!ENTITY c '>'> <!-- ' > --><?p > ' ?>"), []. split; [vm_compute; reflexivity|]. split; [|constructor].
      apply (subset_decl 69 (txt "NTITY c '>'") (txt " <!-- ' > --><?p > ' ?>")); [unfold name_start; lia| |].
      * cbn. repeat (apply decl_plain; [unfold plain; lia|]). apply (decl_quoted 39 [62] []); [now right|repeat constructor; lia|constructor].
      * cbn. apply subset_plain; [unfold plain; lia|]. apply (subset_aside ([60; 33; 45; 45] ++ txt " ' > " ++ [45; 45; 62]) (txt "<?p > ' ?>")).
        -- apply comment. split; [repeat constructor; discriminate|]. intros u v X. do 5 (destruct u as [|? u]; [discriminate|cbn in X; injection X as _ X]). destruct u; discriminate.
        -- rewrite <- (app_nil_r (txt "<?p > ' ?>")). apply subset_aside; [|constructor]. apply (instruction (txt "p") (txt " > ' ")).
           ++ exists 112, []. split; [reflexivity|]. split; [unfold name_start; lia|constructor].
           ++ split; [repeat constructor; discriminate|]. intros u v X. do 5 (destruct u as [|? u]; [discriminate|cbn in X; injection X as _ X]). destruct u; discriminate.
           ++ intros c r X. injection X as <- _. unfold name_char, name_start. lia.
  - apply (element_empty (txt "a") [] [] []); [|constructor|constructor]. exists 97, []. split; [reflexivity|]. split; [unfold name_start; lia|constructor].
Qed.
Example C114_reads_typed : well_formed (El (txt "a") [] []) typed /\ open_xml typed = Document [El (txt "a") [] []].
Proof. split; [exact typed_well_formed|vm_compute; reflexivity]. Qed.

(** the same table: all hypotheses hold *)
Example C114_only_case : Forall (fun c => c < 256) a_table /\ ~ In 0 a_table /\ open_xml a_table = Document [a_tree] /\
  rough_file [a_tree] a_table.
Proof.
  assert (Forall (fun c => c < 256) a_table) as H1.
  { apply Forall_forall. intros c I. assert (forallb (fun c => c <? 256) a_table = true) as F by (vm_compute; reflexivity).
    rewrite forallb_forall in F. specialize (F c I). lia. }
  assert (Forall (fun c => c < 128) a_table) as H3.
  { apply Forall_forall. intros c I. assert (forallb (fun c => c <? 128) a_table = true) as F by (vm_compute; reflexivity).
    rewrite forallb_forall in F. specialize (F c I). lia. }
  assert (~ In 0 a_table) as H2.
  { intros I. assert (forallb (fun c => negb (c =? 0)) a_table = true) as F by (vm_compute; reflexivity).
    rewrite forallb_forall in F. specialize (F 0 I). discriminate. }
  assert (open_xml a_table = Document [a_tree]) as E by (vm_compute; reflexivity).
  split; [exact H1|]. split; [exact H2|]. split; [exact E|].
  destruct (C114_only _ _ H1 H2 E) as [H|[H _]]; [exact H|]. exfalso.
  apply Exists_exists in H. destruct H as (c & I & C). rewrite Forall_forall in H3. specialize (H3 c I). lia.
Qed.

(** files that are not of this form: end tags of other names, a missing end
    tag, no space between attributes, an unclosed comment *)
Example C114_only_not :
  Forall (fun s => exists st r, open_xml (txt s) = Reported st r)
    ["<a><b></a></b>"; "<a><b/>"; "<a x='1'y='2'/>"; "<a/><!-- "; "<a x=1/>"; "<a x='1/>"]%string.
Proof. repeat (apply Forall_cons; [do 2 eexists; vm_compute; reflexivity|]). apply Forall_nil. Qed.

(** in a file of this form a '>' follows every '<' *)
Definition closes (w : bytes) : Prop := forall u v, w = u ++ 60 :: v -> In 62 v.

Lemma closes_gt w r : closes w -> closes (w ++ r ++ [62]).
Proof.
  intros C u v E. destruct (exists_last (l := v)) as (v' & x & ->).
  { intros ->. rewrite app_assoc in E. change (60 :: []) with ([60] : bytes) in E. apply app_inj_tail in E. destruct E. discriminate. }
  rewrite app_assoc in E. rewrite app_comm_cons, app_assoc in E. apply app_inj_tail in E. destruct E as [_ <-].
  apply in_or_app. right. now left.
Qed.

Lemma closes_text w wt : closes w -> ~ In 60 wt -> closes (w ++ wt).
Proof.
  intros C NI. induction wt as [|x wt IH] using rev_ind; [now rewrite app_nil_r|].
  intros u v E. destruct v as [|y v] using rev_ind.
  - rewrite app_assoc in E. change (60 :: []) with ([60] : bytes) in E. apply app_inj_tail in E. destruct E as [_ ->].
    exfalso. apply NI, in_or_app. right. now left.
  - rewrite app_assoc in E. rewrite app_comm_cons, app_assoc in E. apply app_inj_tail in E. destruct E as [E _].
    apply in_or_app. left. apply (IH ltac:(intros I; apply NI, in_or_app; now left) u v E).
Qed.

Lemma closes_top k w : rough_top k w -> closes w.
Proof.
  induction 1 as [|k w wt T IH N|k w t wc T IH (t' & -> & _)|k w wa T IH A|k w r T IH|k w e we T IH EL].
  - intros u v E. destruct u; discriminate.
  - now apply closes_text.
  - rewrite (app_assoc _ t'). change [93; 93; 62] with ([93; 93] ++ [62]). rewrite (app_assoc _ [93; 93]). now apply closes_gt.
  - destruct A as [w0 _|nm w0 _ _ _].
    + change [45; 45; 62] with ([45; 45] ++ [62]). rewrite (app_assoc w0), (app_assoc [60; 33; 45; 45]). now apply closes_gt.
    + change [63; 62] with ([63] ++ [62]). rewrite (app_assoc w0), (app_assoc nm), (app_assoc [60; 63]). now apply closes_gt.
  - rewrite app_assoc with (n := [62]). now apply closes_gt.
  - destruct EL as [nm a wa sp _ _ _|nm a wa sp k' wk sp' _ _ _ _ _].
    + change [47; 62] with ([47] ++ [62]). rewrite (app_assoc sp), (app_assoc wa), (app_assoc nm), (app_assoc [60]). now apply closes_gt.
    + replace ([60] ++ nm ++ wa ++ sp ++ [62] ++ wk ++ [60; 47] ++ nm ++ sp' ++ [62])
        with (([60] ++ nm ++ wa ++ sp ++ [62] ++ wk ++ [60; 47] ++ nm ++ sp') ++ [62])
        by (repeat (rewrite <- app_assoc; cbn [app]); reflexivity).
      now apply closes_gt.
Qed.

(** FINDING: without the hypothesis on zero bytes this fails: what follows a
    zero byte is not looked at. *)
Theorem C114_zero_refuted : ~ forall file k, Forall (fun c => c < 256) file -> open_xml file = Document k ->
  rough_file k file \/ Exists (fun c => 128 <= c) file /\ rough_file k (flat_map utf8_of file ++ [0]).
Proof.
  intros H. set (f := txt "<a/>" ++ [0] ++ txt "<b ").
  assert (open_xml f = Document [El (txt "a") [] []]) as E by (vm_compute; reflexivity).
  assert (forallb (fun c => c <? 128) f = true) as B by (vm_compute; reflexivity). rewrite forallb_forall in B.
  destruct (H f _ ltac:(apply Forall_forall; intros c I; specialize (B c I); lia) E) as [(bom & w & EF & HB & T & _)|[X _]].
  - apply closes_top in T. destruct HB as [-> | ->]; [|discriminate]. cbn [app] in EF.
    specialize (T (txt "<a/>" ++ [0]) (txt "b ") (eq_sym EF)). vm_compute in T. decompose [or] T; discriminate || contradiction.
  - apply Exists_exists in X. destruct X as (c & I & C). specialize (B c I). lia.
Qed.


Example C114_safe_case : open_xml [60; 33; 91; 67] = Reported BadCdata (Report 1 4 [60; 33; 91; 35] 3 1).
Proof. vm_compute. reflexivity. Qed.

(** line 2, character 6 of "<a>", " <b c>", "</a>" *)
Example C114_report_case :
  let file := txt "<a>" ++ eol ++ txt " <b c>" ++ eol ++ txt "</a>" in
  place file 9 (txt "<a>" ++ eol) (txt " <b c") (txt ">") (eol ++ txt "</a>") /\
  prettify file 9 = Report 2 6 (txt " <b c") 5 0.
Proof.
  split; [|vm_compute; reflexivity]. unfold place. split; [reflexivity|]. split; [reflexivity|].
  split; [vm_compute; intuition lia|]. split; [vm_compute; intuition lia|]. split; right; eexists; reflexivity.
Qed.

(** *** What is false *)

(** A file that ends too early: the report looks at the byte after the file. *)
Theorem C114_past_end_refuted : ~ forall file st r, open_xml file = Reported st r -> r <> WildRead.
Proof.
  intros H. apply (H (txt "<node id") BadAttr WildRead); [vm_compute; reflexivity|reflexivity].
Qed.

(** An error noticed at an end of line: std::length_error instead of a report. *)
Theorem C114_length_error_refuted : ~ forall file st r, open_xml file = Reported st r -> r <> LengthError.
Proof.
  intros H. apply (H (txt "<node>" ++ eol ++ txt "<" ++ eol ++ txt "</node>") Unrecognized LengthError); [vm_compute; reflexivity|reflexivity].
Qed.

(** The number of the line is too small when a line ends right after the name
    of an element: the parser has written a zero there. *)
Theorem C114_line_refuted : ~ forall file st off b line ch text x y,
  load file = InPlace (Err st off b) -> open_xml file = Reported st (Report line ch text x y) ->
  line = 1 + N.of_nat (newlines (firstn off file)).
Proof.
  intros H.
  specialize (H (txt "<node" ++ eol ++ txt " id='a'" ++ eol ++ txt " b='d'>" ++ eol ++ txt "<a></b>" ++ eol) Mismatch 27%nat
    [60; 110; 111; 100; 101; 0; 32; 105; 100; 0; 39; 97; 0; 10; 32; 98; 0; 39; 100; 0; 62; 10; 60; 97; 0; 60; 47; 98; 62; 0]
    3 6 (txt "<a#</b>#") 5 3).
  assert (3 = 1 + N.of_nat (newlines (firstn 27 (txt "<node" ++ eol ++ txt " id='a'" ++ eol ++ txt " b='d'>" ++ eol ++ txt "<a></b>" ++ eol)))) as X
    by (apply H; vm_compute; reflexivity).
  vm_compute in X. discriminate.
Qed.

(** The line is shown as the parser has left it: with '#' for characters that
    can be printed and are in the file. *)
Theorem C114_text_refuted : ~ forall file st line ch text x y,
  open_xml file = Reported st (Report line ch text x y) -> Forall (fun c => 32 <= c <= 126) file -> In 35 text -> In 35 file.
Proof.
  intros H. specialize (H (txt "<a></b>") Mismatch 1 6 (txt "<a#</b#") 5 2).
  assert (In 35 (txt "<a></b>")) as X.
  { apply H; [vm_compute; reflexivity| |vm_compute; auto].
    repeat (apply Forall_cons; [vm_compute; split; discriminate|]). apply Forall_nil. }
  vm_compute in X. intuition discriminate.
Qed.

(** The last character of a line is not shown. *)
Theorem C114_last_refuted : ~ forall file off before l1 l2 after,
  place file off before l1 l2 after -> l2 <> [] -> before = [] ->
  prettify file off = Report (1 + N.of_nat (newlines before)) (N.of_nat (List.length l1) + 1) (map shown_as (l1 ++ l2))
                             (N.of_nat (List.length l1)) (N.of_nat (List.length l2)).
Proof.
  intros H. specialize (H (txt "<a b>" ++ eol) 4%nat [] (txt "<a b") (txt ">") eol).
  assert (prettify (txt "<a b>" ++ eol) 4 = Report 1 5 (txt "<a b>") 4 1) as X.
  { apply H; [|discriminate|reflexivity]. split; [reflexivity|]. split; [reflexivity|].
    split; [vm_compute; intuition lia|]. split; [vm_compute; intuition lia|]. split; [now left|right; eexists; reflexivity]. }
  vm_compute in X. discriminate.
Qed.

(** After an empty first line, the report is about both lines. *)
Theorem C114_first_line_refuted : ~ forall file off before l1 l2 line ch text x y,
  place file off before l1 l2 [] -> l2 <> [] -> prettify file off = Report line ch text x y -> ch = N.of_nat (List.length l1) + 1.
Proof.
  intros H. specialize (H (eol ++ txt "<a b>") 5%nat eol (txt "<a b") (txt ">") 2 6 (eol ++ txt "<a b>") 5 1).
  assert (6 = N.of_nat (List.length (txt "<a b")) + 1) as X; [|vm_compute in X; discriminate].
  apply H; [|discriminate|vm_compute; reflexivity]. split; [reflexivity|]. split; [reflexivity|].
  split; [vm_compute; intuition lia|]. split; [vm_compute; intuition lia|]. split; [right; exists []; reflexivity|now left].
Qed.

(** A file in Latin-1: the place is one of the converted copy, and the report
    looks at memory after the file although the error is in the middle. *)
Definition latin_file : bytes :=
  txt "<?xml version='1.0' encoding='latin1'?><a b='" ++ repeat 233 30 ++ txt "'></c></a>" ++ eol.

Theorem C114_latin_refuted : ~ forall file st off b r, load file = Copied (Err st off b) ->
  open_xml file = Reported st r -> (exists p, file = p ++ eol) -> r <> WildRead.
Proof.
  intros H. destruct (load latin_file) as [?|[?|st off b| |]|] eqn:E; vm_compute in E; try discriminate.
  apply (H latin_file st off b WildRead); [|injection E as <- <- <-; vm_compute; reflexivity| |reflexivity].
  - unfold latin_file. injection E as <- <- <-. vm_compute. reflexivity.
  - exists (txt "<?xml version='1.0' encoding='latin1'?><a b='" ++ repeat 233 30 ++ txt "'></c></a>").
    unfold latin_file. now rewrite <- !app_assoc.
Qed.

(** Files that are not well-formed are accepted: with two elements, or with a
    text after the element, or with an attribute twice. *)
Theorem C114_accepts_refuted : ~ forall file k, open_xml file = Document k -> exists e, k = [e].
Proof.
  intros H. destruct (H (txt "<a/><b/>x") [El (txt "a") [] []; El (txt "b") [] []]) as (e & E); [vm_compute; reflexivity|discriminate].
Qed.

Print Assumptions C114_reads.
Print Assumptions C114_safe.
Print Assumptions C114_only.
Print Assumptions C114_zero_refuted.
Print Assumptions C114_report_partial.
Print Assumptions C114_past_end_refuted.
Print Assumptions C114_length_error_refuted.
Print Assumptions C114_line_refuted.
Print Assumptions C114_text_refuted.
Print Assumptions C114_last_refuted.
Print Assumptions C114_first_line_refuted.
Print Assumptions C114_latin_refuted.
Print Assumptions C114_accepts_refuted.
