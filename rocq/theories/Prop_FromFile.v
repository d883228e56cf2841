(** C115: from the bytes of connection files and address tables to devices. *)
From Coq Require Import NArith List Bool String Ascii Permutation Lia PeanoNat.
From Verif Require Import NodeTree Builder BuildSpec Table FromFile FromFileSpec FromFileProofs.
From Verif Require Xml XmlSpec XmlRound3 Uri Conn Prop_Conn Prop_Builder Prop_Accept.
Import ListNotations.
Open Scope N_scope.

(** ** Address tables *)

(** The file at which an expression ends up, and what is read there: exactly one
    address table must be found, and no other file may do harm (such as one for
    which the report of an error throws, C114_length_error_refuted). *)
Theorem C115_file d path prot f expr q x : expression prot f expr ->
  table_files (opens_of d) path expr = Some (q, x) <->
  exists l1 file l2, d prot path f = l1 ++ (q, file) :: l2 /\ is_table q file x /\
                     Forall (fun y => harmless (fst y) (snd y)) (l1 ++ l2).
Proof. apply files_iff. Qed.

(** If none is an address table, or two are, that is the exception; for files that
    do no harm, since the model does not tell other exceptions from this one. *)
Theorem C115_count d sort is_class fuel path prot f expr : expression prot f expr ->
  Forall (fun y => harmless (fst y) (snd y) \/ exists x, is_table (fst y) (snd y) x) (d prot path f) ->
  (forall l1 q file l2, d prot path f = l1 ++ (q, file) :: l2 -> (exists x, is_table q file x) ->
     Exists (fun y => exists x, is_table (fst y) (snd y) x) (l1 ++ l2)) ->
  tree_from d sort is_class (S fuel) path expr = BExc IncorrectAddressTableFileCount.
Proof.
  intros EX _ H. unfold tree_from, get_table. cbn [get_node_tree]. destruct (table_files (opens_of d) path expr) as [(q, x)|] eqn:T; [|reflexivity].
  exfalso. apply (C115_file d path prot f expr q x EX) in T. destruct T as (l1 & file & l2 & E & IT & F). specialize (H _ _ _ _ E (ex_intro _ x IT)).
  apply Exists_exists in H. destruct H as (y & I & z & Z). rewrite Forall_forall in F. destruct (F y I) as (N & _). exact (N z Z).
Qed.

(** For a well-formed file the table is its element. *)
Theorem C115_element q file e x : XmlSpec.well_formed e file -> XmlSpec.in_utf8 file ->
  is_table q file x <-> xml_name q /\ called "node" e /\ means e x.
Proof.
  intros W U. unfold is_table. rewrite (XmlRound3.open_at e file W U). split.
  - intros (N & _ & k1 & e' & k2 & E & F & C & M). injection E as E. destruct k1 as [|y [|y' k1]]; [injection E as <- <-; auto|discriminate|discriminate].
  - intros (N & C & M). split; [exact N|]. split; [destruct (proj2 (well_formed_el _ _ W)) as (c & r & ->); discriminate|]. exists [], e, []. auto.
Qed.

(** An address table in a well-formed file: a tree is built just when there is one
    that the element describes and whose blocks fit; and the tree that is built
    is described by it, with the addresses added up. *)
Theorem C115_tree d sort is_class prot f expr path q file e : sort_ok sort -> expression prot f expr ->
  d prot path f = [(q, file)] -> xml_name q -> XmlSpec.well_formed e file -> XmlSpec.in_utf8 file -> called "node" e ->
  let described := fun t => exists x, means e x /\ describes grammar_pars grammar_fw (table_files (opens_of d)) q false x t in
  ((exists fuel t, tree_from d sort is_class fuel path expr = BOk t) <-> (exists t, described t /\ every Prop_Accept.fits t)) /\
  (forall fuel t, tree_from d sort is_class fuel path expr = BOk t ->
     described t /\ forall p n, get t p = Some n -> a_addr (n_at n) = sum_above t p mod 2 ^ 32).
Proof.
  intros SO EX D NM W U C described.
  assert (FI : forall q' x, table_files (opens_of d) path expr = Some (q', x) <-> q' = q /\ means e x).
  { intros q' x. rewrite (C115_file d path prot f expr q' x EX), D. split.
    - intros (l1 & file' & l2 & E & T & _). destruct l1 as [|y [|y' l1]]; try discriminate. injection E as <- <- <-. apply (C115_element _ _ _ _ W U) in T. tauto.
    - intros (-> & M). exists [], file, []. split; [reflexivity|]. split; [now apply (C115_element _ _ _ _ W U)|constructor]. }
  assert (X : (exists fuel t, tree_from d sort is_class fuel path expr = BOk t) <-> (exists t, described t /\ every Prop_Accept.fits t)).
  { unfold tree_from, get_table. rewrite (Prop_Accept.C81_accepted _ _ _ _ is_class SO path expr). split.
    - intros (q' & x & t & F & DE & FT). apply FI in F. destruct F as (-> & M). exists t. split; [exists x; auto|exact FT].
    - intros (t & (x & M & DE) & FT). exists q, x, t. split; [now apply FI|auto]. }
  split; [exact X|]. intros fuel t E. split.
  - destruct (Prop_Builder.C34_addresses _ _ _ _ is_class SO _ _ _ _ E) as (_ & q' & x & F & DE). apply FI in F. destruct F as (-> & M). exists x. auto.
  - exact (proj1 (Prop_Builder.C34_addresses _ _ _ _ is_class SO _ _ _ _ E)).
Qed.

(** How a table is written does not matter: files whose elements say the same give
    the same tree, or the same exception; wherever they are included. *)
Theorem C115_layout d d' sort is_class :
  (forall prot path f, Forall2 (fun y y' => fst y = fst y' /\
     (snd y = snd y' \/
      exists e e', XmlSpec.well_formed e (snd y) /\ XmlSpec.in_utf8 (snd y) /\ XmlSpec.well_formed e' (snd y') /\ XmlSpec.in_utf8 (snd y') /\
                   (called "node" e <-> called "node" e') /\ alike e e'))
     (d prot path f) (d' prot path f)) ->
  forall fuel path expr, tree_from d sort is_class fuel path expr = tree_from d' sort is_class fuel path expr.
Proof.
  intros H. unfold tree_from, get_table. apply tree_same. intros path expr. unfold table_files.
  destruct (Uri.parse_uri_list (chars expr)) as [[|(prot, f) [|? ?]]|]; try exact I.
  assert (F : Forall2 (fun y y' => fst y = fst y' /\ (snd y = snd y' \/ eqv (snd y) (snd y'))) (opens_of d (text prot) path (text f)) (opens_of d' (text prot) path (text f))).
  { unfold opens_of. assert (forallb (fun f => returns (read_table (fst f) (snd f))) (d (text prot) path (text f)) = forallb (fun f => returns (read_table (fst f) (snd f))) (d' (text prot) path (text f))) as ->.
    { induction (H (text prot) path (text f)) as [|(q, w) (q', w') l l' (E & R) F IH]; [reflexivity|]. cbn [forallb fst snd] in *. subst q'. rewrite IH. f_equal.
      destruct R as [<-|(e & e' & W & U & W' & U' & _)]; [reflexivity|]. rewrite (read_formed q w e W U), (read_formed q w' e' W' U').
      destruct (String.eqb (extension q) ".xml"); [|reflexivity]. destruct (named "node" e), (named "node" e'); reflexivity. }
    destruct (forallb _ _); [|constructor]. induction (H (text prot) path (text f)) as [|(q, w) (q', w') l l' (E & R) F IH]; cbn [flat_map fst snd] in *; [constructor|]. subst q'.
    destruct R as [<-|(e & e' & W & U & W' & U' & N & A)].
    - destruct (read_table q w); cbn [app]; try exact IH. constructor; [cbn; auto|exact IH].
    - rewrite (read_formed q w e W U), (read_formed q w' e' W' U'). destruct (String.eqb (extension q) ".xml"); [|exact IH].
      assert (named "node" e = named "node" e') as -> by (rewrite !called_iff in N; destruct (named "node" e), (named "node" e'); intuition congruence).
      destruct (named "node" e'); cbn [app]; [|exact IH]. constructor; [cbn [fst snd]; split; [reflexivity|right; now apply alike_eqv]|exact IH]. }
  inversion F as [|(q, x) (q', x') ? ? (E & R) F']; subst; [exact I|]. inversion F'; subst; [|exact I]. cbn [fst snd] in *. split; [exact E|].
  destruct R as [<-|R]; [|exact R]. clear. apply (BuilderProofs.xml_ind2 (fun x => eqv x x)). intros l xs F. constructor; [reflexivity|]. induction F; constructor; auto.
Qed.

(** ** Devices *)

(** Files [ds]: the name by which it is known, its path, its bytes, the element. *)
Definition consistent (ds : list desc_file) : Prop :=
  forall x y i u t u' t', In x ds -> In y ds -> listed (snd x) i u t -> listed (snd y) i u' t' -> u = u' /\ t = t'.

(** Well-formed connection files with different names: if two entries of one id
    differ, the manager cannot be made.  Otherwise the device of an id has the URI
    listed and the address table listed, sought from the first file that lists the
    id; and there are no others. *)
Theorem C115_device d sort is_class fuel (ds : list desc_file) :
  Forall (fun x => XmlSpec.well_formed (snd x) (snd (fst x)) /\ XmlSpec.in_utf8 (snd (fst x))) ds -> NoDup (map df_name ds) ->
  let device := get_device d sort is_class fuel (map fst ds) in
  (~ consistent ds -> forall i, device i = DDuplicated) /\
  (consistent ds ->
     (forall ds1 x ds2 i u t, ds = ds1 ++ x :: ds2 -> listed (snd x) i u t -> (forall y u' t', In y ds1 -> ~ listed (snd y) i u' t') ->
        device i = DDevice u (tree_from d sort is_class fuel (text (df_path x)) t)) /\
     (forall i, (forall y u t, In y ds -> ~ listed (snd y) i u t) -> device i = DUnknown)).
Proof.
  intros W ND device. unfold device, get_device. clear device.
  set (fs := map (fun c => connection_file (fst (fst c)) (snd (fst c)) (snd c)) (map fst ds)).
  pose proof (Prop_Conn.C60_manager fs) as (M & G).
  assert (EN : Prop_Conn.entries [] fs = flat_map (fun x => flat_map (of_entry (df_path x)) (connections [snd x])) ds) by (apply entries_of; [exact W|exact ND|intros y _ []]).
  rewrite EN in M, G.
  assert (IN : forall l i u t p, In (Conn.mkDesc i u t p) (flat_map (fun x => flat_map (of_entry (df_path x)) (connections [snd x])) l) <->
                                exists x, In x l /\ p = df_path x /\ listed (snd x) (text i) (text u) (text t)).
  { intros l i u t p. rewrite in_flat_map. split; intros (x & A & B); exists x; (split; [exact A|]); [now apply listed_iff|now apply listed_iff]. }
  assert (AG : Prop_Conn.agree (flat_map (fun x => flat_map (of_entry (df_path x)) (connections [snd x])) ds) <-> consistent ds).
  { split.
    - intros A x y i u t u' t' Ix Iy Lx Ly. unfold Prop_Conn.agree in A.
      destruct (A (Conn.mkDesc (chars i) (chars u) (chars t) (df_path x)) (Conn.mkDesc (chars i) (chars u') (chars t') (df_path y))) as (E1 & E2).
      + apply IN. exists x. rewrite !text_chars. auto.
      + apply IN. exists y. rewrite !text_chars. auto.
      + reflexivity.
      + cbn [Conn.d_uri Conn.d_table] in E1, E2. apply (f_equal text) in E1, E2. rewrite !text_chars in E1, E2. auto.
    - intros CO [i u t p] [i' u' t' p'] Ia Ib E. cbn [Conn.d_id Conn.d_uri Conn.d_table] in *. subst i'. apply IN in Ia, Ib.
      destruct Ia as (x & Ix & _ & Lx). destruct Ib as (y & Iy & _ & Ly). destruct (CO _ _ _ _ _ _ _ Ix Iy Lx Ly) as (E1 & E2).
      apply (f_equal chars) in E1, E2. rewrite !chars_text in E1, E2. auto. }
  split.
  - intros NC i. destruct (Conn.manager fs) as [m|]; [|reflexivity]. exfalso. apply NC, AG, M. discriminate.
  - intros CO. assert (Conn.manager fs <> None) as NN by now apply M, AG. destruct (Conn.manager fs) as [m|]; [|congruence].
    destruct (G m eq_refl) as (GD & _). split.
    + intros ds1 x ds2 i u t E L NB. rewrite GD. rewrite E, flat_map_app, first_app. cbn [flat_map].
      rewrite first_none.
      2: { intros [i' u' t' p'] I E'. cbn [Conn.d_id] in E'. apply IN in I. destruct I as (y & Iy & _ & Ly). subst i'. rewrite text_chars in Ly. exact (NB _ _ _ Iy Ly). }
      rewrite first_app. destruct (Prop_Conn.first_entry (flat_map (of_entry (df_path x)) (connections [snd x])) (chars i)) as [[i' u' t' p']|] eqn:FE.
      * apply first_some in FE. destruct FE as (I & Ei). cbn [Conn.d_id] in Ei. subst i'. apply listed_iff in I. destruct I as (-> & L'). rewrite text_chars in L'.
        assert (In x ds) as Ix by (rewrite E; apply in_elt). destruct (CO _ _ _ _ _ _ _ Ix Ix L' L) as (E1 & E2). cbn [Conn.d_uri Conn.d_file Conn.d_table]. now rewrite E1, E2.
      * exfalso. apply (first_in _ _ FE (Conn.mkDesc (chars i) (chars u) (chars t) (df_path x))); [|reflexivity]. apply listed_iff. rewrite !text_chars. auto.
    + intros i NL. rewrite GD. rewrite first_none; [reflexivity|]. intros [i' u t p] I E. cbn [Conn.d_id] in E. subst i'. apply IN in I.
      destruct I as (y & Iy & _ & Ly). rewrite text_chars in Ly. exact (NL _ _ _ Iy Ly).
Qed.

(** ** Examples *)

Definition txt (s : string) : Xml.bytes := map N_of_ascii (list_ascii_of_string s).

(** Not in the code: a document as a file, to have files for the examples. *)
Definition write_attrs (a : list (Xml.bytes * Xml.bytes)) : Xml.bytes :=
  flat_map (fun nv => [32] ++ fst nv ++ [61; 34] ++ snd nv ++ [34]) a.
Fixpoint write (e : Xml.xml) : Xml.bytes :=
  match e with
  | Xml.El n a k => [60] ++ n ++ write_attrs a ++ [62] ++ flat_map write k ++ [60; 47] ++ n ++ [62]
  | _ => []
  end.
Definition simple_name (w : Xml.bytes) : bool :=
  match w with [] => false | c :: r => ((65 <=? c) && (c <=? 90) || (97 <=? c) && (c <=? 122)) && forallb (fun c => (65 <=? c) && (c <=? 90) || (97 <=? c) && (c <=? 122) || (c =? 95)) r end.
Definition simple_text (w : Xml.bytes) : bool := forallb (fun c => (32 <=? c) && (c <? 127) && negb ((c =? 38) || (c =? 60) || (c =? 34))) w.
Fixpoint simple (e : Xml.xml) : bool :=
  match e with
  | Xml.El n a k => simple_name n && forallb (fun nv => simple_name (fst nv) && simple_text (snd nv)) a && forallb simple k
  | _ => false
  end.

Lemma simple_is_name w : simple_name w = true -> XmlSpec.is_name w.
Proof.
  destruct w as [|c r]; [discriminate|]. cbn [simple_name]. intros H. apply andb_prop in H. destruct H as (A & B). exists c, r. split; [reflexivity|].
  split; [unfold XmlSpec.name_start; lia|]. rewrite forallb_forall in B. apply Forall_forall. intros x I. specialize (B x I). left. unfold XmlSpec.name_start. lia.
Qed.
Lemma simple_attr w : simple_text w = true -> XmlSpec.attr_text 34 w w.
Proof.
  induction w as [|c w IH]; intros H; [constructor|]. cbn [simple_text forallb] in H. apply andb_prop in H. destruct H as (A & B). apply XmlSpec.at_char; try lia. now apply IH.
Qed.
Lemma simple_attrs a : forallb (fun nv => simple_name (fst nv) && simple_text (snd nv)) a = true -> XmlSpec.attrs a (write_attrs a).
Proof.
  induction a as [|(n, v) a IH]; intros H; [constructor|]. cbn [forallb fst snd] in H. apply andb_prop in H. destruct H as (A & B). apply andb_prop in A. destruct A as (A1 & A2).
  change (write_attrs ((n, v) :: a)) with (([32] ++ n ++ [61; 34] ++ v ++ [34]) ++ write_attrs a).
  replace (([32] ++ n ++ [61; 34] ++ v ++ [34]) ++ write_attrs a) with ([32] ++ n ++ [] ++ [61] ++ [] ++ [34] ++ v ++ [34] ++ write_attrs a)
    by (repeat (rewrite <- app_assoc; cbn [app]); reflexivity).
  apply XmlSpec.attrs_more; [repeat constructor; unfold XmlSpec.space; auto|discriminate|now apply simple_is_name|constructor|constructor|now left|now apply simple_attr|now apply IH].
Qed.
Lemma written : forall e, simple e = true -> XmlSpec.element e (write e).
Proof.
  apply (xml_ind3 (fun e => simple e = true -> XmlSpec.element e (write e))); try discriminate.
  intros n a k F H. cbn [simple] in H. apply andb_prop in H. destruct H as (H & K). apply andb_prop in H. destruct H as (N & A). cbn [write].
  change ([60] ++ n ++ write_attrs a ++ [62] ++ flat_map write k ++ [60; 47] ++ n ++ [62])
    with ([60] ++ n ++ write_attrs a ++ [] ++ [62] ++ flat_map write k ++ [60; 47] ++ n ++ [] ++ [62]).
  apply XmlSpec.element_full; [now apply simple_is_name|now apply simple_attrs|constructor| |constructor].
  clear - F K. induction F as [|e k E F IH]; cbn [flat_map]; [constructor|]. cbn [forallb] in K. apply andb_prop in K. destruct K as (K1 & K2).
  apply XmlSpec.content_element; auto.
Qed.
Lemma written_file e : simple e = true -> XmlSpec.well_formed e (write e).
Proof.
  intros H. exists [], [], [], [], (write e), []. rewrite app_nil_r. repeat split; try constructor; auto using written.
Qed.
Lemma ascii_file w : forallb (fun c => c <? 128) w = true -> XmlSpec.in_utf8 w.
Proof. intros H. left. rewrite forallb_forall in H. apply Forall_forall. intros c I. specialize (H c I). lia. Qed.

Definition at_ (l : list (string * string)) : list (Xml.bytes * Xml.bytes) := map (fun nv => (txt (fst nv), txt (snd nv))) l.
Definition el (n : string) (l : list (string * string)) (k : list Xml.xml) : Xml.xml := Xml.El (txt n) (at_ l) k.

(** a table with a module, and the module *)
Definition board : Xml.xml := el "node" [("id", "TOP")]%string
  [el "node" [("id", "A"); ("address", "0x10")]%string []; el "node" [("id", "B"); ("module", "file://sub.xml"); ("address", "0x100")]%string []].
Definition sub : Xml.xml := el "node" []%string [el "node" [("id", "C"); ("address", "0x2"); ("permission", "r")]%string []].
(** the same with the attributes in another order and foreign elements *)
Definition board' : Xml.xml := el "node" [("id", "TOP")]%string
  [el "remark" [("by", "me")]%string []; el "node" [("address", "0x10"); ("id", "A")]%string [];
   el "node" [("module", "file://sub.xml"); ("address", "0x100"); ("id", "B")]%string [el "note" [] []]].

Definition the_disk (b s : Xml.bytes) : disk := fun prot path f =>
  if String.eqb prot "file" then
    if String.eqb f "board.xml" then [("/etc/board.xml"%string, b)]
    else if String.eqb f "sub.xml" then [("/etc/sub.xml"%string, s)] else []
  else [].

Definition conns : Xml.xml := el "connections" []
  [el "connection" [("id", "dev"); ("uri", "ipbusudp-2.0://host:50001"); ("address_table", "file://board.xml")]%string [];
   el "connection" [("id", "no"); ("uri", "ipbusudp-2.0://host:50002")]%string []].
Definition txt_ (s : string) : Uri.str := list_ascii_of_string s.
Definition the_conns : list desc_file := [(txt_ "file/etc/c.xml", txt_ "/etc/c.xml", write conns, conns)]%string.
Definition no_class (s : string) : bool := false.
Definition of_tree (r : bres node) : list (string * N) :=
  match r with
  | BOk t => flat_map (fun p => match get t p with Some n => [(a_id (n_at n), a_addr (n_at n))] | None => [] end) [[]; [0%nat]; [1%nat]; [1%nat; 0%nat]]
  | _ => []
  end.
Definition of_device (r : device) : string * list (string * N) :=
  match r with DDevice u t => (u, of_tree t) | _ => (EmptyString, []) end.

Ltac name_ok := vm_compute; repeat (apply Forall_cons; [split; [intros X; repeat (destruct X as [X|X]; [discriminate X|]); exact X|split; reflexivity]|]); apply Forall_nil.

Lemma board_name : xml_name "/etc/board.xml".
Proof. exists (list_ascii_of_string "/etc/board"), "x"%char, "m"%char, "l"%char, []. split; [reflexivity|]. cbn. tauto. Qed.

Lemma board_expr : expression "file" "board.xml" "file://board.xml".
Proof. split; [reflexivity|]. split; [discriminate|]. split; name_ok. Qed.

(** all hypotheses of C115_file, C115_element and C115_tree, and the tree *)
Example C115_tree_case : let d := the_disk (write board) (write sub) in
  sort_ok Prop_Builder.sort_nodes /\ expression "file" "board.xml" "file://board.xml" /\
  d "file"%string "/etc/c.xml"%string "board.xml"%string = [("/etc/board.xml"%string, write board)] /\ xml_name "/etc/board.xml" /\
  XmlSpec.well_formed board (write board) /\ XmlSpec.in_utf8 (write board) /\ called "node" board /\
  of_tree (tree_from d Prop_Builder.sort_nodes no_class 2 "/etc/c.xml" "file://board.xml") =
    [("TOP", 0); ("A", 16); ("B", 256); ("C", 258)]%string.
Proof.
  intros d. split; [exact Prop_Builder.sort_nodes_ok|]. split; [exact board_expr|]. split; [reflexivity|]. split; [exact board_name|].
  split; [apply written_file; vm_compute; reflexivity|]. split; [apply ascii_file; vm_compute; reflexivity|].
  split; [apply called_iff; vm_compute; reflexivity|]. vm_compute. reflexivity.
Qed.

(** a name that finds two tables, and one that finds none but a broken file *)
Definition two_disk : disk := fun prot path f =>
  if String.eqb f "*" then [("/etc/board.xml"%string, write board); ("/etc/README"%string, txt "<"); ("/etc/sub.xml"%string, write sub)]
  else [("/etc/broken.xml"%string, txt "<node>")].

Example C115_count_case :
  (expression "file" "*" "file://*" /\
   Forall (fun y => harmless (fst y) (snd y) \/ exists x, is_table (fst y) (snd y) x) (two_disk "file"%string "/etc/c.xml"%string "*"%string) /\
   forall l1 q file l2, two_disk "file"%string "/etc/c.xml"%string "*"%string = l1 ++ (q, file) :: l2 -> (exists x, is_table q file x) ->
     Exists (fun y => exists x, is_table (fst y) (snd y) x) (l1 ++ l2)) /\
  (expression "file" "b" "file://b" /\
   Forall (fun y => harmless (fst y) (snd y)) (two_disk "file"%string "/etc/c.xml"%string "b"%string)) /\
  tree_from two_disk Prop_Builder.sort_nodes no_class 2 "/etc/c.xml" "file://*" = BExc IncorrectAddressTableFileCount /\
  tree_from two_disk Prop_Builder.sort_nodes no_class 2 "/etc/c.xml" "file://b" = BExc IncorrectAddressTableFileCount.
Proof.
  assert (T1 : is_table "/etc/board.xml" (write board) (element_of board)) by (apply read_iff; vm_compute; reflexivity).
  assert (T2 : is_table "/etc/sub.xml" (write sub) (element_of sub)) by (apply read_iff; vm_compute; reflexivity).
  assert (T3 : forall x, ~ is_table "/etc/README" (txt "<") x) by (intros x T; apply read_iff in T; vm_compute in T; discriminate T).
  assert (T4 : forall x, ~ is_table "/etc/broken.xml" (txt "<node>") x) by (intros x T; apply read_iff in T; vm_compute in T; discriminate T).
  split; [|split; [|split; vm_compute; reflexivity]].
  - split; [split; [reflexivity|split; [discriminate|split; name_ok]]|]. change (two_disk "file"%string "/etc/c.xml"%string "*"%string) with [("/etc/board.xml"%string, write board); ("/etc/README"%string, txt "<"); ("/etc/sub.xml"%string, write sub)]. split.
    + constructor; [right; eexists; exact T1|]. constructor; [left; apply harmless_iff; [exact T3|vm_compute; reflexivity]|]. constructor; [right; eexists; exact T2|constructor].
    + intros l1 q file l2 E (x & T). destruct l1 as [|y1 [|y2 [|y3 l1]]].
      * injection E as <- <- <-. cbn [app]. right. left. eexists. exact T2.
      * injection E as <- <- <- <-. destruct (T3 x T).
      * injection E as <- <- <- <- <-. left. eexists. exact T1.
      * destruct l1; discriminate E.
  - split; [split; [reflexivity|split; [discriminate|split; name_ok]]|]. constructor; [|constructor]. apply harmless_iff; [exact T4|vm_compute; reflexivity].
Qed.

Lemma same_values a a' : (forall nm, assoc nm (ats_of a) = assoc nm (ats_of a')) -> forall nm v, value_of a nm v <-> value_of a' nm v.
Proof. intros H nm v. now rewrite <- !assoc_value, H. Qed.

Ltac values_ok := apply same_values; intros nm; vm_compute ats_of; cbn [assoc];
  repeat match goal with |- context [String.eqb nm ?s] => destruct (String.eqb_spec nm s); [subst nm; try reflexivity|] end; reflexivity.
Ltac called_ok := apply called_iff; vm_compute; reflexivity.
Ltac uncalled_ok := let C := fresh in intros C; apply called_iff in C; vm_compute in C; discriminate C.

Lemma boards_alike : alike board board'.
Proof.
  unfold board, board', el. apply alike_element; [reflexivity|]. apply alikes_right; [uncalled_ok|].
  apply alikes_both; [called_ok|called_ok| |].
  - apply alike_element; [values_ok|constructor].
  - apply alikes_both; [called_ok|called_ok| |constructor]. apply alike_element; [values_ok|]. apply alikes_right; [uncalled_ok|constructor].
Qed.

(** two disks with different files, as C115_layout requires *)
Example C115_layout_case : let d := the_disk (write board) (write sub) in let d' := the_disk (write board') (write sub) in
  write board <> write board' /\
  (forall prot path f, Forall2 (fun y y' => fst y = fst y' /\
     (snd y = snd y' \/
      exists e e', XmlSpec.well_formed e (snd y) /\ XmlSpec.in_utf8 (snd y) /\ XmlSpec.well_formed e' (snd y') /\ XmlSpec.in_utf8 (snd y') /\
                   (called "node" e <-> called "node" e') /\ alike e e'))
     (d prot path f) (d' prot path f)) /\
  of_tree (tree_from d' Prop_Builder.sort_nodes no_class 2 "/etc/c.xml" "file://board.xml") =
    [("TOP", 0); ("A", 16); ("B", 256); ("C", 258)]%string.
Proof.
  intros d d'. split; [intros E; apply (f_equal (@List.length N)) in E; vm_compute in E; discriminate E|]. split; [|vm_compute; reflexivity].
  intros prot path f. unfold d, d', the_disk. destruct (String.eqb prot "file"); [|constructor]. destruct (String.eqb f "board.xml").
  - constructor; [|constructor]. split; [reflexivity|]. right. exists board, board'. cbn [snd].
    split; [apply written_file; vm_compute; reflexivity|]. split; [apply ascii_file; vm_compute; reflexivity|].
    split; [apply written_file; vm_compute; reflexivity|]. split; [apply ascii_file; vm_compute; reflexivity|].
    split; [split; intros _; called_ok|exact boards_alike].
  - destruct (String.eqb f "sub.xml"); [|constructor]. constructor; [|constructor]. split; [reflexivity|now left].
Qed.

Lemma conns_listed i u t : listed conns i u t -> i = "dev"%string /\ u = "ipbusudp-2.0://host:50001"%string /\ t = "file://board.xml"%string.
Proof.
  intros L. assert (In (Conn.mkDesc (chars i) (chars u) (chars t) []) (flat_map (of_entry []) (connections [conns]))) as I by (apply listed_iff; rewrite !text_chars; auto).
  assert (flat_map (of_entry []) (connections [conns]) =
          [Conn.mkDesc (chars "dev") (chars "ipbusudp-2.0://host:50001") (chars "file://board.xml") []]) as E by (vm_compute; reflexivity).
  rewrite E in I. destruct I as [I|[]]. injection I as A B C. apply (f_equal text) in A, B, C. rewrite !text_chars in A, B, C. auto.
Qed.

(** a connection file, its device, and an entry that is not complete *)
Example C115_device_case : let d := the_disk (write board) (write sub) in
  Forall (fun x => XmlSpec.well_formed (snd x) (snd (fst x)) /\ XmlSpec.in_utf8 (snd (fst x))) the_conns /\ NoDup (map df_name the_conns) /\
  consistent the_conns /\ listed conns "dev" "ipbusudp-2.0://host:50001" "file://board.xml" /\ (forall u t, ~ listed conns "no" u t) /\
  of_device (get_device d Prop_Builder.sort_nodes no_class 2 (map fst the_conns) "dev") =
    ("ipbusudp-2.0://host:50001", [("TOP", 0); ("A", 16); ("B", 256); ("C", 258)])%string /\
  get_device d Prop_Builder.sort_nodes no_class 2 (map fst the_conns) "no" = DUnknown.
Proof.
  intros d. split; [constructor; [|constructor]; cbn [fst snd]; split; [apply written_file|apply ascii_file]; vm_compute; reflexivity|].
  split; [constructor; [intros []|constructor]|].
  split.
  { intros x y i u t u' t' [<-|[]] [<-|[]] L L'. cbn [snd] in L, L'. apply conns_listed in L, L'. intuition congruence. }
  split.
  { assert (In (Conn.mkDesc (chars "dev") (chars "ipbusudp-2.0://host:50001") (chars "file://board.xml") []) (flat_map (of_entry []) (connections [conns]))) as I by (vm_compute; auto).
    apply listed_iff in I. rewrite !text_chars in I. apply I. }
  split; [intros u t L; apply conns_listed in L; destruct L as (L & _); discriminate L|].
  split; vm_compute; reflexivity.
Qed.

(** ** What is silently left out *)

Fixpoint ids (t : node) : list string := match t with Node a _ ch => a_id a :: flat_map ids ch end.
Lemma get_ids : forall p t n, get t p = Some n -> In (a_id (n_at n)) (ids t).
Proof.
  induction p as [|i p IH]; intros [a m ch] n G; cbn [get] in G; [injection G as <-; cbn; auto|]. cbn [ids In]. right. cbn [n_ch] in G.
  destruct (nth_error ch i) as [c|] eqn:E; [|discriminate]. apply in_flat_map. exists c. split; [eapply nth_error_In; exact E|now apply IH].
Qed.

(** A misspelt name: the element is left out without an exception, although
    attributes that are misspelt are reported. *)
Definition misspelt : Xml.xml := el "node" [] [el "node" [("id", "A")]%string []; el "Node" [("id", "B"); ("address", "0x4")]%string []].

Theorem C115_dropped_refuted : exists d e file n a k t,
  d "file"%string "/etc/c.xml"%string "board.xml"%string = [("/etc/board.xml"%string, file)] /\
  XmlSpec.well_formed e file /\ XmlSpec.in_utf8 file /\
  (exists n0 a0 k0, e = Xml.El n0 a0 k0 /\ In (Xml.El n a k) k0) /\ value_of a "id" "B" /\
  tree_from d Prop_Builder.sort_nodes no_class 2 "/etc/c.xml" "file://board.xml" = BOk t /\
  forall p m, get t p = Some m -> a_id (n_at m) <> "B"%string.
Proof.
  exists (the_disk (write misspelt) []), misspelt, (write misspelt). unfold misspelt at 4, el.
  eexists. exists (at_ [("id", "B"); ("address", "0x4")]%string). eexists. eexists.
  split; [reflexivity|]. split; [apply written_file; vm_compute; reflexivity|]. split; [apply ascii_file; vm_compute; reflexivity|].
  split; [eexists; eexists; eexists; split; [reflexivity|right; left; reflexivity]|].
  split; [apply assoc_value; vm_compute; reflexivity|]. split; [vm_compute; reflexivity|].
  intros p m G E. apply get_ids in G. rewrite E in G. vm_compute in G. repeat (destruct G as [G|G]; [discriminate G|]). exact G.
Qed.

(** Two elements on top, which is not XML: only the first counts. *)
Theorem C115_second_refuted : exists d file t,
  d "file"%string "/etc/c.xml"%string "board.xml"%string = [("/etc/board.xml"%string, file)] /\
  (forall e, XmlSpec.in_utf8 file -> ~ XmlSpec.well_formed e file) /\ XmlSpec.in_utf8 file /\
  (exists e e', Xml.open_xml file = Xml.Document [e; e'] /\ called "node" e /\ called "node" e') /\
  tree_from d Prop_Builder.sort_nodes no_class 2 "/etc/c.xml" "file://board.xml" = BOk t /\ ids t = [""; "A"]%string.
Proof.
  set (e := el "node" [] [el "node" [("id", "A")]%string []]). set (e' := el "node" [] [el "node" [("id", "B")]%string []]).
  exists (the_disk (write e ++ write e') []), (write e ++ write e'). eexists.
  assert (Xml.open_xml (write e ++ write e') = Xml.Document [e; e']) as O by (vm_compute; reflexivity).
  split; [reflexivity|]. split; [intros e0 U W; rewrite (XmlRound3.open_at e0 _ W U) in O; discriminate O|].
  split; [apply ascii_file; vm_compute; reflexivity|]. split; [exists e, e'; split; [exact O|split; called_ok]|].
  split; vm_compute; reflexivity.
Qed.

(** A copy that an editor has left, "board.xml~", is taken for an address table. *)
Theorem C115_name_refuted : exists path file x, is_table path file x /\ forall stem, path <> (stem ++ ".xml")%string.
Proof.
  exists "/etc/board.xml~"%string, (write board), (element_of board). split.
  - apply read_iff. vm_compute. reflexivity.
  - intros stem E. assert (last (list_ascii_of_string (stem ++ ".xml")) " "%char = "l"%char) as L.
    { clear. induction stem as [|c s IH]; [reflexivity|]. change (list_ascii_of_string (String c s ++ ".xml")) with (c :: list_ascii_of_string (s ++ ".xml")).
      destruct (list_ascii_of_string (s ++ ".xml")) as [|y l]; [discriminate IH|exact IH]. }
    rewrite <- E in L. vm_compute in L. discriminate L.
Qed.

Print Assumptions C115_file.
Print Assumptions C115_count.
Print Assumptions C115_element.
Print Assumptions C115_tree.
Print Assumptions C115_layout.
Print Assumptions C115_device.
Print Assumptions C115_dropped_refuted.
Print Assumptions C115_second_refuted.
Print Assumptions C115_name_refuted.
