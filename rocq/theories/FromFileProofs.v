(** Lemmas about FromFile.v. *)
From Coq Require Import NArith List Bool String Ascii Lia PeanoNat.
From Verif Require Import NodeTree Rules Builder Table FromFile FromFileSpec.
From Verif Require Xml XmlSpec XmlRound3 Uri Conn BuilderProofs Prop_Conn Prop_Uri.
Import ListNotations.

Scheme means_ind2 := Minimality for means Sort Prop
  with mean_ind2 := Minimality for mean Sort Prop.
Scheme alike_ind2 := Minimality for alike Sort Prop
  with alikes_ind2 := Minimality for alikes Sort Prop.

Lemma xml_ind3 (P : Xml.xml -> Prop) : (forall n a k, Forall P k -> P (Xml.El n a k)) ->
  (forall w, P (Xml.Tx w)) -> (forall w, P (Xml.Cd w)) -> forall e, P e.
Proof. intros H H1 H2. fix IH 1. intros [n a k|w|w]; [|apply H1|apply H2]. apply H. induction k; constructor; auto. Qed.

(** ** Strings *)

Lemma text_chars s : text (chars s) = s.
Proof. apply string_of_list_ascii_of_string. Qed.
Lemma chars_text l : chars (text l) = l.
Proof. apply list_ascii_of_string_of_list_ascii. Qed.

Lemma reads_iff w s : reads w s <-> string_of w = s.
Proof.
  unfold reads, string_of, str_of. split; intros H.
  - rewrite H. apply text_chars.
  - rewrite <- H. unfold text. now rewrite list_ascii_of_string_of_list_ascii.
Qed.

Lemma called_iff nm e : called nm e <-> named nm e = true.
Proof.
  unfold called. destruct e as [n a k|w|w]; cbn [named]; split; try discriminate; try (intros (n' & a' & k' & E & _); discriminate).
  - intros (n' & a' & k' & E & R). injection E as <- <- <-. apply reads_iff in R. rewrite R. apply String.eqb_refl.
  - intros E. apply String.eqb_eq in E. exists n, a, k. split; [reflexivity|]. apply reads_iff. congruence.
Qed.
Lemma uncalled nm e : ~ called nm e -> named nm e = false.
Proof. intros H. destruct (named nm e) eqn:E; [|reflexivity]. exfalso. apply H. now apply called_iff. Qed.

(** ** Attributes *)

Lemma assoc_value a nm v : assoc nm (ats_of a) = Some v <-> value_of a nm v.
Proof.
  induction a as [|(n, w) a IH].
  - cbn. split; [discriminate|]. intros (a1 & n & w & a2 & E & _). destruct a1; discriminate.
  - change (ats_of ((n, w) :: a)) with ((string_of n, string_of w) :: ats_of a). cbn [assoc]. destruct (String.eqb_spec nm (string_of n)) as [E|E].
    + split.
      * intros H. injection H as <-. exists [], n, w, a. split; [reflexivity|]. repeat split; [now apply reads_iff|now apply reads_iff|constructor].
      * intros (a1 & n' & w' & a2 & X & R1 & R2 & F). destruct a1 as [|y a1].
        -- injection X as -> -> ->. apply reads_iff in R2. now rewrite R2.
        -- injection X as <- ->. inversion F as [|? ? Z _]; subst. exfalso. apply Z. cbn [fst]. now apply reads_iff.
    + rewrite IH. split; intros (a1 & n' & w' & a2 & X & R1 & R2 & F).
      * exists ((n, w) :: a1), n', w', a2. split; [now rewrite X|]. repeat split; try assumption. constructor; [|exact F]. cbn [fst]. rewrite reads_iff. congruence.
      * destruct a1 as [|y a1].
        -- injection X as -> -> ->. apply reads_iff in R1. congruence.
        -- injection X as <- ->. inversion F; subst. exists a1, n', w', a2. auto.
Qed.

Lemma assoc_same a a' : (forall nm v, value_of a nm v <-> value_of a' nm v) -> forall nm, assoc nm (ats_of a) = assoc nm (ats_of a').
Proof.
  intros H nm. destruct (assoc nm (ats_of a)) as [v|] eqn:E.
  - symmetry. apply assoc_value, H, assoc_value, E.
  - destruct (assoc nm (ats_of a')) as [v|] eqn:E'; [|reflexivity]. apply assoc_value, H, assoc_value in E'. congruence.
Qed.

Lemma assoc_in {A} (l : list (string * A)) s : In s (map fst l) <-> assoc s l <> None.
Proof.
  induction l as [|(k, v) l IH]; cbn [map fst In assoc]; [tauto|]. destruct (String.eqb_spec s k) as [->|E].
  - split; [discriminate|auto].
  - rewrite <- IH. split; [intros [H|H]; [congruence|exact H]|auto].
Qed.

(** ** Elements of equal meaning *)

Inductive eqv : xml -> xml -> Prop :=
| eqv_xml l l' xs ys : (forall n, assoc n l = assoc n l') -> Forall2 eqv xs ys -> eqv (Xml l xs) (Xml l' ys).

Notation kids := (flat_map (fun c => if named "node" c then [element_of c] else [])).

Lemma means_is e x : means e x -> x = element_of e.
Proof.
  revert e x. apply (means_ind2 (fun e x => x = element_of e) (fun k xs => xs = kids k)).
  - intros n a k l xs F _ ->. cbn [element_of]. f_equal. unfold ats_of. induction F as [|(u, v) (u', v') a l (R1 & R2) F IH]; [reflexivity|].
    cbn [map]. rewrite <- IH. cbn [fst snd] in *. apply reads_iff in R1, R2. now rewrite R1, R2.
  - reflexivity.
  - intros e k xs H _ ->. cbn [flat_map]. now rewrite (uncalled _ _ H).
  - intros e k x xs H _ -> _ ->. cbn [flat_map]. apply called_iff in H. now rewrite H.
Qed.

Lemma means_of : forall e, match e with Xml.El _ _ _ => means e (element_of e) | _ => True end.
Proof.
  apply xml_ind3; auto. intros n a k F. cbn [element_of]. constructor.
  - unfold ats_of. induction a as [|(u, v) a IH]; cbn [map]; constructor; [|exact IH]. split; now apply reads_iff.
  - induction F as [|e k H F IH]; cbn [flat_map]; [constructor|]. destruct (named "node" e) eqn:E.
    + apply called_iff in E. cbn [app]. constructor; [exact E| |exact IH]. destruct E as (n' & a' & k' & -> & _). exact H.
    + cbn [app]. constructor; [|exact IH]. intros C. apply called_iff in C. congruence.
Qed.

Lemma alike_eqv e e' : alike e e' -> eqv (element_of e) (element_of e').
Proof.
  revert e e'. apply (alike_ind2 (fun e e' => eqv (element_of e) (element_of e')) (fun k k' => Forall2 eqv (kids k) (kids k'))).
  - intros n a k n' a' k' H _ F. cbn [element_of]. constructor; [now apply assoc_same|exact F].
  - constructor.
  - intros e k k' H _ F. cbn [flat_map]. rewrite (uncalled _ _ H). exact F.
  - intros e k k' H _ F. cbn [flat_map]. rewrite (uncalled _ _ H). exact F.
  - intros e e' k k' H H' _ IH _ F. cbn [flat_map]. apply called_iff in H, H'. rewrite H, H'. cbn [app]. now constructor.
Qed.

(** ** The rules look at the set of names *)

Lemma hash_none hs : forall l acc, attr_hash hs acc l = None <-> exists s, In s l /\ assoc s hs = None.
Proof.
  induction l as [|s l IH]; intros acc; cbn [attr_hash]; [split; [discriminate|intros (s & [] & _)]|].
  destruct (assoc s hs) as [h|] eqn:E.
  - rewrite IH. split; intros (s' & I & A); exists s'; cbn [In] in *; [auto|]. destruct I as [<-|I]; [congruence|auto].
  - split; [intros _; exists s; cbn; auto|reflexivity].
Qed.

Definition bit (hs : list (string * N)) (i : N) (s : string) : bool := match assoc s hs with Some b => N.testbit b i | None => false end.
Lemma hash_some hs : forall l acc h, attr_hash hs acc l = Some h -> forall i, N.testbit h i = N.testbit acc i || existsb (bit hs i) l.
Proof.
  induction l as [|s l IH]; intros acc h E i; cbn [attr_hash existsb] in *; [injection E as <-; now rewrite orb_false_r|].
  unfold bit at 1. destruct (assoc s hs) as [b|]; [|discriminate]. rewrite (IH _ _ E i), N.lor_spec. now rewrite orb_assoc.
Qed.

Lemma existsb_same {A} (f : A -> bool) l l' : (forall s, In s l <-> In s l') -> existsb f l = existsb f l'.
Proof.
  intros H. destruct (existsb f l) eqn:E; symmetry.
  - apply existsb_exists in E. destruct E as (s & I & F). apply existsb_exists. exists s. split; [now apply H|exact F].
  - apply not_true_is_false. intros E'. apply existsb_exists in E'. destruct E' as (s & I & F). apply H in I.
    assert (existsb f l = true) by (apply existsb_exists; exists s; auto). congruence.
Qed.

Lemma parse_same p l l' : (forall s, In s l <-> In s l') -> parse p l = parse p l'.
Proof.
  intros H. unfold parse. assert (attr_hash (p_hashes p) 0 l = attr_hash (p_hashes p) 0 l') as ->.
  { destruct (attr_hash (p_hashes p) 0 l) as [h|] eqn:E; destruct (attr_hash (p_hashes p) 0 l') as [h'|] eqn:E'; try reflexivity.
    - f_equal. apply N.bits_inj. intros i. rewrite (hash_some _ _ _ _ E i), (hash_some _ _ _ _ E' i). f_equal. now apply existsb_same.
    - exfalso. apply hash_none in E'. destruct E' as (s & I & A). assert (attr_hash (p_hashes p) 0 l = None) by (apply hash_none; exists s; split; [now apply H|exact A]). congruence.
    - exfalso. apply hash_none in E. destruct E as (s & I & A). assert (attr_hash (p_hashes p) 0 l' = None) by (apply hash_none; exists s; split; [now apply H|exact A]). congruence. }
  destruct (attr_hash _ 0 l') as [h|]; [|reflexivity]. destruct (passed h 0 (p_rules p)) as [|y ps]; [|reflexivity].
  destruct l as [|s l]; destruct l' as [|s' l']; try reflexivity.
  - destruct (proj2 (H s')); cbn; auto.
  - destruct (proj1 (H s)); cbn; auto.
Qed.

(** ** The builder *)

Section Build.
Variable is_class : string -> bool.
Notation element := (element grammar_pars grammar_fw is_class).

Lemma element_same load load' : (forall p e, load p e = load' p e) ->
  forall x y path req, eqv x y -> element load path req x = element load' path req y.
Proof.
  intros L. apply (BuilderProofs.xml_ind2 (fun x => forall y path req, eqv x y -> element load path req x = element load' path req y)).
  intros l xs IH y path req Q. inversion Q as [l0 l' xs0 ys A F]; subst. cbn [Builder.element].
  assert (AA : forall n, attribute (Xml l xs) n = attribute (Xml l' ys) n) by (intros n; exact (A n)).
  destruct (if req then node_parser else top_parser) as [p|]; [|reflexivity]. cbn [x_ats].
  rewrite (parse_same p (map fst l) (map fst l')) by (intros s; rewrite !assoc_in, A; reflexivity).
  destruct (parse p (map fst l')) as [[|[|k]]| | | |]; try reflexivity.
  - assert (plain_attrs grammar_pars grammar_fw path req (Xml l xs) = plain_attrs grammar_pars grammar_fw path req (Xml l' ys)) as ->.
    { unfold plain_attrs, set_uid, set_addr, set_fw, set_pars, set_desc, set_tags, set_class, set_perm, set_mode_size, attr_u32, attr_str. rewrite !AA. reflexivity. }
    destruct (plain_attrs grammar_pars grammar_fw path req (Xml l' ys)) as [a|e|]; cbn [bind]; try reflexivity.
    assert (mapM (element load path true) xs = mapM (element load' path true) ys) as M.
    { clear - F IH. revert IH. induction F as [|x y xs ys Q F IHF]; intros IH; [reflexivity|]. inversion IH; subst. cbn [mapM].
      assert (element load path true x = element load' path true y) as -> by auto. change ((fix go l := match l with [] => BOk [] | x :: r => bind (element load path true x) (fun y => bind (go r) (fun ys => BOk (y :: ys))) end) xs) with (mapM (element load path true) xs).
      rewrite IHF by assumption. reflexivity. }
    destruct (mode_eqb (a_mode a) NON_INCREMENTAL); [destruct F; reflexivity|]. rewrite M. reflexivity.
  - unfold mask_node. cbn [x_ch]. destruct F as [|x y xs ys Q' F]; [|reflexivity].
    unfold set_uid, set_addr, set_fw, set_pars, set_desc, set_tags, set_class, set_perm, set_mask, attr_u32, attr_str. rewrite !AA. reflexivity.
  - unfold attr_str. rewrite !AA, L.
    destruct (load' path _) as [t|e|]; cbn [bind]; try reflexivity.
    unfold module_attrs, set_uid, set_addr, set_fw, set_pars, set_desc, set_tags, set_class, attr_u32, attr_str. rewrite !AA. reflexivity.
Qed.

Lemma tree_same sort files files' :
  (forall path expr, match files path expr, files' path expr with
                     | Some (p, x), Some (p', x') => p = p' /\ eqv x x'
                     | None, None => True
                     | _, _ => False
                     end) ->
  forall fuel path expr, get_node_tree grammar_pars grammar_fw files sort is_class fuel path expr =
                         get_node_tree grammar_pars grammar_fw files' sort is_class fuel path expr.
Proof.
  intros H. induction fuel as [|f IH]; intros path expr; [reflexivity|]. cbn [get_node_tree]. specialize (H path expr).
  destruct (files path expr) as [(p, x)|]; destruct (files' path expr) as [(p', x')|]; try contradiction; [|reflexivity].
  destruct H as (<- & Q). unfold build. now rewrite (element_same _ _ IH _ _ p false Q).
Qed.
End Build.

(** ** Files *)

Lemma well_formed_el e file : XmlSpec.well_formed e file -> (exists n a k, e = Xml.El n a k) /\ exists c r, file = c :: r.
Proof.
  intros (bom & m1 & dt & m2 & we & m3 & -> & _ & _ & _ & _ & E & _). split; [destruct E; eauto|].
  assert (exists c r, we = c :: r) as (c & r & ->) by (destruct E; eexists; eexists; reflexivity).
  destruct bom; cbn [app]; eauto. destruct m1; cbn [app]; eauto. destruct dt; cbn [app]; eauto. destruct m2; cbn [app]; eauto.
Qed.

Lemma read_formed path file e : XmlSpec.well_formed e file -> XmlSpec.in_utf8 file ->
  read_table path file = if String.eqb (extension path) ".xml" then if named "node" e then RTable (element_of e) else RNothing else RNothing.
Proof.
  intros W U. unfold read_table. destruct (String.eqb (extension path) ".xml"); [|reflexivity].
  destruct (proj2 (well_formed_el _ _ W)) as (c & r & E). rewrite E at 1. rewrite (XmlRound3.open_at e file W U).
  unfold all_named. cbn [filter]. destruct (named "node" e); reflexivity.
Qed.

(** ** Connection files *)

Definition of_entry (path : Uri.str) (e : Conn.centry) : list Conn.cdesc :=
  match Conn.e_id e, Conn.e_uri e, Conn.e_table e with
  | Some i, Some u, Some tb => [Conn.mkDesc i u tb path]
  | _, _, _ => []
  end.

Lemma listed_iff e path i u t f :
  In (Conn.mkDesc i u t f) (flat_map (of_entry path) (connections [e])) <-> f = path /\ listed e (text i) (text u) (text t).
Proof.
  rewrite in_flat_map. split.
  - intros (c & I & D). unfold connections, all_named in I. cbn [filter] in I. destruct (named "connections" e) eqn:NE; [|destruct I].
    cbn [flat_map] in I. rewrite app_nil_r in I. destruct e as [n a k|w|w]; [|discriminate NE|discriminate NE].
    apply in_map_iff in I. destruct I as (x & EC & I). apply filter_In in I. destruct I as (I & NX). destruct x as [n' a' k'|w|w]; [|discriminate NX|discriminate NX].
    subst c. unfold of_entry in D. cbn [Conn.e_id Conn.e_uri Conn.e_table] in D.
    destruct (assoc "id" (ats_of a')) as [vi|] eqn:Ei; [|destruct D]. destruct (assoc "uri" (ats_of a')) as [vu|] eqn:Eu; [|destruct D].
    destruct (assoc "address_table" (ats_of a')) as [vt|] eqn:Et; [|destruct D]. cbn [option_map] in D. destruct D as [D|[]]. injection D as <- <- <- <-.
    split; [reflexivity|]. rewrite !text_chars. apply called_iff in NE. apply called_iff in NX. destruct NE as (n0 & a0 & k0 & E0 & R0). injection E0 as <- <- <-.
    destruct NX as (n1 & a1 & k1 & E1 & R1). injection E1 as <- <- <-. exists n, a, k, n', a', k'. repeat split; try assumption; now apply assoc_value.
  - intros (-> & n & a & k & n' & a' & k' & -> & R & I & R' & Vi & Vu & Vt). apply assoc_value in Vi, Vu, Vt.
    exists (Conn.mkEnt (Some i) (Some u) (Some t)). split; [|left; reflexivity].
    unfold connections, all_named. cbn [filter]. assert (named "connections" (Xml.El n a k) = true) as -> by (apply called_iff; exists n, a, k; auto).
    cbn [flat_map]. rewrite app_nil_r. apply in_map_iff. exists (Xml.El n' a' k'). split; [|apply filter_In; split; [exact I|apply called_iff; exists n', a', k'; auto]].
    rewrite Vi, Vu, Vt. cbn [option_map]. now rewrite !chars_text.
Qed.

Lemma formed_entries e name path file : XmlSpec.well_formed e file -> XmlSpec.in_utf8 file ->
  connection_file name path file = Conn.mkFile name path (Some (connections [e])).
Proof.
  intros W U. pose proof (XmlRound3.open_at e file W U) as O. destruct (proj2 (well_formed_el _ _ W)) as (c & r & ->). unfold connection_file. now rewrite O.
Qed.

(** the entries of several files, all of different names *)
Definition desc_file := (Uri.str * Uri.str * Xml.bytes * Xml.xml)%type.
Definition df_name (d : desc_file) : Uri.str := fst (fst (fst d)).
Definition df_path (d : desc_file) : Uri.str := snd (fst (fst d)).

Lemma entries_of : forall (ds : list desc_file) seen, Forall (fun d => XmlSpec.well_formed (snd d) (snd (fst d)) /\ XmlSpec.in_utf8 (snd (fst d))) ds ->
  NoDup (map df_name ds) -> (forall d, In d ds -> ~ In (df_name d) seen) ->
  Prop_Conn.entries seen (map (fun c => connection_file (fst (fst c)) (snd (fst c)) (snd c)) (map fst ds)) =
  flat_map (fun d => flat_map (of_entry (df_path d)) (connections [snd d])) ds.
Proof.
  induction ds as [|(((nm, p), file), e) ds IH]; intros seen F ND NS; [reflexivity|]. inversion F as [|? ? (W & U) F']; subst. cbn [fst snd] in W, U.
  cbn [map fst snd]. rewrite (formed_entries e nm p file W U). cbn [Prop_Conn.entries Conn.f_name Conn.f_body Conn.f_path].
  destruct (in_dec (list_eq_dec ascii_dec) nm seen) as [I|I]; [exfalso; apply (NS _ (or_introl eq_refl)); exact I|].
  inversion ND as [|? ? N1 ND']; subst. cbn [flat_map snd]. f_equal. apply IH; [exact F'|exact ND'|].
  intros d I' [X|X]; [|apply (NS d (or_intror I')); exact X]. apply N1. cbn. change (nm = df_name d) in X. unfold df_name at 1. cbn [fst]. rewrite X. now apply in_map.
Qed.

(** ** Names of files *)

Lemma file_name_none : forall p cur, ~ In "/"%char p -> file_name p cur = cur.
Proof. induction p as [|c p IH]; intros cur H; [reflexivity|]. cbn [file_name]. destruct (Ascii.eqb_spec c "/"); [subst; destruct H; cbn; auto|]. apply IH. cbn in H. tauto. Qed.

Lemma file_name_part : forall p cur, (~ In "/"%char p /\ file_name p cur = cur) \/
  exists p1 p2, p = (p1 ++ "/"%char :: p2) /\ ~ In "/"%char p2 /\ file_name p cur = p2.
Proof.
  induction p as [|c p IH]; intros cur; [left; auto|]. cbn [file_name]. destruct (Ascii.eqb_spec c "/") as [->|N].
  - right. destruct (IH p) as [(A & B)|(p1 & p2 & A & B & C)]; [exists [], p; auto|]. exists ("/"%char :: p1), p2. rewrite C. subst p. auto.
  - destruct (IH cur) as [(A & B)|(p1 & p2 & A & B & C)]; [left; split; [intros [X|X]; auto|exact B]|].
    right. exists (c :: p1), p2. subst p. auto.
Qed.

Lemma file_name_tail tail : ~ In "/"%char tail -> forall stem pre, exists s, file_name (stem ++ tail) (pre ++ stem ++ tail) = s ++ tail.
Proof.
  intros H. induction stem as [|c stem IH]; intros pre; cbn [app file_name].
  - exists pre. now apply file_name_none.
  - destruct (Ascii.eqb c "/"); [apply (IH [])|]. destruct (IH (pre ++ [c])) as (s & E). exists s. rewrite <- E. now rewrite <- app_assoc.
Qed.

Lemma from_dot_none : forall p cur, ~ In "."%char p -> from_dot p cur = cur.
Proof. induction p as [|c p IH]; intros cur H; [reflexivity|]. cbn [from_dot]. destruct (Ascii.eqb_spec c "."); [subst; destruct H; cbn; auto|]. apply IH. cbn in H. tauto. Qed.

Lemma from_dot_part : forall p cur, (~ In "."%char p /\ from_dot p cur = cur) \/
  exists p1 p2, p = (p1 ++ "."%char :: p2) /\ ~ In "."%char p2 /\ from_dot p cur = "."%char :: p2.
Proof.
  induction p as [|c p IH]; intros cur; [left; auto|]. cbn [from_dot]. destruct (Ascii.eqb_spec c ".") as [->|N].
  - right. destruct (IH ("."%char :: p)) as [(A & B)|(p1 & p2 & A & B & C)]; [exists [], p; auto|]. exists ("."%char :: p1), p2. rewrite C. subst p. auto.
  - destruct (IH cur) as [(A & B)|(p1 & p2 & A & B & C)]; [left; split; [intros [X|X]; auto|exact B]|].
    right. exists (c :: p1), p2. subst p. auto.
Qed.

Lemma from_dot_tail r cur : ~ In "."%char r -> forall s, from_dot (s ++ "."%char :: r) cur = "."%char :: r.
Proof.
  intros H s. revert cur. induction s as [|c s IH]; intros cur; cbn [app from_dot]; [|apply IH].
  change (Ascii.eqb "." ".") with true. cbv iota. now apply from_dot_none.
Qed.

Lemma lower_x c : lower c = "x"%char <-> (c = "x" \/ c = "X")%char.
Proof. split; [|intros [->| ->]; reflexivity]. destruct c as [[] [] [] [] [] [] [] []]; vm_compute; intros E; try discriminate E; auto. Qed.
Lemma lower_m c : lower c = "m"%char <-> (c = "m" \/ c = "M")%char.
Proof. split; [|intros [->| ->]; reflexivity]. destruct c as [[] [] [] [] [] [] [] []]; vm_compute; intros E; try discriminate E; auto. Qed.
Lemma lower_l c : lower c = "l"%char <-> (c = "l" \/ c = "L")%char.
Proof. split; [|intros [->| ->]; reflexivity]. destruct c as [[] [] [] [] [] [] [] []]; vm_compute; intros E; try discriminate E; auto. Qed.

Lemma extension_iff q : String.eqb (extension q) ".xml" = true <-> xml_name q.
Proof.
  rewrite String.eqb_eq. unfold extension, xml_name. fold (chars q). set (p := chars q). split.
  - destruct (_ || _); [discriminate|]. intros E. apply (f_equal chars) in E. rewrite chars_text in E. cbn in E.
    destruct (from_dot_part (file_name p p) []) as [(_ & Z)|(s & r & A & B & C)]; [rewrite Z in E; discriminate|].
    rewrite C in E. cbn [firstn map] in E. destruct r as [|x [|m [|l r]]]; try discriminate E. cbn [firstn map] in E.
    injection E as EX EM EL. apply lower_x in EX. apply lower_m in EM. apply lower_l in EL.
    assert (exists p1, p = p1 ++ file_name p p /\ ~ In "/"%char (file_name p p)) as (p1 & P & NS).
    { destruct (file_name_part p p) as [(N & Z)|(p1 & p2 & Z & N & W)]; [exists []; rewrite Z; auto|]. exists (p1 ++ ["/"%char]). rewrite W. rewrite <- app_assoc. auto. }
    rewrite A in P, NS. exists (p1 ++ s), x, m, l, r. rewrite <- app_assoc. repeat split; auto.
    + intros I. apply B. cbn. auto.
    + intros I. apply NS. apply in_or_app. right. cbn. auto 6.
  - intros (stem & x & m & l & r & P & X & M & L & ND & NS).
    assert (~ In "/"%char ("." :: x :: m :: l :: r)%char) as NT.
    { intros [E|[E|[E|[E|E]]]]; [discriminate E|destruct X; subst; discriminate|destruct M; subst; discriminate|destruct L; subst; discriminate|now apply NS]. }
    destruct (file_name_tail _ NT stem []) as (s & E). cbn [app] in E. rewrite <- P in E. rewrite E.
    assert (~ In "."%char (x :: m :: l :: r)) as NT'.
    { intros [F|[F|[F|F]]]; [destruct X; subst; discriminate|destruct M; subst; discriminate|destruct L; subst; discriminate|now apply ND]. }
    rewrite (from_dot_tail _ [] NT' s). cbn [firstn map]. apply lower_x in X. apply lower_m in M. apply lower_l in L. rewrite X, M, L.
    assert (4 <= List.length (s ++ "." :: x :: m :: l :: r)%char)%nat as LN by (rewrite app_length; cbn [List.length]; lia).
    destruct (String.eqb_spec (text (s ++ "." :: x :: m :: l :: r)%char) ".") as [F|_]; [apply (f_equal chars) in F; rewrite chars_text in F; rewrite F in LN; cbn in LN; lia|].
    destruct (String.eqb_spec (text (s ++ "." :: x :: m :: l :: r)%char) "..") as [F|_]; [apply (f_equal chars) in F; rewrite chars_text in F; rewrite F in LN; cbn in LN; lia|].
    reflexivity.
Qed.

(** ** Tables *)

Lemma find_first (k : list Xml.xml) : match all_named "node" k with
  | [] => Forall (fun y => ~ called "node" y) k
  | e :: _ => exists k1 k2, k = k1 ++ e :: k2 /\ Forall (fun y => ~ called "node" y) k1 /\ called "node" e
  end.
Proof.
  unfold all_named. induction k as [|y k IH]; cbn [filter]; [constructor|]. destruct (named "node" y) eqn:E.
  - exists [], k. repeat split; [constructor|now apply called_iff].
  - assert (~ called "node" y) as N by (rewrite called_iff; congruence).
    destruct (filter (named "node") k) as [|e r]; [constructor; assumption|]. destruct IH as (k1 & k2 & -> & F & C). exists (y :: k1), k2. auto.
Qed.

Lemma first_found k1 e k2 : Forall (fun y => ~ called "node" y) k1 -> called "node" e -> exists r, all_named "node" (k1 ++ e :: k2) = e :: r.
Proof.
  unfold all_named. intros F C. induction F as [|y k1 N F IH]; cbn [app filter].
  - apply called_iff in C. rewrite C. eauto.
  - rewrite (uncalled _ _ N). exact IH.
Qed.

Lemma read_iff q file x : read_table q file = RTable x <-> is_table q file x.
Proof.
  unfold read_table, is_table. rewrite <- extension_iff. destruct (String.eqb (extension q) ".xml"); [|split; [discriminate|intros (D & _); discriminate]].
  destruct file as [|c r]; [split; [discriminate|intros (_ & D & _); congruence]|]. split.
  - intros E. split; [reflexivity|]. split; [discriminate|].
    destruct (Xml.open_xml (c :: r)) as [k|st [? ? ? ? ?| |]| | |]; try discriminate E. pose proof (find_first k) as F.
    destruct (all_named "node" k) as [|e l]; [discriminate E|]. injection E as <-. destruct F as (k1 & k2 & -> & F & C). exists k1, e, k2.
    repeat split; try assumption. destruct C as (n & a & k & -> & _). apply (means_of (Xml.El n a k)).
  - intros (_ & _ & k1 & e & k2 & -> & F & C & M). destruct (first_found k1 e k2 F C) as (l & ->). now rewrite (means_is _ _ M).
Qed.

Lemma only_one (l : list (string * Xml.bytes)) q x :
  flat_map (fun f => match read_table (fst f) (snd f) with RTable x => [(fst f, x)] | _ => [] end) l = [(q, x)] <->
  exists l1 file l2, l = l1 ++ (q, file) :: l2 /\ is_table q file x /\
                     Forall (fun y => forall z, ~ is_table (fst y) (snd y) z) (l1 ++ l2).
Proof.
  induction l as [|(q', file') l IH].
  - cbn. split; [discriminate|]. intros (l1 & file & l2 & E & _). destruct l1; discriminate.
  - cbn [flat_map fst snd]. destruct (read_table q' file') as [x'| | | |] eqn:R.
    1: { cbn [app]. split.
      - intros E. injection E as -> -> N. exists [], file', l. split; [reflexivity|]. split; [now apply read_iff|]. cbn [app].
        clear - N. induction l as [|y l IH]; constructor.
        + intros z T. apply read_iff in T. cbn [flat_map] in N. rewrite T in N. discriminate.
        + apply IH. cbn [flat_map] in N. apply app_eq_nil in N. apply N.
      - intros (l1 & file & l2 & E & T & F). destruct l1 as [|y l1].
        + injection E as -> -> ->. apply read_iff in T. rewrite R in T. injection T as ->. f_equal.
          cbn [app] in F. clear - F. induction F as [|y l N F IH]; [reflexivity|]. cbn [flat_map]. rewrite IH.
          destruct (read_table (fst y) (snd y)) eqn:R; try reflexivity. apply read_iff in R. destruct (N _ R).
        + injection E as <- ->. inversion F as [|? ? N _]; subst. cbn [fst snd] in N. apply read_iff in R. destruct (N _ R). }
    all: cbn [app]; rewrite IH; split; intros (l1 & file & l2 & E & T & F).
    all: try (exists ((q', file') :: l1), file, l2; split; [now rewrite E|]; split; [exact T|]; constructor; [|exact F]; intros z Z; apply read_iff in Z; cbn [fst snd] in Z; congruence).
    all: destruct l1 as [|y l1]; [injection E as -> -> ->; apply read_iff in T; congruence|]; injection E as <- ->; inversion F; subst; exists l1, file, l2; auto.
Qed.

Lemma harmless_iff q file : (forall x, ~ is_table q file x) -> (harmless q file <-> returns (read_table q file) = true).
Proof.
  intros N. unfold harmless. rewrite <- extension_iff. unfold read_table. destruct (String.eqb (extension q) ".xml") eqn:E; [|split; [reflexivity|intros _; split; [exact N|discriminate]]].
  destruct file as [|c r]; [split; [intros (_ & H); destruct (H eq_refl) as (Z & _); congruence|discriminate]|].
  destruct (Xml.open_xml (c :: r)) as [k|st [? ? ? ? ?| |]| | |] eqn:O; split; intros H; try discriminate H; try reflexivity.
  - destruct (all_named "node" k); reflexivity.
  - split; [exact N|]. intros _. split; [discriminate|]. left. eauto.
  - split; [exact N|]. intros _. split; [discriminate|]. right. do 6 eexists. reflexivity.
  - exfalso. destruct H as (_ & H). destruct (H eq_refl) as (_ & [(k & X)|(s0 & a & b & d & e & g & X)]); discriminate X.
  - exfalso. destruct H as (_ & H). destruct (H eq_refl) as (_ & [(k & X)|(s0 & a & b & d & e & g & X)]); discriminate X.
  - exfalso. destruct H as (_ & H). destruct (H eq_refl) as (_ & [(k & X)|(s0 & a & b & d & e & g & X)]); discriminate X.
  - exfalso. destruct H as (_ & H). destruct (H eq_refl) as (_ & [(k & X)|(s0 & a & b & d & e & g & X)]); discriminate X.
  - exfalso. destruct H as (_ & H). destruct (H eq_refl) as (_ & [(k & X)|(s0 & a & b & d & e & g & X)]); discriminate X.
Qed.

Lemma opens_app d prot path f q x :
  opens_of d prot path f = [(q, x)] <->
  exists l1 file l2, d prot path f = l1 ++ (q, file) :: l2 /\ is_table q file x /\
                     Forall (fun y => harmless (fst y) (snd y)) (l1 ++ l2).
Proof.
  unfold opens_of. destruct (forallb _ (d prot path f)) eqn:FB.
  - rewrite only_one. split; intros (l1 & file & l2 & E & T & F); exists l1, file, l2; (split; [exact E|]; split; [exact T|]).
    + rewrite E in FB. rewrite forallb_app in FB. cbn [forallb] in FB. apply andb_prop in FB. destruct FB as (F1 & F2). apply andb_prop in F2. destruct F2 as (_ & F2).
      assert (forallb (fun f => returns (read_table (fst f) (snd f))) (l1 ++ l2) = true) as FB by (rewrite forallb_app, F1, F2; reflexivity).
      rewrite forallb_forall in FB. rewrite Forall_forall in F. apply Forall_forall. intros y I. apply harmless_iff; [exact (F y I)|exact (FB y I)].
    + eapply Forall_impl; [|exact F]. intros y (N & _). exact N.
  - split; [discriminate|]. intros (l1 & file & l2 & E & T & F). exfalso. assert (forallb (fun f => returns (read_table (fst f) (snd f))) (d prot path f) = true) as X; [|congruence].
    rewrite E. apply read_iff in T. rewrite forallb_app. cbn [forallb fst snd]. rewrite T. cbn [returns andb]. rewrite <- forallb_app.
    apply forallb_forall. rewrite Forall_forall in F. intros y I. specialize (F y I). apply harmless_iff; [apply F|exact F].
Qed.

Lemma opens_none d prot path f : Forall (fun y => harmless (fst y) (snd y)) (d prot path f) -> opens_of d prot path f = [].
Proof.
  intros F. unfold opens_of. destruct (forallb _ _); [|reflexivity]. induction F as [|y l (N & _) F IH]; [reflexivity|]. cbn [flat_map]. rewrite IH.
  destruct (read_table (fst y) (snd y)) eqn:R; try reflexivity. apply read_iff in R. destruct (N _ R).
Qed.

(** ** Expressions *)

Lemma plain_of bad f s : (forall c, In c bad <-> f c = true) -> plain_text bad s -> Prop_Uri.plain f (chars s).
Proof.
  intros H P. unfold Prop_Uri.plain. eapply Forall_impl; [|exact P]. intros c (N & R). cbn beta. split.
  - clear - R. unfold Uri.is_space. destruct c as [[] [] [] [] [] [] [] []]; try reflexivity; exfalso; revert R; vm_compute; intros (A & B); congruence.
  - destruct (f c) eqn:E; [|reflexivity]. apply H in E. contradiction.
Qed.

Lemma files_iff d path prot f expr q x : expression prot f expr ->
  table_files (opens_of d) path expr = Some (q, x) <->
  exists l1 file l2, d prot path f = l1 ++ (q, file) :: l2 /\ is_table q file x /\
                     Forall (fun y => harmless (fst y) (snd y)) (l1 ++ l2).
Proof.
  intros (-> & NE & P1 & P2). rewrite <- opens_app. unfold table_files.
  assert (chars (prot ++ "://" ++ f) = Prop_Uri.join_files [(chars prot, chars f)]) as ->.
  { clear. unfold chars. cbn [Prop_Uri.join_files]. induction prot as [|c p IH]; [reflexivity|]. cbn. f_equal. exact IH. }
  rewrite Prop_Uri.C74_files_partial.
  - rewrite !text_chars. destruct (opens_of d prot path f) as [|r [|r' l]]; split; intros E; try discriminate E; congruence.
  - constructor; [|constructor]. cbn [fst snd]. split; [destruct prot; [congruence|discriminate]|]. split; (eapply plain_of; [|eassumption]); intros c; cbn [In]; unfold Uri.is.
    + rewrite orb_true_iff, !Ascii.eqb_eq. intuition congruence.
    + rewrite Ascii.eqb_eq. intuition congruence.
Qed.

(** ** Entries *)

Lemma first_app l1 l2 i : Prop_Conn.first_entry (l1 ++ l2) i = match Prop_Conn.first_entry l1 i with Some d => Some d | None => Prop_Conn.first_entry l2 i end.
Proof. induction l1 as [|d l1 IH]; [reflexivity|]. cbn [app Prop_Conn.first_entry]. destruct (list_eq_dec _ _ _); auto. Qed.
Lemma first_some l i d : Prop_Conn.first_entry l i = Some d -> In d l /\ Conn.d_id d = i.
Proof. induction l as [|e l IH]; [discriminate|]. cbn [Prop_Conn.first_entry]. destruct (list_eq_dec _ _ _); [intros E; injection E as <-; cbn; auto|]. intros E. destruct (IH E). cbn. auto. Qed.
Lemma first_none l i : (forall d, In d l -> Conn.d_id d <> i) -> Prop_Conn.first_entry l i = None.
Proof. induction l as [|e l IH]; [reflexivity|]. intros H. cbn [Prop_Conn.first_entry]. destruct (list_eq_dec _ _ _) as [E|_]; [destruct (H e); cbn; auto|]. apply IH. intros d I. apply H. cbn. auto. Qed.
Lemma first_in l i : Prop_Conn.first_entry l i = None -> forall d, In d l -> Conn.d_id d <> i.
Proof. induction l as [|e l IH]; [intros _ d []|]. cbn [Prop_Conn.first_entry]. destruct (list_eq_dec _ _ _) as [|N]; [discriminate|]. intros E d [<-|I]; [exact N|]. now apply IH. Qed.
