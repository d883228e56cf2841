(** C74, C75 and C80 in address tables: what the attributes of an element say
    about parameters and firmware information is what the node has. *)
From Coq Require Import NArith ZArith List Bool String Ascii Lia.
From Verif Require Import NodeTree NodeProofs Builder BuildSpec BuilderProofs Prop_Builder Prop_Accept Table.
From Verif Require Uri Prop_Uri.
Import ListNotations.

(** ** Specification *)

(** The node that an element makes, if the element is no module. *)
Definition has_node_for (t : node) (y : xml) (P : attrs -> Prop) : Prop :=
  exists p n, get t p = Some n /\ attribute y "id" = Some (a_id (n_at n)) /\ P (n_at n).

(** ** Proofs *)

Lemma chars_text l : chars (text l) = l.
Proof. apply list_ascii_of_string_of_list_ascii. Qed.

Section Claims.
Variable opens : string -> string -> string -> list (string * xml).
Variable sort : list node -> list node.
Variable is_class : string -> bool.
Hypothesis SORT : sort_ok sort.
Notation get_table := (get_table opens sort is_class).
Notation describes := (describes grammar_pars grammar_fw (table_files opens)).

Lemma node_of fuel path expr t path' x y s : get_table fuel path expr = BOk t -> table_files opens path expr = Some (path', x) -> inside y x ->
  attribute y "id" = Some s -> exists p n r a0, get t p = Some n /\ attribute y "id" = Some (a_id (n_at n)) /\ describes path' r y n /\
  common grammar_pars grammar_fw path' r y a0 (n_at n) /\ (attribute y "module" = None -> a0 = default_attrs).
Proof.
  intros E FI IN A. destruct (get_node_tree_ok _ _ _ _ _ SORT _ _ _ _ E) as (_ & _ & _ & p1 & x1 & FI1 & D).
  rewrite FI in FI1. injection FI1 as <- <-. destruct (describes_inside grammar_pars grammar_fw (table_files opens) is_class _ _ IN _ _ _ D) as (p & n & r & G & DN & _).
  assert (exists a0, common grammar_pars grammar_fw path' r y a0 (n_at n) /\ (attribute y "module" = None -> a0 = default_attrs)) as (a0 & C & M).
  { inversion DN; subst; [exists default_attrs; auto|exists default_attrs; auto|eexists; split; [eassumption|congruence]]. }
  exists p, n, r, a0. split; [exact G|]. split; [|auto]. assert (X := co_id _ _ _ _ _ _ _ C). rewrite A in X. rewrite A. destruct X as (_ & ->). reflexivity.
Qed.

(** ** The claims *)

(** C75.  The parameters of the node are those written, the first of equal names,
    and no others; text [w'] after them that cannot belong to them (white space, or
    what C75_cut_refuted is about) changes nothing. *)
Theorem C75_node : forall fuel path expr t path' x y s w kv l w', get_table fuel path expr = BOk t ->
  table_files opens path expr = Some (path', x) -> inside y x -> attribute y "id" = Some s -> attribute y "module" = None ->
  attribute y "parameters" = Some (text (w ++ Prop_Uri.print_param kv ++ Prop_Uri.print_more l ++ w')) ->
  Prop_Uri.blank w -> Prop_Uri.wf_param kv -> Forall (fun z => Prop_Uri.wf_param (snd z)) l -> Prop_Uri.foreign w' ->
  has_node_for t y (fun a => forall k, assoc k (a_pars a) = assoc k (texts (kv :: map snd l))).
Proof.
  intros fuel path expr t path' x y s w kv l w' E FI IN A NM P B W WL B'. destruct (node_of _ _ _ _ _ _ _ _ E FI IN A) as (p & n & r & a0 & G & I & _ & C & M).
  rewrite (M NM) in C. exists p, n. split; [exact G|]. split; [exact I|]. intros k. destruct (co_pars _ _ _ _ _ _ _ C) as (s' & T & H). specialize (H k).
  unfold text_of in T. rewrite P in T. assert (T' : s' = text (w ++ Prop_Uri.print_param kv ++ Prop_Uri.print_more l ++ w')) by (destruct T as [T|(T & _)]; congruence).
  clear T. subst s'. assert (PA : grammar_pars (text (w ++ Prop_Uri.print_param kv ++ Prop_Uri.print_more l ++ w')) = texts (kv :: map snd l)).
  { unfold grammar_pars. rewrite chars_text, Prop_Uri.C75_read by assumption. reflexivity. }
  rewrite PA in H. destruct (String.eqb_spec (text (w ++ Prop_Uri.print_param kv ++ Prop_Uri.print_more l ++ w')) "") as [Z|Z].
  - exfalso. rewrite Z in PA. cbn in PA. discriminate.
  - destruct H as (H1 & H2). destruct (assoc k (texts (kv :: map snd l))) as [v|]; [apply H1; discriminate|]. rewrite H2 by reflexivity. reflexivity.
Qed.

(** C75 for a module: parameters written in the element replace those of equal
    name in the file of the module, which are kept otherwise. *)
Theorem C75_module : forall fuel path expr t path' x y s e path'' x'' w kv l w', get_table fuel path expr = BOk t ->
  table_files opens path expr = Some (path', x) -> inside y x -> attribute y "id" = Some s -> attribute y "module" = Some e -> table_files opens path' e = Some (path'', x'') ->
  attribute y "parameters" = Some (text (w ++ Prop_Uri.print_param kv ++ Prop_Uri.print_more l ++ w')) ->
  Prop_Uri.blank w -> Prop_Uri.wf_param kv -> Forall (fun z => Prop_Uri.wf_param (snd z)) l -> Prop_Uri.foreign w' ->
  has_node_for t y (fun a => exists t0, describes path'' false x'' t0 /\
    forall k, assoc k (a_pars a) = match assoc k (texts (kv :: map snd l)) with Some v => Some v | None => assoc k (a_pars (n_at t0)) end).
Proof.
  intros fuel path expr t path' x y s e path'' x'' w kv l w' E FI IN A MO FI' P B W WL B'. destruct (node_of _ _ _ _ _ _ _ _ E FI IN A) as (p & n & r & a1 & G & I & D & _ & _).
  exists p, n. split; [exact G|]. split; [exact I|].
  inversion D; subst.
  - match goal with N : has_none _ _ |- _ => unfold has_none in N; rewrite Forall_forall in N; specialize (N "module"%string) end.
    assert (attribute y "module" = None) by (match goal with N : In _ _ -> _ |- _ => apply N; cbn; auto end). congruence.
  - match goal with N : has_none _ _ |- _ => unfold has_none in N; rewrite Forall_forall in N; specialize (N "module"%string) end.
    assert (attribute y "module" = None) by (match goal with N : In _ _ -> _ |- _ => apply N; cbn; auto end). congruence.
  - match goal with A' : attribute y "module" = Some ?e', F : table_files opens path' ?e' = Some (?q, ?z), D1 : BuildSpec.describes _ _ _ ?q false ?z _, C1 : common _ _ _ _ _ _ _ |- _ =>
      rename A' into A1; rename F into FI1; rename D1 into D0; rename C1 into C end.
    rewrite MO in A1. injection A1 as <-. rewrite FI' in FI1. injection FI1 as <- <-. eexists. split; [exact D0|]. intros k. cbn [n_at].
    destruct (co_pars _ _ _ _ _ _ _ C) as (s' & T & HH). specialize (HH k). rename HH into HK.
    unfold text_of in T. rewrite P in T. assert (T' : s' = text (w ++ Prop_Uri.print_param kv ++ Prop_Uri.print_more l ++ w')) by (destruct T as [T|(T & _)]; congruence).
    clear T. subst s'. assert (PA : grammar_pars (text (w ++ Prop_Uri.print_param kv ++ Prop_Uri.print_more l ++ w')) = texts (kv :: map snd l)).
    { unfold grammar_pars. rewrite chars_text, Prop_Uri.C75_read by assumption. reflexivity. }
    rewrite PA in HK. destruct (String.eqb_spec (text (w ++ Prop_Uri.print_param kv ++ Prop_Uri.print_more l ++ w')) "") as [Z|Z].
    + exfalso. rewrite Z in PA. cbn in PA. discriminate.
    + destruct HK as (H1 & H2). destruct (assoc k (texts (kv :: map snd l))) as [v|]; [apply H1; discriminate|]. rewrite H2 by reflexivity. reflexivity.
Qed.

(** C80.  The firmware information of the node is the type and the items written;
    white space is not counted. *)
Theorem C80_node : forall fuel path expr t path' x y s v e ps last, get_table fuel path expr = BOk t ->
  table_files opens path expr = Some (path', x) -> inside y x -> attribute y "id" = Some s -> attribute y "module" = None ->
  attribute y "fwinfo" = Some v -> Prop_Uri.nosp (chars v) = Prop_Uri.print_fw e ps last -> Prop_Uri.wf_fw e ps ->
  has_node_for t y (fun a => forall k, assoc k (a_fw a) = assoc k (("type"%string, text e) :: texts ps)).
Proof.
  intros fuel path expr t path' x y s v e ps last E FI IN A NM V NS W. destruct (node_of _ _ _ _ _ _ _ _ E FI IN A) as (p & n & r & a0 & G & I & _ & C & M).
  rewrite (M NM) in C. exists p, n. split; [exact G|]. split; [exact I|]. intros k. destruct (co_fw _ _ _ _ _ _ _ C) as (s' & T & l & L & H). specialize (H k).
  unfold text_of in T. rewrite V in T. assert (T' : s' = v) by (destruct T as [T|(T & _)]; congruence). clear T. subst s'.
  assert (PF : grammar_fw v = Some (text e, texts ps)).
  { unfold grammar_fw. assert (X := Prop_Uri.C80_read e ps last W). rewrite <- NS, Prop_Uri.C80_spaces in X.
    destruct (Uri.parse_fwinfo (chars v)) as [[e' ps'] rest| |]; cbn [Prop_Uri.squeeze] in X; [injection X as -> -> _; reflexivity|discriminate|discriminate]. }
  destruct L as [(-> & _)|(ty & qs & NE & PE & ->)].
  - exfalso. cbn in NS. destruct W as (W & _). unfold Prop_Uri.print_fw in NS. destruct e; [congruence|discriminate].
  - rewrite PF in PE. injection PE as <- <-. destruct H as (_ & H). apply H. reflexivity.
Qed.

(** C80: a table in which an item of the firmware information of an element has no
    "=" is refused. *)
Theorem C80_table_refused : forall fuel path expr path' x y v e ps last t, table_files opens path expr = Some (path', x) -> inside y x ->
  attribute y "fwinfo" = Some v -> Prop_Uri.nosp (chars v) = Prop_Uri.print_fw e ps true ++ last -> Prop_Uri.wf_fw e ps ->
  last <> [] -> Prop_Uri.plain (Uri.is "=") last -> get_table fuel path expr <> BOk t.
Proof.
  intros fuel path expr path' x y v e ps last t FI IN V NS W NL PL E. destruct (get_node_tree_ok _ _ _ _ _ SORT _ _ _ _ E) as (_ & _ & _ & p1 & x1 & FI1 & D).
  rewrite FI in FI1. injection FI1 as <- <-. destruct (describes_inside grammar_pars grammar_fw (table_files opens) is_class _ _ IN _ _ _ D) as (p & n & r & G & DN & _).
  assert (exists a0, common grammar_pars grammar_fw path' r y a0 (n_at n)) as (a0 & C) by (inversion DN; subst; eauto).
  destruct (co_fw _ _ _ _ _ _ _ C) as (s' & T & l & L & _). unfold text_of in T. rewrite V in T. assert (T' : s' = v) by (destruct T as [T|(T & _)]; congruence). clear T. subst s'.
  assert (PF : grammar_fw v = None).
  { unfold grammar_fw. assert (X := Prop_Uri.C80_refused e ps last W NL PL). rewrite <- NS, Prop_Uri.C80_spaces in X.
    destruct (Uri.parse_fwinfo (chars v)) as [[e' ps'] rest| |]; cbn [Prop_Uri.squeeze] in X; [discriminate|discriminate|reflexivity]. }
  destruct L as [(-> & _)|(ty & qs & NE & PE & ->)]; [|congruence]. cbn in NS. destruct W as (W & _). unfold Prop_Uri.print_fw in NS. destruct e; [congruence|discriminate].
Qed.

(** C74: an expression that names no file or more than one is refused. *)
Theorem C74_one_file : forall fuel path l,
  Forall (fun kv => fst kv <> [] /\ Prop_Uri.plain (fun c => Uri.is ":" c || Uri.is ";" c) (fst kv) /\ Prop_Uri.plain (Uri.is ";") (snd kv)) l ->
  List.length l <> 1%nat -> get_table (S fuel) path (text (Prop_Uri.join_files l)) = BExc IncorrectAddressTableFileCount.
Proof.
  intros fuel path l F NE. unfold Table.get_table. cbn [get_node_tree]. unfold table_files. rewrite chars_text, Prop_Uri.C74_files_partial by exact F.
  destruct l as [|a [|b l]]; [reflexivity|cbn in NE; congruence|destruct a; reflexivity].
Qed.
End Claims.

(** One file whose top element has one child, with parameters and firmware
    information. *)
Definition ex_opens (prot path f : string) : list (string * xml) :=
  if String.eqb prot "file" then
    if String.eqb f "a.xml" then [("a.xml"%string, Xml [("id", "TOP"); ("parameters", "z=1;y=2")]%string
      [Xml [("id", "n"); ("parameters", " nbits=8;signed&nbits=9 "); ("fwinfo", "endpoint; width = 4")]%string [];
       Xml [("id", "m"); ("address", "4"); ("parameters", "z=3"); ("module", "file://b.xml")]%string []])]
    else if String.eqb f "b.xml" then [("b.xml"%string, Xml [("parameters", "z=1;y=2")]%string [])]
    else if String.eqb f "c.xml" then [("c.xml"%string, Xml [("fwinfo", "endpoint;width")]%string [])] else []
  else [].

Example table_case :
  (match get_table ex_opens sort_nodes (fun _ => false) 3 EmptyString "file://a.xml" with
   | BOk t => map (fun c => (a_id (n_at c), a_pars (n_at c), a_fw (n_at c))) (n_ch t)
   | _ => []
   end = [("n", [("nbits", "8"); ("signed", ""); ("nbits", "9")], [("type", "endpoint"); ("width", "4")]);
          ("m", [("z", "3"); ("y", "2")], [])])%string /\
  get_table ex_opens sort_nodes (fun _ => false) 3 EmptyString "file://c.xml" = BExc ExpectationFailure /\
  get_table ex_opens sort_nodes (fun _ => false) 3 EmptyString "file://a.xml;file://b.xml" = BExc IncorrectAddressTableFileCount.
Proof. vm_compute. auto. Qed.

Print Assumptions C75_node.
Print Assumptions C75_module.
Print Assumptions C80_node.
Print Assumptions C80_table_refused.
Print Assumptions C74_one_file.
