(** From XML elements to the tree of nodes.

    Source: /repo/uhal/uhal/src/common/NodeTreeBuilder.cpp. *)
From Coq Require Import NArith List Bool String Ascii.
From Verif Require Import Word NodeTree Rules Attr.
Import ListNotations.
Open Scope N_scope.

(** A "node" element: its attributes in order, and its child elements called
    "node" in order (the builder looks at no others, NodeTreeBuilder.cpp 310, 533
    and 546).  Parsing is in Xml.v and FromFile.v (C114, C115). *)
Inductive xml := Xml (ats : list (string * string)) (ch : list xml).
Definition x_ats (x : xml) : list (string * string) := match x with Xml l _ => l end.
Definition x_ch (x : xml) : list xml := match x with Xml _ c => c end.

(** pugi::xml_node::attribute: the first attribute with this name.  As in xml.cpp 115-134. *)
Definition attribute (x : xml) (name : string) : option string := assoc name (x_ats x).

(** Exceptions of the builder; [Parser_exc] those of the attribute rules.
    NodeTreeBuilder.hpp 65-79. *)
Inductive bexc :=
| Parser_exc (e : parsed)
| NodeMustHaveUID | NodeAttributeIncorrectValue | BadNumber
| IncrementalNodeRequiresSizeAttribute | BlockAccessNodeCannotHaveChild
| MaskedNodeCannotHaveChild | ArraySizeExceedsRegisterBound
| IncorrectAddressTableFileCount
| ExpectationFailure (* boost::spirit::qi::expectation_failure *).

(** Result of a step; [BFuel]: modules nested deeper than the fuel, which for
    files that include each other is the unbounded recursion of the code.
    NodeTreeBuilder.cpp 186-305. *)
Inductive bres (A : Type) := BOk (x : A) | BExc (e : bexc) | BFuel.
Arguments BOk {A}. Arguments BExc {A}. Arguments BFuel {A}.

(** Not in the code: exceptions stop the builder. *)
Definition bind {A B} (r : bres A) (f : A -> bres B) : bres B :=
  match r with BOk x => f x | BExc e => BExc e | BFuel => BFuel end.

(** A loop that stops at the first exception.  As the loops of NodeTreeBuilder.cpp
    531-554. *)
Definition mapM {A B} (f : A -> bres B) : list A -> bres (list B) :=
  fix go l :=
    match l with
    | [] => BOk []
    | x :: r => bind (f x) (fun y => bind (go r) (fun ys => BOk (y :: ys)))
    end.

(** ** The rules, NodeTreeBuilder.cpp 75-131 *)

(** Rule of plainNodeCreator, NodeTreeBuilder.cpp 75-131. *)
Definition plain_calls : list rcall :=
  [Optional "class"; Forbid "module"; Forbid "mask"; Optional "id"; Optional "address"; Optional "parameters";
   Optional "fwinfo"; Optional "permission"; Optional "mode"; Optional "size"; Optional "tags"; Optional "description"]%string.
(** Rule of bitmaskNodeCreator, NodeTreeBuilder.cpp 75-131. *)
Definition mask_calls : list rcall :=
  [Require "mask"; Forbid "class"; Forbid "module"; Optional "address"; Forbid "mode"; Forbid "size"; Optional "parameters";
   Optional "fwinfo"; Optional "permission"; Optional "tags"; Optional "description"]%string.
(** Rule of moduleNodeCreator, NodeTreeBuilder.cpp 75-131. *)
Definition module_calls : list rcall :=
  [Optional "id"; Require "module"; Forbid "mask"; Optional "class"; Forbid "mode"; Forbid "size"; Forbid "permission";
   Optional "address"; Optional "parameters"; Optional "fwinfo"; Optional "tags"; Optional "description"]%string.

(** The two parsers; the handlers 0, 1 and 2 are plainNodeCreator,
    bitmaskNodeCreator and moduleNodeCreator.  [None]: the constructor of the
    builder would throw. *)
Definition make_parser (extra : list rcall) : option parser :=
  match rule_calls empty_rule (plain_calls ++ extra), rule_calls empty_rule (mask_calls ++ extra),
        rule_calls empty_rule (module_calls ++ extra) with
  | Some a, Some b, Some c => add_rules empty_parser [a; b; c]
  | _, _, _ => None
  end.
Definition top_parser : option parser := make_parser [].
Definition node_parser : option parser := make_parser [Require "id"%string].

(** ** Setters *)

(** Assignments to one member, Node.hpp 335-379. *)
Definition put_id (a : attrs) (v : string) : attrs :=
  mkAttrs v (a_paddr a) (a_addr a) (a_mask a) (a_r a) (a_w a) (a_mode a) (a_size a)
          (a_tags a) (a_desc a) (a_module a) (a_class a) (a_pars a) (a_fw a) (a_ptr a) (a_linked a).
Definition put_paddr (a : attrs) (v : N) : attrs :=
  mkAttrs (a_id a) v (a_addr a) (a_mask a) (a_r a) (a_w a) (a_mode a) (a_size a)
          (a_tags a) (a_desc a) (a_module a) (a_class a) (a_pars a) (a_fw a) (a_ptr a) (a_linked a).
Definition put_addr (a : attrs) (v : N) : attrs :=
  mkAttrs (a_id a) (a_paddr a) v (a_mask a) (a_r a) (a_w a) (a_mode a) (a_size a)
          (a_tags a) (a_desc a) (a_module a) (a_class a) (a_pars a) (a_fw a) (a_ptr a) (a_linked a).
Definition put_mask (a : attrs) (v : N) : attrs :=
  mkAttrs (a_id a) (a_paddr a) (a_addr a) v (a_r a) (a_w a) (a_mode a) (a_size a)
          (a_tags a) (a_desc a) (a_module a) (a_class a) (a_pars a) (a_fw a) (a_ptr a) (a_linked a).
Definition put_perm (a : attrs) (r w : bool) : attrs :=
  mkAttrs (a_id a) (a_paddr a) (a_addr a) (a_mask a) r w (a_mode a) (a_size a)
          (a_tags a) (a_desc a) (a_module a) (a_class a) (a_pars a) (a_fw a) (a_ptr a) (a_linked a).
Definition put_mode (a : attrs) (v : mode) : attrs :=
  mkAttrs (a_id a) (a_paddr a) (a_addr a) (a_mask a) (a_r a) (a_w a) v (a_size a)
          (a_tags a) (a_desc a) (a_module a) (a_class a) (a_pars a) (a_fw a) (a_ptr a) (a_linked a).
Definition put_size (a : attrs) (v : N) : attrs :=
  mkAttrs (a_id a) (a_paddr a) (a_addr a) (a_mask a) (a_r a) (a_w a) (a_mode a) v
          (a_tags a) (a_desc a) (a_module a) (a_class a) (a_pars a) (a_fw a) (a_ptr a) (a_linked a).
Definition put_tags (a : attrs) (v : string) : attrs :=
  mkAttrs (a_id a) (a_paddr a) (a_addr a) (a_mask a) (a_r a) (a_w a) (a_mode a) (a_size a)
          v (a_desc a) (a_module a) (a_class a) (a_pars a) (a_fw a) (a_ptr a) (a_linked a).
Definition put_desc (a : attrs) (v : string) : attrs :=
  mkAttrs (a_id a) (a_paddr a) (a_addr a) (a_mask a) (a_r a) (a_w a) (a_mode a) (a_size a)
          (a_tags a) v (a_module a) (a_class a) (a_pars a) (a_fw a) (a_ptr a) (a_linked a).
Definition put_module (a : attrs) (v : string) : attrs :=
  mkAttrs (a_id a) (a_paddr a) (a_addr a) (a_mask a) (a_r a) (a_w a) (a_mode a) (a_size a)
          (a_tags a) (a_desc a) v (a_class a) (a_pars a) (a_fw a) (a_ptr a) (a_linked a).
Definition put_class (a : attrs) (v : string) : attrs :=
  mkAttrs (a_id a) (a_paddr a) (a_addr a) (a_mask a) (a_r a) (a_w a) (a_mode a) (a_size a)
          (a_tags a) (a_desc a) (a_module a) v (a_pars a) (a_fw a) (a_ptr a) (a_linked a).
Definition put_pars (a : attrs) (v : list (string * string)) : attrs :=
  mkAttrs (a_id a) (a_paddr a) (a_addr a) (a_mask a) (a_r a) (a_w a) (a_mode a) (a_size a)
          (a_tags a) (a_desc a) (a_module a) (a_class a) v (a_fw a) (a_ptr a) (a_linked a).
Definition put_fw (a : attrs) (v : list (string * string)) : attrs :=
  mkAttrs (a_id a) (a_paddr a) (a_addr a) (a_mask a) (a_r a) (a_w a) (a_mode a) (a_size a)
          (a_tags a) (a_desc a) (a_module a) (a_class a) (a_pars a) v (a_ptr a) (a_linked a).

(** GetXMLattribute for uint32_t, utilities/xml.cpp 217-285: [BOk None] when the
    attribute is absent. *)
Definition attr_u32 (x : xml) (name : string) : bres (option N) :=
  match attribute x name with
  | None => BOk None
  | Some s => match parse_u32 s with Some n => BOk (Some n) | None => BExc BadNumber end
  end.

(** The value of a string attribute, empty when absent.  xml.cpp 115-134. *)
Definition attr_str (x : xml) (name : string) : string :=
  match attribute x name with Some s => s | None => EmptyString end.

(** The tests of setUid, NodeTreeBuilder.cpp 353: first and last character. *)
Definition first_char (s : string) : option ascii := String.get 0 s.
Definition last_char (s : string) : option ascii := String.get (String.length s - 1) s.
Definition is_space (c : option ascii) : bool := match c with Some c => Ascii.eqb c " " | None => false end.

(** setUid, 337-356. *)
Definition set_uid (req : bool) (x : xml) (a : attrs) : bres attrs :=
  match attribute x "id" with
  | None => if req then BExc NodeMustHaveUID else BOk a
  | Some s =>
      if Nat.eqb (String.length s) 0 then BExc NodeAttributeIncorrectValue
      else match find_dot s 0 with
           | Some _ => BExc NodeAttributeIncorrectValue
           | None => if is_space (first_char s) || is_space (last_char s) then BExc NodeAttributeIncorrectValue
                     else BOk (put_id a s)
           end
  end.

(** setAddr, 358-364. *)
Definition set_addr (x : xml) (a : attrs) : bres attrs :=
  bind (attr_u32 x "address") (fun o =>
  BOk (put_paddr a (N.lor (a_paddr a) match o with Some n => n | None => 0 end))).

(** setClassName, 367-374. *)
Definition set_class (x : xml) (a : attrs) : attrs := put_class a (attr_str x "class").

(** setTags, 397-413. *)
Definition append_text (old new : string) : string :=
  if Nat.eqb (String.length new) 0 then old
  else if Nat.eqb (String.length old) 0 then new
  else (old ++ "[" ++ new ++ "]")%string.
Definition set_tags (x : xml) (a : attrs) : attrs := put_tags a (append_text (a_tags a) (attr_str x "tags")).
(** setDescription, 416-432. *)
Definition set_desc (x : xml) (a : attrs) : attrs := put_desc a (append_text (a_desc a) (attr_str x "description")).
(** setModule, 434-440; mFileCallStack is never empty here. *)
Definition set_module (path : string) (a : attrs) : attrs := put_module a path.

(** mPermissionsLut, 689-701. *)
Definition perm_lut : list (string * (bool * bool)) :=
  [("r", (true, false)); ("w", (false, true)); ("read", (true, false)); ("write", (false, true));
   ("rw", (true, true)); ("wr", (true, true)); ("readwrite", (true, true)); ("writeread", (true, true))]%string.
(** setPermissions, 442-457. *)
Definition set_perm (x : xml) (a : attrs) : bres attrs :=
  match attribute x "permission" with
  | None => BOk a
  | Some s => match assoc s perm_lut with
              | Some (r, w) => BOk (put_perm a r w)
              | None => BExc NodeAttributeIncorrectValue
              end
  end.

(** setMask, 460-464. *)
Definition set_mask (x : xml) (a : attrs) : bres attrs :=
  bind (attr_u32 x "mask") (fun o => BOk match o with Some n => put_mask a n | None => a end).

(** mModeLut, 706-717. *)
Definition mode_lut : list (string * mode) :=
  [("single", SINGLE); ("block", INCREMENTAL); ("port", NON_INCREMENTAL); ("incremental", INCREMENTAL);
   ("non-incremental", NON_INCREMENTAL); ("inc", INCREMENTAL); ("non-inc", NON_INCREMENTAL)]%string.
(** setModeAndSize, 467-506. *)
Definition set_mode_size (x : xml) (a : attrs) : bres attrs :=
  match attribute x "mode" with
  | None => BOk a
  | Some s =>
      match assoc s mode_lut with
      | None => BExc NodeAttributeIncorrectValue
      | Some INCREMENTAL =>
          bind (attr_u32 x "size") (fun o =>
          match o with
          | Some n => BOk (put_size (put_mode a INCREMENTAL) n)
          | None => BExc IncrementalNodeRequiresSizeAttribute
          end)
      | Some NON_INCREMENTAL =>
          bind (attr_u32 x "size") (fun o =>
          BOk match o with
              | Some n => put_size (put_mode a NON_INCREMENTAL) n
              | None => put_mode a NON_INCREMENTAL
              end)
      | Some m => BOk (put_mode a m)
      end
  end.

(** The pointers of the children of a new node: distinct, see [a_ptr].  Node.hpp 376-379. *)
Fixpoint number (k : nat) (ch : list node) : list node :=
  match ch with [] => [] | c :: r => with_attrs c (fun a => set_ptr a k) :: number (S k) r end.

Section Builder.

(** The two grammars, grammars/NodeTreeParametersGrammar.cpp and
    NodeTreeFirmwareInfoAttributeGrammar.cpp: any functions ([None]: the second
    throws).  Those of the code are in Table.v. *)
Variable parse_pars : string -> list (string * string).
Variable parse_fw : string -> option (string * list (string * string)).
(** The files: for the path of the file in which it occurs and an expression, the
    path and the top element of the one file it refers to; [None] when
    ParseSemicolonDelimitedUriList or OpenFile give none or more than one, or the
    file has no "node" element, 151-171 and 198-248. *)
Variable files : string -> string -> option (string * xml).
(** std::sort in calculateHierarchicalAddresses, whose order among nodes with the
    same address is unspecified; the theorems assume [sort_ok] of it. *)
Variable sort : list node -> list node.

(** setPars, 376-395: new parameters first, old ones kept unless redefined. *)
Definition set_pars (x : xml) (a : attrs) : attrs :=
  let s := attr_str x "parameters" in
  if Nat.eqb (String.length s) 0 then a
  else put_pars a (fold_left (fun m kv => map_insert m (fst kv) (snd kv)) (a_pars a) (parse_pars s)).

(** setFirmwareInfo, 508-528. *)
Definition set_fw (x : xml) (a : attrs) : bres attrs :=
  let s := attr_str x "fwinfo" in
  if Nat.eqb (String.length s) 0 then BOk a
  else match parse_fw s with
       | None => BExc ExpectationFailure
       | Some (t, ps) => BOk (put_fw a (fold_left (fun m kv => map_insert m (fst kv) (snd kv)) (("type"%string, t) :: ps) (a_fw a)))
       end.

(** DerivedNodeFactory::convertToClassType, DerivedNodeFactory.cpp 73-103: a node
    with a class is copied by the class's constructor and the original deleted,
    or returned as it is when the class is unknown.  Simplified: the constructor
    of a user's class is taken to do what the copy constructor of Node does, so
    the two cases differ only in the copy, and [is_class] says which classes are
    registered. *)
Variable is_class : string -> bool.
Definition convert (t : node) : node :=
  if Nat.eqb (String.length (a_class (n_at t))) 0 then t
  else if is_class (a_class (n_at t)) then clone t else t.

(** plainNodeCreator, 251-276, without addChildren. *)
Definition plain_attrs (path : string) (req : bool) (x : xml) : bres attrs :=
  bind (set_uid req x default_attrs) (fun a =>
  bind (set_addr x a) (fun a =>
  bind (set_fw x (set_pars x a)) (fun a =>
  let a := set_module path (set_desc x (set_tags x (set_class x a))) in
  bind (set_perm x a) (fun a => set_mode_size x a)))).

(** bitmaskNodeCreator, 308-332. *)
Definition mask_node (path : string) (req : bool) (x : xml) : bres node :=
  match x_ch x with
  | _ :: _ => BExc MaskedNodeCannotHaveChild
  | [] =>
      bind (set_uid req x default_attrs) (fun a =>
      bind (set_addr x a) (fun a =>
      bind (set_fw x (set_pars x (set_class x a))) (fun a =>
      let a := set_module path (set_desc x (set_tags x a)) in
      bind (set_perm x a) (fun a =>
      bind (set_mask x a) (fun a => BOk (Node a [] []))))))
  end.

(** moduleNodeCreator, 278-305, after getNodeTree. *)
Definition module_attrs (path : string) (req : bool) (x : xml) (a : attrs) : bres attrs :=
  bind (set_uid req x a) (fun a =>
  bind (set_addr x a) (fun a =>
  bind (set_fw x (set_pars x (set_class x a))) (fun a =>
  BOk (set_module path (set_desc x (set_tags x a)))))).

Section Element.
(** getNodeTree for a module. *)
Variable load : string -> string -> bres node.

(** mTopLevelNodeParser ([req] false) and mNodeParser ([req] true) applied to an
    element, with the creators and addChildren 531-554. *)
Fixpoint element (path : string) (req : bool) (x : xml) : bres node :=
  match (if req then node_parser else top_parser) with
  | None => BExc (Parser_exc LengthError)
  | Some p =>
      match parse p (map fst (x_ats x)) with
      | Run O =>
          bind (plain_attrs path req x) (fun a =>
          match x with
          | Xml _ xs =>
              if mode_eqb (a_mode a) NON_INCREMENTAL then
                match xs with
                | [] => BOk (convert (Node a [] []))
                | _ :: _ => BExc BlockAccessNodeCannotHaveChild
                end
              else
                bind (mapM (element path true) xs) (fun cs =>
                let ch := number 0 cs in
                BOk (convert (Node a (children_map ch) ch)))
          end)
      | Run 1 => mask_node path req x
      | Run _ =>
          bind (load path (attr_str x "module")) (fun t =>
          bind (module_attrs path req x (n_at t)) (fun a =>
          BOk (convert (Node a (n_map t) (n_ch t)))))
      | e => BExc (Parser_exc e)
      end
  end.
End Element.

(** calculateHierarchicalAddresses, 558-591: the mode of the node. *)
Definition final_mode (a : attrs) (ch : list node) : mode :=
  if mode_eqb (a_mode a) HIERARCHICAL && forallb (fun c => negb (a_mask (n_at c) =? NOMASK)) ch then SINGLE
  else a_mode a.

(** calculateHierarchicalAddresses, 556-632. *)
Fixpoint calculate (t : node) (addr : N) : bres node :=
  match t with
  | Node a m ch =>
      let a := put_mode a (final_mode a ch) in
      if mode_eqb (a_mode a) INCREMENTAL && negb (N.shiftr (a_paddr a + sub32 (a_size a) 1) 32 =? 0)
      then BExc ArraySizeExceedsRegisterBound
      else
        let a := put_addr a (add32 (a_paddr a) addr) in
        bind (mapM (fun c => bind (calculate c (a_addr a)) (fun c' => BOk (with_attrs c' (fun b => set_linked b true)))) ch)
             (fun ch' => BOk (Node a m (sort ch')))
  end.

(** build, 186-195 (checkForAddressCollisions 635-686 writes a report and changes
    nothing; the report is in Overlap.v). *)
Definition build (load : string -> string -> bres node) (path : string) (x : xml) : bres node :=
  bind (element load path false x) (fun t => calculate t 0).

(** getNodeTree, 151-175.  Simplified: the cache mNodes is left out, clones are
    made of a fresh tree; the builder with the cache is in Cache.v (C82). *)
Fixpoint get_node_tree (fuel : nat) (path expr : string) : bres node :=
  match fuel with
  | O => BFuel
  | S f =>
      match files path expr with
      | None => BExc IncorrectAddressTableFileCount
      | Some (path', x) => bind (build (get_node_tree f) path' x) (fun t => BOk (clone t))
      end
  end.
End Builder.
