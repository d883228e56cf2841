(** The classes of the objects in a tree of nodes: the builder of Builder.v again, with
    the class of each object, and getNode<T>.

    Sources: /repo/uhal/uhal/src/common/NodeTreeBuilder.cpp 151-305, 531-632,
    DerivedNodeFactory.cpp 73-103, Node.cpp 73-101 and 146-149,
    include/uhal/TemplateDefinitions/DerivedNodeFactory.hxx 43-63 and Node.hxx 45-58,
    include/uhal/DerivedNode.hpp 53-65.

    Simplifications (all of the model): those of Builder.v; the constructor of a
    user's class from a Node does what the copy constructor of Node does. *)
From Coq Require Import NArith List Bool String Ascii.
From Verif Require Import Word NodeTree Rules Attr Builder.
Import ListNotations.
Open Scope N_scope.

(** Node and the classes derived from it.  [plain]: Node; [copied c]: the class of what
    the clone() of an object of class [c] gives (the last class that overrides it,
    DerivedNode.hpp 53-65; Node.cpp 146-149). *)
Section Kinds.
Variable kind : Type.
Variable plain : kind.
Variable copied : kind -> kind.

(** A node with its class.  Node.hpp 340-379. *)
Inductive tnode := TNode (a : attrs) (k : kind) (m : list (string * nat)) (ch : list tnode).
Definition t_at (t : tnode) : attrs := match t with TNode a _ _ _ => a end.
Definition t_kind (t : tnode) : kind := match t with TNode _ k _ _ => k end.
Definition t_map (t : tnode) : list (string * nat) := match t with TNode _ _ m _ => m end.
Definition t_ch (t : tnode) : list tnode := match t with TNode _ _ _ ch => ch end.

(** Without the classes: a node of NodeTree.v.  Not in the code. *)
Fixpoint strip (t : tnode) : node := match t with TNode a _ m ch => Node a m (map strip ch) end.

(** A node with other attributes.  Not in the code. *)
Definition t_with (t : tnode) (f : attrs -> attrs) : tnode := TNode (f (t_at t)) (t_kind t) (t_map t) (t_ch t).

(** ** The factory *)

(** mCreators: newest first.  Simplified: std::unordered_map is an association list.
    DerivedNodeFactory.hpp 158. *)
Definition creators := list (string * kind).
(** add, DerivedNodeFactory.hxx 43-55. *)
Definition add (m : creators) (name : string) (k : kind) : creators :=
  match assoc name m with Some _ => m | None => (name, k) :: m end.

(** ** Copies *)

(** The children of the new object; Node::Node(const Node&), Node.cpp 73-101, called by
    clone(). *)
Fixpoint t_clone (t : tnode) : tnode :=
  match t with
  | TNode a k _ ch =>
      let ch' := map (fun c => t_with (t_clone c) (fun b => set_linked b true)) ch in
      TNode (set_linked a false) (copied k) (children_map (map strip ch')) ch'
  end.

Section Builder.
(** As in Builder.v. *)
Variable parse_pars : string -> list (string * string).
Variable parse_fw : string -> option (string * list (string * string)).
Variable files : string -> string -> option (string * xml).
(** std::sort of the children by address, NodeTreeBuilder.cpp 556-632. *)
Variable t_sort : list tnode -> list tnode.
(** mCreators when the tables are read. *)
Variable known : creators.

(** convertToClassType, DerivedNodeFactory.cpp 73-103, and the test before it,
    NodeTreeBuilder.cpp 268-275 and 297-304: new T(node) copies the Node in it. *)
Definition t_convert (t : tnode) : tnode :=
  if Nat.eqb (String.length (a_class (t_at t))) 0 then t
  else match assoc (a_class (t_at t)) known with
       | Some k => match t_clone t with TNode a _ m ch => TNode a k m ch end
       | None => t
       end.

(** The numbers of the children, as in Builder.v.  Node.hpp 376-379. *)
Fixpoint t_number (i : nat) (ch : list tnode) : list tnode :=
  match ch with [] => [] | c :: r => t_with c (fun a => set_ptr a i) :: t_number (S i) r end.

Section Element.
(** getNodeTree for a module. *)
Variable t_load : string -> string -> bres tnode.

(** The parsers, the creators and addChildren, as in Builder.v.  bitmaskNodeCreator
    makes a Node.  NodeTreeBuilder.cpp 251-332, 531-554. *)
Fixpoint t_element (path : string) (req : bool) (x : xml) : bres tnode :=
  match (if req then node_parser else top_parser) with
  | None => BExc (Parser_exc LengthError)
  | Some p =>
      match parse p (map fst (x_ats x)) with
      | Run O =>
          bind (plain_attrs parse_pars parse_fw path req x) (fun a =>
          match x with
          | Xml _ xs =>
              if mode_eqb (a_mode a) NON_INCREMENTAL then
                match xs with
                | [] => BOk (t_convert (TNode a plain [] []))
                | _ :: _ => BExc BlockAccessNodeCannotHaveChild
                end
              else
                bind (mapM (t_element path true) xs) (fun cs =>
                let ch := t_number 0 cs in
                BOk (t_convert (TNode a plain (children_map (map strip ch)) ch)))
          end)
      | Run 1 => bind (mask_node parse_pars parse_fw path req x) (fun n => BOk (TNode (n_at n) plain [] []))
      | Run _ =>
          bind (t_load path (attr_str x "module")) (fun t =>
          bind (module_attrs parse_pars parse_fw path req x (t_at t)) (fun a =>
          BOk (t_convert (TNode a (t_kind t) (t_map t) (t_ch t)))))
      | e => BExc (Parser_exc e)
      end
  end.
End Element.

(** calculateHierarchicalAddresses, NodeTreeBuilder.cpp 556-632, as in Builder.v. *)
Fixpoint t_calculate (t : tnode) (addr : N) : bres tnode :=
  match t with
  | TNode a k m ch =>
      let a := put_mode a (final_mode a (map strip ch)) in
      if mode_eqb (a_mode a) INCREMENTAL && negb (N.shiftr (a_paddr a + sub32 (a_size a) 1) 32 =? 0)
      then BExc ArraySizeExceedsRegisterBound
      else
        let a := put_addr a (add32 (a_paddr a) addr) in
        bind (mapM (fun c => bind (t_calculate c (a_addr a)) (fun c' => BOk (t_with c' (fun b => set_linked b true)))) ch)
             (fun ch' => BOk (TNode a k m (t_sort ch')))
  end.

(** build, NodeTreeBuilder.cpp 186-195. *)
Definition t_build (t_load : string -> string -> bres tnode) (path : string) (x : xml) : bres tnode :=
  bind (t_element t_load path false x) (fun t => t_calculate t 0).

(** getNodeTree, NodeTreeBuilder.cpp 151-175, without the cache (Cache.v). *)
Fixpoint t_tree (fuel : nat) (path expr : string) : bres tnode :=
  match fuel with
  | O => BFuel
  | S f =>
      match files path expr with
      | None => BExc IncorrectAddressTableFileCount
      | Some (path', x) => bind (t_build (t_tree f) path' x) (fun t => BOk (t_clone t))
      end
  end.
End Builder.

(** ** getNode<T> *)

(** The node at a position.  Not in the code: pointers as positions. *)
Fixpoint t_get (t : tnode) (p : list nat) : option tnode :=
  match p with
  | [] => Some t
  | i :: q => match nth_error (t_ch t) i with Some c => t_get c q | None => None end
  end.

(** Whether an object of the first class is also one of the second: dynamic_cast.
    Node.hxx 50. *)
Variable is_a : kind -> kind -> bool.

(** What becomes of getNode<T>: the node; BadNodeCast; the exception of getNode; undefined
    behaviour.  Node.hxx 45-58. *)
Inductive got := GNode (p : list nat) | GBadCast | GNoBranch | GUndefined.

(** getNode<T>, Node.hxx 45-58: bad_cast and the exceptions of getNode are caught; the
    handler calls getNode again for its message. *)
Definition get_as (t : tnode) (id : string) (T : kind) : got :=
  let handler := match get_node (strip t) id with Found _ => GBadCast | NotFound => GNoBranch | Dangling => GUndefined end in
  match get_node (strip t) id with
  | Dangling => GUndefined
  | NotFound => handler
  | Found p =>
      match t_get t p with
      | Some n => if is_a (t_kind n) T then GNode p else handler
      | None => GUndefined
      end
  end.
End Kinds.
