(** The tree of nodes: lookup, iteration, paths, copies and access checks.

    Source: /repo/uhal/uhal/src/common/Node.cpp,
    /repo/uhal/uhal/include/uhal/Node.hpp and
    /repo/uhal/uhal/include/uhal/definitions.hpp. *)
From Verif Require Import Word ValMem Client.
From Coq Require Import NArith List Bool String Ascii.
Import ListNotations.
Open Scope N_scope.

(** enum BlockReadWriteMode, definitions.hpp 52-53. *)
Inductive mode := SINGLE | INCREMENTAL | NON_INCREMENTAL | HIERARCHICAL.

(** Comparison of enum values, definitions.hpp 52-53. *)
Definition mode_eqb (a b : mode) : bool :=
  match a, b with
  | SINGLE, SINGLE | INCREMENTAL, INCREMENTAL
  | NON_INCREMENTAL, NON_INCREMENTAL | HIERARCHICAL, HIERARCHICAL => true
  | _, _ => false
  end.

(** defs::NOMASK, definitions.hpp 56. *)
Definition NOMASK : N := 0xFFFFFFFF.

(** Data members of class Node except the children, Node.hpp (private members)
    and Node.cpp 51-70.  The permission bits READ and WRITE are two booleans;
    mParameters and mFirmwareInfo are association lists.  [a_ptr] stands for the
    address of the object, a number different for each child of one parent.
    [a_linked]: mParent points to the node in whose mChildren this one is;
    otherwise mParent is NULL.  Not here: mHw (Hw.v). *)
Record attrs := mkAttrs {
  a_id : string;
  a_paddr : N;
  a_addr : N;
  a_mask : N;
  a_r : bool;
  a_w : bool;
  a_mode : mode;
  a_size : N;
  a_tags : string;
  a_desc : string;
  a_module : string;
  a_class : string;
  a_pars : list (string * string);
  a_fw : list (string * string);
  a_ptr : nat;
  a_linked : bool
}.

(** A node: its attributes, mChildrenMap (id to address of a child) and
    mChildren.  Node.hpp 335-379. *)
Inductive node := Node (a : attrs) (m : list (string * nat)) (ch : list node).

(** Members of Node, Node.hpp 335-379. *)
Definition n_at (t : node) : attrs := match t with Node a _ _ => a end.
(** mChildrenMap, Node.hpp 379. *)
Definition n_map (t : node) : list (string * nat) := match t with Node _ m _ => m end.
(** mChildren, Node.hpp 376. *)
Definition n_ch (t : node) : list node := match t with Node _ _ ch => ch end.

(** Default constructor, Node.cpp 51-70. *)
Definition default_attrs : attrs :=
  mkAttrs "" 0 0 NOMASK true true HIERARCHICAL 1 "" "" "" "" [] [] 0 false.

(** Assignments to single members.  Node.hpp 335-379. *)
Definition set_ptr (a : attrs) (p : nat) : attrs :=
  mkAttrs (a_id a) (a_paddr a) (a_addr a) (a_mask a) (a_r a) (a_w a) (a_mode a) (a_size a)
          (a_tags a) (a_desc a) (a_module a) (a_class a) (a_pars a) (a_fw a) p (a_linked a).
(** Node.hpp 373, mParent. *)
Definition set_linked (a : attrs) (b : bool) : attrs :=
  mkAttrs (a_id a) (a_paddr a) (a_addr a) (a_mask a) (a_r a) (a_w a) (a_mode a) (a_size a)
          (a_tags a) (a_desc a) (a_module a) (a_class a) (a_pars a) (a_fw a) (a_ptr a) b.
(** Not in the code: a node with other attributes. *)
Definition with_attrs (t : node) (f : attrs -> attrs) : node := Node (f (n_at t)) (n_map t) (n_ch t).

(** ** Maps and positions *)

(** std::unordered_map::find.  As used in hasNode and getNode, Node.cpp 411-475. *)
Fixpoint assoc {A} (k : string) (m : list (string * A)) : option A :=
  match m with
  | [] => None
  | (x, v) :: r => if String.eqb k x then Some v else assoc k r
  end.

(** std::unordered_map::insert: an existing entry is kept.  As used in Node.cpp 96-100. *)
Definition map_insert {A} (m : list (string * A)) (k : string) (v : A) : list (string * A) :=
  match assoc k m with Some _ => m | None => m ++ [(k, v)] end.

(** The loops that fill mChildrenMap, Node.cpp 96-100 and 136-140 and
    NodeTreeBuilder.cpp 551-552. *)
Definition children_map (ch : list node) : list (string * nat) :=
  fold_left (fun m c => map_insert m (a_id (n_at c)) (a_ptr (n_at c))) ch [].

(** The node at a position: indices into mChildren, from the top.
    Not in the code: positions identify nodes. *)
Fixpoint get (t : node) (p : list nat) : option node :=
  match p with
  | [] => Some t
  | i :: q => match nth_error (n_ch t) i with Some c => get c q | None => None end
  end.

(** Position in mChildren of the object at address [x].  Not in the code: pointers as positions. *)
Fixpoint child_ix (x : nat) (ch : list node) : option nat :=
  match ch with
  | [] => None
  | c :: r => if Nat.eqb (a_ptr (n_at c)) x then Some O else option_map S (child_ix x r)
  end.

(** ** Lookup by id path *)

(** std::string::find('.', n): position of the first dot at or after [n].
    As used in Node.cpp 411-475. *)
Fixpoint find_dot (s : string) (n : nat) : option nat :=
  match s with
  | EmptyString => None
  | String c r =>
      match n with
      | S k => option_map S (find_dot r k)
      | O => if Ascii.eqb c "." then Some O else option_map S (find_dot r O)
      end
  end.

(** Outcome of a lookup: the position of the node found, none found, or a stale
    pointer in mChildrenMap.  Node.cpp 411-475. *)
Inductive lookup := Found (p : list nat) | NotFound | Dangling.

(** One round of the loops of hasNode and getNode: the id from position [start]
    up to the next dot (or the end), and the child with that id.  Node.cpp 411-475. *)
Definition token (aId : string) (start : nat) (dot : option nat) : string :=
  match dot with
  | Some d => substring start (d - start) aId
  | None => substring start (String.length aId - start) aId
  end.

(** Node::getNode, Node.cpp 441-475, the loop; each round moves past one dot, so
    [fuel] is never exhausted when it exceeds the length. *)
Fixpoint get_loop (fuel : nat) (aId : string) (start : nat) (t : node) : lookup :=
  match fuel with
  | O => NotFound
  | S f =>
      let dot := find_dot aId start in
      match assoc (token aId start dot) (n_map t) with
      | None => NotFound
      | Some x =>
          match child_ix x (n_ch t) with
          | None => Dangling
          | Some i =>
              match nth_error (n_ch t) i with
              | None => Dangling
              | Some c =>
                  match dot with
                  | None => Found [i]
                  | Some d =>
                      match get_loop f aId (d + 1) c with
                      | Found p => Found (i :: p)
                      | r => r
                      end
                  end
              end
          end
      end
  end.

(** Node::getNode, Node.cpp 441-475. *)
Definition get_node (t : node) (aId : string) : lookup :=
  if Nat.eqb (String.length aId) 0 then Found []
  else get_loop (S (String.length aId)) aId 0 t.

(** Node::hasNode, Node.cpp 411-438; [None]: stale pointer. *)
Fixpoint has_loop (fuel : nat) (aId : string) (start : nat) (t : node) : option bool :=
  match fuel with
  | O => Some false
  | S f =>
      let dot := find_dot aId start in
      match assoc (token aId start dot) (n_map t) with
      | None => Some false
      | Some x =>
          match child_ix x (n_ch t) with
          | None => None
          | Some i =>
              match nth_error (n_ch t) i with
              | None => None
              | Some c => match dot with None => Some true | Some d => has_loop f aId (d + 1) c end
              end
          end
      end
  end.

(** Node::hasNode, Node.cpp 411-438. *)
Definition has_node (t : node) (aId : string) : option bool :=
  if Nat.eqb (String.length aId) 0 then Some true
  else has_loop (S (String.length aId)) aId 0 t.

(** ** Paths *)

(** Node::getAncestors, Node.cpp 245-253: the node and the nodes above it as far
    as mParent leads, the highest first; [None]: no node at this position. *)
Fixpoint nodes_along (t : node) (p : list nat) : option (list node) :=
  match p with
  | [] => Some [t]
  | i :: q =>
      match nth_error (n_ch t) i with
      | Some c => option_map (cons t) (nodes_along c q)
      | None => None
      end
  end.
Fixpoint linked_up (l : list node) : list node :=
  match l with
  | [] => []
  | n :: r => n :: (if a_linked (n_at n) then linked_up r else [])
  end.
Definition ancestors (t : node) (p : list nat) : option (list node) :=
  option_map (fun l => rev (linked_up (rev l))) (nodes_along t p).

(** Ids joined by dots, empty ids left out, Node.cpp 203-217 and 227-241. *)
Definition join_ids (l : list node) : string :=
  let s := fold_left (fun s n => if Nat.eqb (String.length (a_id (n_at n))) 0 then s
                                 else (s ++ a_id (n_at n) ++ ".")%string) l EmptyString in
  if Nat.eqb (String.length s) 0 then s else substring 0 (String.length s - 1) s.

(** Node::getPath, Node.cpp 197-218. *)
Definition get_path (t : node) (p : list nat) : option string := option_map join_ids (ancestors t p).

(** Node::getRelativePath, Node.cpp 221-242, of the node at [p ++ q] relative to
    the node at [p] of the same tree; [None]: std::find does not find it, and the
    iterator is moved past the end. *)
Definition relative_path (t : node) (p q : list nat) : option string :=
  match ancestors t (p ++ q) with
  | None => None
  | Some l =>
      (* the node at [p] is the one followed by length q others *)
      if Nat.ltb (List.length q) (List.length l)
      then Some (join_ids (skipn (List.length l - List.length q) l))
      else None
  end.

(** ** Iteration *)

(** Node::const_iterator: [None] when mBegin is NULL, otherwise mItStack as the
    indices into the mChildren of each level, the deepest first.  Node.hpp 116-117. *)
Definition iter := option (list nat).

(** Node.cpp 808-825: next entry on this level, or on the closest level above
    that has one. *)
Fixpoint climb (t : node) (st : list nat) : iter :=
  match st with
  | [] => None
  | i :: up =>
      match get t (rev up) with
      | Some n => if Nat.ltb (S i) (List.length (n_ch n)) then Some (S i :: up) else climb t up
      | None => None
      end
  end.

(** Node::const_iterator::next, Node.cpp 783-830; its result is whether the
    iterator is not [None] afterwards. *)
Definition next (t : node) (it : iter) : iter :=
  match it with
  | None => None
  | Some st =>
      match get t (rev st) with
      | None => None
      | Some n => if Nat.ltb 0 (List.length (n_ch n)) then Some (O :: st) else climb t st
      end
  end.

(** Number of nodes, to bound the loops below (not in the code). *)
Fixpoint size (t : node) : nat :=
  match t with Node _ _ ch => S (list_sum (map size ch)) end.

(** for (lIt = it; lIt != end(); lIt++), collecting the positions visited,
    Node.cpp 483 and 497; never out of fuel when [fuel] is at least the number of
    nodes. *)
Fixpoint iterate (fuel : nat) (t : node) (it : iter) : list (list nat) :=
  match fuel, it with
  | S f, Some st => rev st :: iterate f t (next t it)
  | _, _ => []
  end.

(** Node::getNodes, Node.cpp 478-489, of the node at [p] of tree [t]. *)
Definition get_nodes (t : node) (p : list nat) : option (list (option string)) :=
  option_map (fun n => map (relative_path t p) (iterate (size n) n (next n (Some [])))) (get t p).

(** ** Copies *)

(** Node::Node(const Node&), Node.cpp 73-101, and Node::clone 146-149 (derived
    classes' clone does the same).  The copies of the children get the numbers of
    the originals: they are only compared among each other. *)
Fixpoint clone (t : node) : node :=
  match t with
  | Node a _ ch =>
      let ch' := map (fun c => match clone c with Node b m cs => Node (set_linked b true) m cs end) ch in
      Node (set_linked a false) (children_map ch') ch'
  end.

(** Node::operator=, Node.cpp 104-143: [t] assigned to [old]. *)
Definition assign_node (old t : node) : node :=
  let a := n_at t in
  let ch' := map (fun c => with_attrs (clone c) (fun b => set_linked b true)) (n_ch t) in
  Node (mkAttrs (a_id a) (a_paddr a) (a_addr a) (a_mask a) (a_r a) (a_w a) (a_mode a) (a_size a)
                (a_tags a) (a_desc a) (a_module a) (a_class a) (a_pars a) (a_fw (n_at old))
                (a_ptr (n_at old)) (a_linked (n_at old)))
       (children_map ch') ch'.

(** ** Access *)

(** Exceptions raised by the access functions.  Node.hpp 65-77. *)
Inductive nexc :=
| WriteAccessDenied | ReadAccessDenied | BulkTransferOnSingleRegister
| BulkTransferRequestedTooLarge | BulkTransferOffsetRequestedForFifo
| BulkTransferOffsetRequestedForSingleRegister.

(** mMode as the client uses it: the address advances for INCREMENTAL only, in
    every other mode it is repeated, ProtocolIPbusCore.cpp 334, 355, 415, 433. *)
Definition inc_of (m : mode) : bool := mode_eqb m INCREMENTAL.

(** Node::write, Node.cpp 516-539. *)
Definition node_write (a : attrs) (x : N) : nexc + op :=
  if a_w a then
    if a_mask a =? NOMASK then inr (OWrite (a_addr a) x)
    else if a_r a then inr (OWriteMask (a_addr a) x (a_mask a))
    else inl WriteAccessDenied
  else inl WriteAccessDenied.

(** Node::writeBlock, Node.cpp 542-570. *)
Definition node_write_block (a : attrs) (l : list N) : nexc + op :=
  if mode_eqb (a_mode a) SINGLE && negb (N.of_nat (List.length l) =? 1) then inl BulkTransferOnSingleRegister
  else if negb (a_size a =? 1) && (a_size a <? N.of_nat (List.length l)) then inl BulkTransferRequestedTooLarge
  else if a_w a then inr (OWriteBlock (a_addr a) l (inc_of (a_mode a)))
  else inl WriteAccessDenied.

(** Node::writeBlockOffset, Node.cpp 573-608; size and offset are added as
    size_t, without overflow. *)
Definition node_write_block_offset (a : attrs) (l : list N) (off : N) : nexc + op :=
  if mode_eqb (a_mode a) NON_INCREMENTAL then inl BulkTransferOffsetRequestedForFifo
  else if mode_eqb (a_mode a) SINGLE then inl BulkTransferOffsetRequestedForSingleRegister
  else if a_size a <? N.of_nat (List.length l) + off then inl BulkTransferRequestedTooLarge
  else if a_w a then inr (OWriteBlock (add32 (a_addr a) off) l (inc_of (a_mode a)))
  else inl WriteAccessDenied.

(** Node::read, Node.cpp 611-629. *)
Definition node_read (a : attrs) : nexc + op :=
  if a_r a then
    if a_mask a =? NOMASK then inr (ORead (a_addr a) NOMASK)
    else inr (ORead (a_addr a) (a_mask a))
  else inl ReadAccessDenied.

(** Node::readBlock, Node.cpp 632-660. *)
Definition node_read_block (a : attrs) (n : N) : nexc + op :=
  if mode_eqb (a_mode a) SINGLE && negb (n =? 1) then inl BulkTransferOnSingleRegister
  else if negb (a_size a =? 1) && (a_size a <? n) then inl BulkTransferRequestedTooLarge
  else if a_r a then inr (OReadBlock (a_addr a) n (inc_of (a_mode a)))
  else inl ReadAccessDenied.

(** Node::readBlockOffset, Node.cpp 663-698; size and offset are added as
    uint32_t, modulo 2^32. *)
Definition node_read_block_offset (a : attrs) (n off : N) : nexc + op :=
  if mode_eqb (a_mode a) NON_INCREMENTAL then inl BulkTransferOffsetRequestedForFifo
  else if mode_eqb (a_mode a) SINGLE then inl BulkTransferOffsetRequestedForSingleRegister
  else if a_size a <? add32 n off then inl BulkTransferRequestedTooLarge
  else if a_r a then inr (OReadBlock (add32 (a_addr a) off) n (inc_of (a_mode a)))
  else inl ReadAccessDenied.

(** The calls a user can make on a node.  Node.cpp 516-698. *)
Inductive nop :=
| NWrite (x : N) | NWriteBlock (l : list N) | NWriteBlockOffset (l : list N) (off : N)
| NRead | NReadBlock (n : N) | NReadBlockOffset (n off : N).

(** Node.cpp 516-698. *)
Definition node_op (a : attrs) (o : nop) : nexc + op :=
  match o with
  | NWrite x => node_write a x
  | NWriteBlock l => node_write_block a l
  | NWriteBlockOffset l off => node_write_block_offset a l off
  | NRead => node_read a
  | NReadBlock n => node_read_block a n
  | NReadBlockOffset n off => node_read_block_offset a n off
  end.

(** hw.getNode(path).<call>: the lookup, the checks, and the call on the client,
    whose state is unchanged when one of the first two raises.  Node.hpp 65-77. *)
Inductive hexc := NoBranchFound | Node_exc (e : nexc).
(** Node.cpp 441-475 and 516-703. *)
Definition hw_call (g : cfg) (t : node) (path : string) (o : nop) (s : st) : option ((hexc * st) + res nat) :=
  match get_node t path with
  | Dangling => None
  | NotFound => Some (inl (NoBranchFound, s))
  | Found p =>
      match get t p with
      | None => None
      | Some n =>
          match node_op (n_at n) o with
          | inl e => Some (inl (Node_exc e, s))
          | inr c => Some (inr (run_op g s c))
          end
      end
  end.
