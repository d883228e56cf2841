(** The report of overlapping nodes.

    Source: /repo/uhal/uhal/src/common/detail/utilities.cpp lines 114-166. *)
From Coq Require Import NArith List Bool String PeanoNat.
From Verif Require Import Word NodeTree.
Import ListNotations.
Open Scope N_scope.

(** The node at a position of the tree, by its attributes.
    As used in detail/utilities.cpp 114-166. *)
Definition at_pos (t : node) (p : list nat) : attrs :=
  match get t p with Some n => n_at n | None => default_attrs end.

(** std::stable_sort with compareNodeAddr, lines 114-117 and 125. *)
Fixpoint stable_insert (t : node) (p : list nat) (l : list (list nat)) : list (list nat) :=
  match l with
  | [] => [p]
  | q :: r => if a_addr (at_pos t q) <? a_addr (at_pos t p) then q :: stable_insert t p r else p :: q :: r
  end.
Definition stable_sort (t : node) (l : list (list nat)) : list (list nat) := fold_right (stable_insert t) [] l.

(** Node::isChildOf, Node.cpp 724-727, for nodes of one tree: mParent of the node
    at [p] is the node at [q]. *)
Definition is_child_of (t : node) (p q : list nat) : bool :=
  a_linked (at_pos t p) &&
  match rev p with
  | [] => false
  | _ :: up => if list_eq_dec Nat.eq_dec (rev up) q then true else false
  end.

(** lMaxAddr1, line 137: uint32_t arithmetic. *)
Definition max_addr (a : attrs) : N :=
  if mode_eqb (a_mode a) INCREMENTAL then sub32 (add32 (a_addr a) (a_size a)) 1 else a_addr a.

(** Body of the inner loop, lines 141-161: whether the pair is reported. *)
Definition clash (t : node) (p q : list nat) : bool :=
  let a := at_pos t p in
  let b := at_pos t q in
  if mode_eqb (a_mode b) HIERARCHICAL then false
  else if negb (mode_eqb (a_mode a) SINGLE) || negb (mode_eqb (a_mode b) SINGLE) then true
  else if negb (N.land (a_mask a) (a_mask b) =? 0) then
    if (a_mask a =? NOMASK) && is_child_of t q p then false
    else if (a_mask b =? NOMASK) && is_child_of t p q then false
    else true
  else false.

(** Inner loop, lines 139-162. *)
Fixpoint scan (t : node) (p : list nat) (l : list (list nat)) : list (list nat * list nat) :=
  match l with
  | [] => []
  | q :: r =>
      if a_addr (at_pos t q) <=? max_addr (at_pos t p)
      then (if clash t p q then [(p, q)] else []) ++ scan t p r
      else []
  end.

(** Outer loop, lines 131-163 (the last node has nothing to be compared with). *)
Fixpoint scans (t : node) (l : list (list nat)) : list (list nat * list nat) :=
  match l with
  | [] => []
  | p :: r => (if mode_eqb (a_mode (at_pos t p)) HIERARCHICAL then [] else scan t p r) ++ scans t r
  end.

(** getAddressOverlaps, lines 120-166: positions of the nodes instead of pointers. *)
Definition overlaps (t : node) : list (list nat * list nat) :=
  scans t (stable_sort t (iterate (size t) t (next t (Some [])))).
