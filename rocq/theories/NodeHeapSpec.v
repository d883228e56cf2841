(** What C108 says of the nodes in memory. *)
From Coq Require Import List Bool PeanoNat String.
From Verif Require Import NodeHeap.
Import ListNotations.
Open Scope nat_scope.

Section Spec.
Variables (A cls : Type) (uid : A -> string).
Notation obj := (obj A cls). Notation heap := (heap A cls). Notation mem := (mem A cls).

(** Contents of a tree of nodes: attributes, class, children. *)
Inductive tree := Tr (a : A) (c : cls) (ts : list tree).
(** [holds h p t]: the tree at [p] has the contents [t]. *)
Inductive holds (h : heap) : ptr -> tree -> Prop :=
| Holds p o ts : get A cls h p = Some o -> Forall2 (holds h) (o_kids _ _ o) ts -> holds h p (Tr (o_at _ _ o) (o_class _ _ o) ts).

(** [under h q p]: [p] is [q] or one of its descendants. *)
Inductive under (h : heap) (q : ptr) : ptr -> Prop :=
| Under_here : under h q q
| Under_kid x o k : under h q x -> get A cls h x = Some o -> In k (o_kids _ _ o) -> under h q k.

(** All nodes below [q] know their parents, and by each id its first child is found. *)
Fixpoint first_by (i : string) (h : heap) (ks : list ptr) : option ptr :=
  match ks with
  | [] => None
  | k :: t => match get A cls h k with
              | Some o => if String.eqb (uid (o_at _ _ o)) i then Some k else first_by i h t
              | None => first_by i h t
              end
  end.
Fixpoint look (m : list (string * ptr)) (i : string) : option ptr :=
  match m with [] => None | (j, p) :: t => if String.eqb j i then Some p else look t i end.
Definition linked (h : heap) (q : ptr) : Prop :=
  forall x o, under h q x -> get A cls h x = Some o ->
    (forall k, In k (o_kids _ _ o) -> exists c, get A cls h k = Some c /\ o_parent _ _ c = Some x) /\
    (forall i, look (o_map _ _ o) i = first_by i h (o_kids _ _ o)).

(** Memory in order, [lost] being the nodes that an exception left without an owner:
    every object belongs to exactly one owner or lost node, of which it is a
    descendant; it is the child of at most one node, once; its parent pointer is not
    set or right; the table of ids names its children only. *)
Record sound (m : mem) (lost : list ptr) : Prop := mkSound {
  s_roots : NoDup (m_own _ _ m ++ lost);
  s_live : forall r, In r (m_own _ _ m ++ lost) -> exists o, get A cls (m_heap _ _ m) r = Some o /\ o_parent _ _ o = None;
  s_kids : forall q o, get A cls (m_heap _ _ m) q = Some o -> NoDup (o_kids _ _ o) /\
    forall k, In k (o_kids _ _ o) -> ~ In k (m_own _ _ m ++ lost) /\
      exists c, get A cls (m_heap _ _ m) k = Some c /\ (o_parent _ _ c = None \/ o_parent _ _ c = Some q);
  s_map : forall q o i k, get A cls (m_heap _ _ m) q = Some o -> In (i, k) (o_map _ _ o) -> In k (o_kids _ _ o);
  s_one : forall k q q' o o', get A cls (m_heap _ _ m) q = Some o -> In k (o_kids _ _ o) ->
    get A cls (m_heap _ _ m) q' = Some o' -> In k (o_kids _ _ o') -> q = q';
  s_owner : forall p o, get A cls (m_heap _ _ m) p = Some o -> exists r, In r (m_own _ _ m ++ lost) /\ under (m_heap _ _ m) r p
}.

(** The nodes lost in a program. *)
Fixpoint thrown (ks : list (kcmd A cls)) : list ptr :=
  match ks with [] => [] | KThrow _ _ p :: t => thrown t ++ [p] | _ :: t => thrown t end.

(** The contents of a copy: [f] gives the class of the copy of each node. *)
Fixpoint classes (f : cls -> cls) (t : tree) : tree :=
  match t with Tr a c ts => Tr a (f c) (map (classes f) ts) end.
Definition kids_of (t : tree) : list tree := match t with Tr _ _ ts => ts end.
End Spec.
