(** Nodes as objects in memory: construction, copies, assignment, destruction.
    uhal/uhal/src/common/Node.cpp 50-167, DerivedNodeFactory.cpp 73-103, and what
    NodeTreeBuilder.cpp and HwInterface.cpp do with pointers to nodes. *)
From Coq Require Import List Bool PeanoNat String.
Import ListNotations.
Open Scope nat_scope.

(** Addresses of objects.  Simplified: the address of a deleted object is not given to
    another one. *)
Definition ptr := nat.

Section Heap.
(** [A]: the attributes of a node, members mUid to mFirmwareInfo, Node.hpp 337-370, of which
    [uid] is mUid.  [cls]: the classes derived from Node, and Node itself. *)
Variables (A cls : Type) (uid : A -> string).
(** What operator= leaves of the old attributes: Node.cpp 104-118 does not assign
    mFirmwareInfo.  [assigned old new]. *)
Variable assigned : A -> A -> A.
(** clone() is virtual: the class of the copy.  Node.cpp 146-149; for a class with the
    macros of DerivedNode.hpp 53-65 it is the class itself, otherwise that of a base
    class. *)
Variable keep : cls -> cls.
(** The class Node. *)
Variable plain : cls.

(** An object: attributes, class, mParent, mChildren, mChildrenMap (for each id the
    first child inserted with it).  Node.hpp 334-379.  Not modelled: mHw (Hw.v). *)
Record obj := mkO { o_at : A; o_class : cls; o_parent : option ptr; o_kids : list ptr; o_map : list (string * ptr) }.

(** Memory; [None]: deleted. *)
Definition heap := list (option obj).
Definition get (h : heap) (p : ptr) : option obj := match nth_error h p with Some x => x | None => None end.
Definition put (h : heap) (p : ptr) (x : option obj) : heap := firstn p h ++ x :: skipn (S p) h.

(** Results; [Bad]: an object was used that does not exist; [Deep]: the fuel was not
    enough (not in the code). *)
Inductive res (T : Type) := Done (x : T) | Bad | Deep.
Arguments Done {T} x. Arguments Bad {T}. Arguments Deep {T}.

(** mChildren.push_back, mParent = this, mChildrenMap.insert (which keeps an entry with
    the same id). *)
Definition with_kids (o : obj) (ks : list ptr) : obj := mkO (o_at o) (o_class o) (o_parent o) ks (o_map o).
Definition with_parent (o : obj) (q : option ptr) : obj := mkO (o_at o) (o_class o) q (o_kids o) (o_map o).
Definition with_at (o : obj) (a : A) : obj := mkO a (o_class o) (o_parent o) (o_kids o) (o_map o).
Definition with_map (o : obj) (m : list (string * ptr)) : obj := mkO (o_at o) (o_class o) (o_parent o) (o_kids o) m.
Definition insert (m : list (string * ptr)) (i : string) (p : ptr) : list (string * ptr) :=
  if existsb (fun e => String.eqb (fst e) i) m then m else m ++ [(i, p)].

(** The loops of Node.cpp 93-94 and 133-134: a copy of each of [ks] is added to the
    children of [q]; [cl] makes a copy. *)
Fixpoint push_all (cl : heap -> ptr -> res (heap * ptr)) (h : heap) (q : ptr) (ks : list ptr) : res heap :=
  match ks with
  | [] => Done h
  | k :: t =>
      match cl h k with
      | Done (h1, k1) =>
          match get h1 q with
          | Some o => push_all cl (put h1 q (Some (with_kids o (o_kids o ++ [k1])))) q t
          | None => Bad
          end
      | Bad => Bad
      | Deep => Deep
      end
  end.

(** The loops of Node.cpp 96-100 and 136-140: [ks] are the children of [q]. *)
Fixpoint link (h : heap) (q : ptr) (ks : list ptr) : res heap :=
  match ks with
  | [] => Done h
  | k :: t =>
      match get h k with
      | Some c =>
          let h1 := put h k (Some (with_parent c (Some q))) in
          match get h1 q with
          | Some o => link (put h1 q (Some (with_map o (insert (o_map o) (uid (o_at c)) k)))) q t
          | None => Bad
          end
      | None => Bad
      end
  end.
Definition link_kids (h : heap) (q : ptr) : res heap :=
  match get h q with Some o => link h q (o_kids o) | None => Bad end.

(** Node::Node(const Node&), Node.cpp 73-101, of the object [p], for a new object of
    class [c]; the copies of the children are made by clone(). *)
Fixpoint copy (fuel : nat) (h : heap) (p : ptr) (c : option cls) : res (heap * ptr) :=
  match fuel with
  | O => Deep
  | S f =>
      match get h p with
      | None => Bad
      | Some o =>
          let q := List.length h in
          let h1 := h ++ [Some (mkO (o_at o) (match c with Some x => x | None => keep (o_class o) end) None [] [])] in
          match push_all (fun h' k => copy f h' k None) h1 q (o_kids o) with
          | Done h2 => match link_kids h2 q with Done h3 => Done (h3, q) | Bad => Bad | Deep => Deep end
          | Bad => Bad
          | Deep => Deep
          end
      end
  end.
(** clone(), Node.cpp 146-149. *)
Definition clone (h : heap) (p : ptr) : res (heap * ptr) := copy (S (List.length h)) h p None.

(** delete: Node::~Node, Node.cpp 152-166. *)
Fixpoint destroy (fuel : nat) (h : heap) (p : ptr) : res heap :=
  match fuel with
  | O => Deep
  | S f =>
      match get h p with
      | None => Bad
      | Some o =>
          match fold_left (fun r k => match r with Done h' => destroy f h' k | x => x end) (o_kids o) (Done h) with
          | Done h1 => Done (put h1 p None)
          | x => x
          end
      end
  end.
Definition delete (h : heap) (p : ptr) : res heap := destroy (S (List.length h)) h p.
Definition delete_all (h : heap) (ks : list ptr) : res heap :=
  fold_left (fun r k => match r with Done h' => delete h' k | x => x end) ks (Done h).

(** Node::operator=, Node.cpp 104-143: [p] is assigned to [q]. *)
Definition assign (h : heap) (q p : ptr) : res heap :=
  match get h q, get h p with
  | Some o, Some s =>
      let h1 := put h q (Some (with_at o (assigned (o_at o) (o_at s)))) in
      match delete_all h1 (o_kids o) with
      | Done h2 =>
          match get h2 q with
          | None => Bad
          | Some o2 =>
              let h3 := put h2 q (Some (with_map (with_kids o2 []) [])) in
              match get h3 p with
              | None => Bad
              | Some s3 =>
                  match push_all clone h3 q (o_kids s3) with
                  | Done h4 => link_kids h4 q
                  | x => x
                  end
              end
          end
      | x => x
      end
  | _, _ => Bad
  end.

(** mParent of all descendants is set: calculateHierarchicalAddresses,
    NodeTreeBuilder.cpp 624-628 (what it does to the attributes: [KSet]). *)
Fixpoint set_parents (fuel : nat) (h : heap) (p : ptr) : res heap :=
  match fuel with
  | O => Deep
  | S f =>
      match get h p with
      | None => Bad
      | Some o =>
          fold_left (fun r k =>
            match r with
            | Done h' =>
                match get h' k with
                | Some c => set_parents f (put h' k (Some (with_parent c (Some p)))) k
                | None => Bad
                end
            | x => x
            end) (o_kids o) (Done h)
      end
  end.

(** Memory, and the nodes that somebody has a pointer to by which it is going to be deleted: the
    builder while it builds, its cache mNodes, a HwInterface. *)
Record mem := mkMem { m_heap : heap; m_own : list ptr }.

(** What is done with nodes.  [KNew]: new Node, NodeTreeBuilder.cpp 253, 317.
    [KSet]: setUid etc., lines 254-264, 283-290, 318-327, 556-640: for another uid the node must not
    be a child.  [KAdd]: addChildren, lines 531-553.  [KParents]: set_parents.
    [KSort]: std::sort of the children, line 631.
    [KClone]: clone(), NodeTreeBuilder.cpp 173, HwInterface.cpp 57.  [KConvert]:
    convertToClassType for a known class, DerivedNodeFactory.cpp 98-101.  [KAssign]:
    operator=, which is protected (Node.hpp 123-138): only derived classes can use it.  [KDelete]: the
    end of a HwInterface, clearAddressFileCache (NodeTreeBuilder.cpp 178-183).
    [KThrow]: an exception leaves a function that has the node in a Node* (lines
    253-274, 282-303, 317-331, 186-195). *)
Inductive kcmd :=
| KNew (a : A) | KSet (p : ptr) (a : A) | KAdd (p : ptr) (ks : list ptr) | KParents (p : ptr)
| KSort (p : ptr) (ks : list ptr)
| KClone (p : ptr) | KConvert (p : ptr) (c : cls) | KAssign (q p : ptr) | KDelete (p : ptr) | KThrow (p : ptr).

Definition drop (p : ptr) (l : list ptr) : list ptr := filter (fun x => negb (Nat.eqb x p)) l.
Definition owned (m : mem) (p : ptr) : bool := existsb (Nat.eqb p) (m_own m).
Definition live (m : mem) (p : ptr) : bool := match get (m_heap m) p with Some _ => true | None => false end.
Fixpoint distinct (l : list ptr) : bool :=
  match l with [] => true | x :: t => negb (existsb (Nat.eqb x) t) && distinct t end.

(** A command; [None]: not possible: a reference to an object that does not exist, or
    something done to another's node. *)
Definition kstep (m : mem) (k : kcmd) : option (res mem) :=
  let h := m_heap m in
  match k with
  | KNew a => Some (Done (mkMem (h ++ [Some (mkO a plain None [] [])]) (m_own m ++ [List.length h])))
  | KSet p a =>
      match get h p with
      | Some o =>
          if owned m p || String.eqb (uid a) (uid (o_at o))
          then Some (Done (mkMem (put h p (Some (with_at o a))) (m_own m))) else None
      | None => None
      end
  | KAdd p ks =>
      match get h p with
      | Some o =>
          if owned m p && forallb (owned m) ks && negb (existsb (Nat.eqb p) ks) && distinct ks && Nat.eqb (List.length (o_kids o)) 0 &&
             Nat.eqb (List.length (o_map o)) 0
          then
            match fold_left (fun r k => match r with
                                        | Some mp => match get h k with Some c => Some (insert mp (uid (o_at c)) k) | None => None end
                                        | None => None end) ks (Some []) with
            | Some mp => Some (Done (mkMem (put h p (Some (with_map (with_kids o ks) mp))) (fold_left (fun l k => drop k l) ks (m_own m))))
            | None => Some Bad
            end
          else None
      | None => None
      end
  | KParents p =>
      if owned m p then Some (match set_parents (S (List.length h)) h p with Done h' => Done (mkMem h' (m_own m)) | Bad => Bad | Deep => Deep end) else None
  | KSort p ks =>
      match get h p with
      | Some o =>
          if distinct ks && Nat.eqb (List.length ks) (List.length (o_kids o)) && forallb (fun k => existsb (Nat.eqb k) (o_kids o)) ks
          then Some (Done (mkMem (put h p (Some (with_kids o ks))) (m_own m))) else None
      | None => None
      end
  | KClone p =>
      if live m p then Some (match clone h p with Done (h', q) => Done (mkMem h' (m_own m ++ [q])) | Bad => Bad | Deep => Deep end) else None
  | KConvert p c =>
      if owned m p then
        Some (match copy (S (List.length h)) h p (Some c) with
              | Done (h1, q) =>
                  match delete h1 p with Done h2 => Done (mkMem h2 (drop p (m_own m) ++ [q])) | Bad => Bad | Deep => Deep end
              | Bad => Bad | Deep => Deep end)
      else None
  | KAssign q p =>
      if live m q && live m p then Some (match assign h q p with Done h' => Done (mkMem h' (m_own m)) | Bad => Bad | Deep => Deep end) else None
  | KDelete p =>
      if owned m p then Some (match delete h p with Done h' => Done (mkMem h' (drop p (m_own m))) | Bad => Bad | Deep => Deep end) else None
  | KThrow p =>
      if owned m p then Some (Done (mkMem h (drop p (m_own m)))) else None
  end.

(** A program. *)
Fixpoint krun (m : mem) (ks : list kcmd) : option (res mem) :=
  match ks with
  | [] => Some (Done m)
  | k :: t =>
      match kstep m k with
      | Some (Done m') => krun m' t
      | x => x
      end
  end.
Definition empty : mem := mkMem [] [].
End Heap.

Arguments Done {T} x. Arguments Bad {T}. Arguments Deep {T}.
