(** HwInterface objects: which client a node's accesses go to.

    Sources: /repo/uhal/uhal/src/common/HwInterface.cpp lines 46-157,
    /repo/uhal/uhal/include/uhal/HwInterface.hpp lines 55-163 (the copy assignment
    operator is the implicit one), /repo/uhal/uhal/src/common/Node.cpp lines
    73-101 and 146-149 (mHw is copied by clone) and 517-704
    (mHw->getClient()), /repo/uhal/uhal/include/uhal/ClientInterface.hpp line 416
    (weak_ptr mNode), /repo/uhal/uhal/src/common/detail/utilities.cpp 105-111.

    An HwInterface object is a number, standing for its address; addresses of
    destroyed objects are not used again.  A client is a number.  A node tree
    made by NodeTreeBuilder or by clone is a number.  Not modelled: one node tree
    given to two HwInterface constructors. *)
From Verif Require Import Word ValMem Client NodeTree.
From Coq Require Import NArith List Bool String Ascii.
Import ListNotations.
Open Scope nat_scope.

(** mHw of every node of a tree: NULL or the address of an HwInterface, then the
    children.  Node.hpp 335. *)
Inductive owners := Own (hw : option nat) (ch : list owners).

(** mHw of the node at a position.  Node.hpp 335. *)
Fixpoint owner_at (o : owners) (p : list nat) : option (option nat) :=
  match o with
  | Own h ch =>
      match p with
      | [] => Some h
      | i :: q => match nth_error ch i with Some c => owner_at c q | None => None end
      end
  end.

(** A tree made by NodeTreeBuilder: mHw is NULL everywhere.  Node.cpp 51-52. *)
Fixpoint unowned (t : node) : owners :=
  match t with Node _ _ ch => Own None (map unowned ch) end.

(** HwInterface::claimNode, HwInterface.cpp 69-75. *)
Fixpoint claim (h : nat) (o : owners) : owners :=
  match o with Own _ ch => Own (Some h) (map (claim h) ch) end.

(** An HwInterface: mClientInterface and mNode.  HwInterface.hpp 157-161. *)
Record hwif := mkHwif { w_client : nat; w_tree : nat }.

(** Memory: HwInterface objects ([None]: destroyed), trees with the mHw of their
    nodes, and the mNode of each client ([None]: never assigned).
    HwInterface.hpp 157-161, ClientInterface.hpp 416. *)
Record hws := mkHws {
  m_hw : list (option hwif);
  m_tree : list (node * owners);
  m_weak : list (option nat)
}.

(** What a program does with HwInterface objects: makes a client; makes an
    HwInterface from a client and a new tree; copies; assigns; destroys.
    HwInterface.cpp 46-65. *)
Inductive hcmd :=
| HClient
| HMake (c : nat) (t : node)
| HCopyOf (h : nat)
| HAssignTo (h k : nat)      (* h = k *)
| HDestroy (h : nat).

(** The object at an address.  Not in the code. *)
Definition object (s : hws) (h : nat) : option hwif :=
  match nth_error (m_hw s) h with Some (Some w) => Some w | _ => None end.

(** Both constructors: the new object claims the nodes, and the client's mNode
    becomes the tree.  HwInterface.cpp 46-61. *)
Definition construct (s : hws) (c : nat) (t : node) (o : owners) : hws :=
  let h := List.length (m_hw s) in
  let k := List.length (m_tree s) in
  mkHws (m_hw s ++ [Some (mkHwif c k)]) (m_tree s ++ [(t, claim h o)])
        (upd (m_weak s) c (fun _ => Some k)).

(** One command; [None]: it uses an object that does not exist.
    HwInterface.cpp 46-65, HwInterface.hpp 55-163. *)
Definition hcmd_step (s : hws) (c : hcmd) : option hws :=
  match c with
  | HClient => Some (mkHws (m_hw s) (m_tree s) (m_weak s ++ [None]))
  | HMake c t => if Nat.ltb c (List.length (m_weak s)) then Some (construct s c t (unowned t)) else None
  | HCopyOf h =>
      match object s h with
      | None => None
      | Some w =>
          match nth_error (m_tree s) (w_tree w) with
          | None => None
          | Some (t, o) => Some (construct s (w_client w) (clone t) o)
          end
      end
  | HAssignTo h k =>
      match object s h, object s k with
      | Some _, Some w => Some (mkHws (upd (m_hw s) h (fun _ => Some w)) (m_tree s) (m_weak s))
      | _, _ => None
      end
  | HDestroy h =>
      match object s h with
      | None => None
      | Some _ => Some (mkHws (upd (m_hw s) h (fun _ => None)) (m_tree s) (m_weak s))
      end
  end.

(** A sequence of commands.  Not in the code. *)
Fixpoint hcmds (s : hws) (cs : list hcmd) : option hws :=
  match cs with
  | [] => Some s
  | c :: r => match hcmd_step s c with Some s' => hcmds s' r | None => None end
  end.

(** Nothing made yet.  Not in the code. *)
Definition no_hw : hws := mkHws [] [] [].

(** The shared_ptr to tree [k] is held by some HwInterface.  HwInterface.hpp 161. *)
Definition tree_alive (s : hws) (k : nat) : bool :=
  existsb (fun w => match w with Some w => Nat.eqb (w_tree w) k | None => false end) (m_hw s).

(** Where an access through a node ends: at a client, or in undefined behaviour
    (node destroyed, mHw NULL, or the HwInterface it points to destroyed).
    Node.cpp 517-704. *)
Inductive target := ToClient (c : nat) | Undefined.

(** mHw->getClient() for the node at position [p] of tree [k].
    Node.cpp 517-704, HwInterface.cpp 78-81. *)
Definition node_client (s : hws) (k : nat) (p : list nat) : target :=
  if negb (tree_alive s k) then Undefined else
  match nth_error (m_tree s) k with
  | None => Undefined
  | Some (_, o) =>
      match owner_at o p with
      | Some (Some h) => match object s h with Some w => ToClient (w_client w) | None => Undefined end
      | _ => Undefined
      end
  end.

(** The result of getNode: a reference to the node at a position of a tree, an
    exception, or undefined behaviour.  HwInterface.cpp 137-140. *)
Inductive node_ref := RNode (k : nat) (p : list nat) | RNone | RUndefined.

(** HwInterface::getNode, HwInterface.cpp 137-140, Node.cpp 441-475. *)
Definition hw_node (s : hws) (h : nat) (aId : string) : node_ref :=
  match object s h with
  | None => RUndefined
  | Some w =>
      match nth_error (m_tree s) (w_tree w) with
      | None => RUndefined
      | Some (t, _) =>
          match get_node t aId with
          | Found p => RNode (w_tree w) p
          | NotFound => RNone
          | Dangling => RUndefined
          end
      end
  end.

(** The tree that the client uses to describe addresses in error messages:
    mNode.lock().  detail/utilities.cpp 105-111. *)
Definition described_by (s : hws) (c : nat) : option node :=
  match nth_error (m_weak s) c with
  | Some (Some k) => if tree_alive s k then option_map fst (nth_error (m_tree s) k) else None
  | _ => None
  end.
