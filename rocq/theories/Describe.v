(** The text that says which nodes are at an address: part of the message of the
    exception raised after a bus error.

    Sources: /repo/uhal/uhal/src/common/detail/utilities.cpp lines 46-111,
    /repo/uhal/uhal/src/common/Node.cpp lines 707-722,
    /repo/uhal/uhal/src/common/ProtocolIPbusCore.cpp lines 94-110 and 208-221,
    /repo/uhal/uhal/src/common/ProtocolUDP.cpp lines 357-371 and
    ProtocolTCP.cpp lines 487-509. *)
From Coq Require Import NArith List Bool String Ascii PeanoNat DecimalString.
From Verif Require Import Word Header NodeTree Overlap.
Import ListNotations.
Open Scope N_scope.

(** What getAddressDescription ends with: a text, the std::runtime_error of
    getLineage (Node.cpp 714), or a std::out_of_range (of vector::at in
    utilities.cpp 84, of substr in 100-102). *)
Inductive described := DText (s : string) | DNoAncestor | DRange.

(** The condition of lines 51-59: uint32_t arithmetic. *)
Definition hit (a : attrs) (x : N) : bool :=
  match a_mode a with
  | INCREMENTAL => (a_addr a <=? x) && (x <? add32 (a_addr a) (a_size a))
  | HIERARCHICAL => false
  | _ => a_addr a =? x
  end.

(** lMatches, lines 48-60: positions of the nodes instead of pointers. *)
Definition matching (t : node) (x : N) : list (list nat) :=
  filter (fun p => hit (at_pos t p) x) (iterate (size t) t (Some [])).

(** Node::getLineage, Node.cpp 707-722, of the node at [done ++ p], for an ancestor
    that is the root of the tree: the positions above, the highest first.  [None]:
    std::runtime_error, because the node is the root itself or because a pointer
    mParent on the way is NULL. *)
Fixpoint prefixes (done p : list nat) : list (list nat) :=
  match p with
  | [] => []
  | i :: r => done :: prefixes (done ++ [i]) r
  end.
Definition lineage (t : node) (p : list nat) : option (list (list nat)) :=
  match p with
  | [] => None
  | i :: r =>
      if forallb (fun q => a_linked (at_pos t q)) (tl (prefixes [] p) ++ [p])
      then Some (prefixes [] p) else None
  end.

(** Equality of pointers, as positions. *)
Definition pos_eqb (p q : list nat) : bool := if list_eq_dec Nat.eq_dec p q then true else false.

(** The loop of lines 79-83: the number of entries two lineages have in common. *)
Fixpoint in_common (l m : list (list nat)) : nat :=
  match l, m with
  | p :: l', q :: m' => if pos_eqb p q then S (in_common l' m') else O
  | _, _ => O
  end.

(** The loop of lines 76-86: lCommonAncestor and its lineage. *)
Fixpoint common (t : node) (anc : list nat) (lin : list (list nat)) (ms : list (list nat)) : described + list nat :=
  match ms with
  | [] => inr anc
  | p :: r =>
      match lineage t p with
      | None => inl DNoAncestor
      | Some l =>
          let i := in_common l lin in
          match i with
          | O => inl DRange
          | S j => match nth_error l j with
                   | Some a => common t a (firstn i l) r
                   | None => inl DRange
                   end
          end
      end
  end.

(** std::string::substr with one argument; [None]: std::out_of_range. *)
Fixpoint substr (n : nat) (s : string) : option string :=
  match n, s with
  | O, _ => Some s
  | S k, String _ r => substr k r
  | S _, EmptyString => None
  end.

(** getPath of a node of the tree, Node.cpp 197-218. *)
Definition path_at (t : node) (p : list nat) : string :=
  match get_path t p with Some s => s | None => EmptyString end.

(** std::to_string of a size. *)
Definition decimal (n : nat) : string := NilEmpty.string_of_uint (Nat.to_uint n).

(** A name in quotation marks, lines 67, 94, 100, 102, 105. *)
Definition quoted (s : string) : string := (String """" s ++ String """" EmptyString)%string.

(** The names after the first, lines 101-102. *)
Fixpoint others (t : node) (cut : nat) (ms : list (list nat)) : option string :=
  match ms with
  | [] => Some EmptyString
  | p :: r =>
      match substr cut (path_at t p), others t cut r with
      | Some s, Some o => Some (", " ++ quoted s ++ o)%string
      | _, _ => None
      end
  end.

(** getAddressDescription for the root of a tree, lines 46-102. *)
Definition describe (t : node) (x : N) (most : nat) : described :=
  match matching t x with
  | [] => DText "no matching nodes"
  | [p] => DText ("node " ++ quoted (path_at t p))
  | p :: r =>
      match lineage t p with
      | None => DNoAncestor
      | Some lin =>
          match common t p lin r with
          | inl e => e
          | inr anc =>
              if negb (Nat.eqb most 0) && Nat.ltb most (List.length (p :: r))
              then DText (if pos_eqb anc [] then (decimal (List.length (p :: r)) ++ " nodes match")%string
                          else (decimal (List.length (p :: r)) ++ " nodes under " ++ quoted (path_at t anc) ++ " match")%string)
              else
                let cut := if pos_eqb anc [] then O else (String.length (path_at t anc) + 1)%nat in
                match substr cut (path_at t p), others t cut r with
                | Some s, Some o =>
                    DText ("nodes " ++ quoted s ++ o ++
                           (if pos_eqb anc [] then "" else " under " ++ quoted (path_at t anc)))%string
                | _, _ => DRange
                end
          end
      end
  end.

(** getAddressDescription for a client, lines 105-111: its mNode is a weak pointer to
    the root of the tree of a HwInterface, if there is one any more. *)
Definition describe_client (n : option node) (x : N) (most : nat) : described :=
  match n with Some t => describe t x most | None => DText EmptyString end.

(** The address asked for by the constructor of IPbusCoreResponseCodeSet,
    ProtocolIPbusCore.cpp 102: [base] from the packet sent, [wc] from the header of
    the reply. *)
Definition error_address (ty : ttype) (base wc : N) : N :=
  match ty with NI_READ | NI_WRITE => base | _ => add32 base wc end.

(** How a bus error reaches the user.  The constructor is called by validate()
    (ProtocolIPbusCore.cpp 208-221) in the thread of the transport, which catches
    only exceptions of the library (ProtocolUDP.cpp 366, ProtocolTCP.cpp 497): any
    other leaves the function of the thread (ProtocolUDP.cpp 68, ProtocolTCP.cpp 70)
    and ends the process.  [BRaised]: the exception dispatch() raises names these
    nodes. *)
Inductive bus_error := BRaised (names : string) | BTerminate.
Definition report_bus_error (n : option node) (ty : ttype) (base wc : N) : bus_error :=
  match describe_client n (error_address ty base wc) 5 with
  | DText s => BRaised s
  | _ => BTerminate
  end.
