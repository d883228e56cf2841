(** The programs that read all registers of a device: the script uhal_inspect_registers.py and the
    thread of the GUI that polls the hardware; Node::getNodes with an expression.

    Source: /repo/uhal/tools/scripts/uhal_inspect_registers.py 14-25,
    /repo/uhal/gui/pkg/uhal/gui/utilities/hardware_monitoring.py 49-97 and
    /repo/uhal/uhal/src/common/Node.cpp 492-513.

    Simplifications: the expression is any function of the path; the device is a function of the
    address, [None] being a bus error (or any other failure of that access). *)
From Coq Require Import NArith List Bool String Ascii.
From Verif Require Import Word ValMem Client NodeTree.
Import ListNotations.
Open Scope N_scope.

(** operator<= of strings, by the codes of the characters; as used by std::sort in Node.cpp 511 and
    by sorted in uhal_inspect_registers.py 19. *)
Fixpoint sleb (s r : string) : bool :=
  match s, r with
  | EmptyString, _ => true
  | String _ _, EmptyString => false
  | String a s, String b r => (N_of_ascii a <? N_of_ascii b) || ((N_of_ascii a =? N_of_ascii b) && sleb s r)
  end.
(** One step of sorting.  Node.cpp 511; the algorithm is another one. *)
Fixpoint sinsert (s : string) (l : list string) : list string :=
  match l with [] => [s] | x :: r => if sleb s x then s :: x :: r else x :: sinsert s r end.
(** std::sort, Node.cpp 511, and sorted, uhal_inspect_registers.py 19. *)
Definition ssort (l : list string) : list string := fold_right sinsert [] l.

(** Paths, unless one could not be computed (an exception of getRelativePath), Node.cpp 500. *)
Fixpoint all_some (l : list (option string)) : option (list string) :=
  match l with [] => Some [] | x :: r => match x, all_some r with Some s, Some t => Some (s :: t) | _, _ => None end end.

(** Node::getNodes(), Node.cpp 478-489, as a list of paths. *)
Definition names (t : node) (p : list nat) : option (list string) :=
  match get_nodes t p with Some l => all_some l | None => None end.
(** Node::getNodes(regex), Node.cpp 492-513; [keep]: boost::regex_match. *)
Definition names_matching (keep : string -> bool) (t : node) (p : list nat) : option (list string) :=
  option_map (fun l => ssort (filter keep l)) (names t p).

(** What a program ends with: values, an exception, undefined behaviour (a stale pointer).
    uhal_inspect_registers.py 14-25. *)
Inductive dump := Values (l : list (string * N)) | Raised | Stale.

(** The read of a node of given permission, if it is to be read.  [inl]: the outcome when it cannot.
    uhal_inspect_registers.py 20-22. *)
Definition queue_one (n : node) (x : string) : dump + list (string * op) :=
  match get_node n x with
  | NotFound => inl Raised
  | Dangling => inl Stale
  | Found q =>
      match get n q with
      | None => inl Stale
      | Some m =>
          if a_w (n_at m) && negb (a_r (n_at m)) then inr []
          else match node_read (n_at m) with inr o => inr [(x, o)] | inl _ => inl Raised end
      end
  end.
(** The loop, uhal_inspect_registers.py 19-22. *)
Fixpoint queue (n : node) (l : list string) : dump + list (string * op) :=
  match l with
  | [] => inr []
  | x :: r =>
      match queue_one n x with
      | inl e => inl e
      | inr a => match queue n r with inl e => inl e | inr b => inr (a ++ b) end
      end
  end.

(** The value of a read once the dispatch is done: ValWord::value, ValMem.cpp 141-153; [None]: the
    access failed.  Other operations do not occur. *)
Definition answer (mem : N -> option N) (o : op) : option N :=
  match o with
  | ORead a m => match mem a with Some w => word_value (CWord true w m) | None => None end
  | _ => None
  end.
(** dispatch: an exception if one of the accesses fails.  uhal_inspect_registers.py 23. *)
Fixpoint dispatch (mem : N -> option N) (l : list (string * op)) : dump :=
  match l with
  | [] => Values []
  | (x, o) :: r =>
      match answer mem o, dispatch mem r with
      | Some v, Values l => Values ((x, v) :: l)
      | _, _ => Raised
      end
  end.

(** snapshot, uhal_inspect_registers.py 14-25, of the node at [p] of the tree of a device. *)
Definition snapshot (keep : string -> bool) (mem : N -> option N) (t : node) (p : list nat) : dump :=
  match get t p, names_matching keep t p with
  | Some n, Some l => match queue n (ssort l) with inl e => e | inr a => dispatch mem a end
  | _, _ => Stale
  end.

(** One node of the polling thread: nothing if it has nodes below it or is not readable;
    exceptions are logged and the node left out.  hardware_monitoring.py 73-91; "READ" is in
    the names of the permissions with the bit READ. *)
Definition poll_one (n : node) (x : string) : list (string * op) :=
  match get_node n x with
  | Found q =>
      match get n q with
      | None => []
      | Some m =>
          match names m [] with
          | Some [] => if a_r (n_at m) then match node_read (n_at m) with inr o => [(x, o)] | inl _ => [] end else []
          | _ => []
          end
      end
  | _ => []
  end.
(** One round of the polling thread for a device: its entry in the message, if any.
    hardware_monitoring.py 66-97; a path occurs once, so the dictionary is a list. *)
Definition poll (mem : N -> option N) (t : node) : dump :=
  match names t [] with Some l => dispatch mem (flat_map (poll_one t) l) | None => Stale end.
