(** The tree of nodes in the memory of the GUI.

    Source: /repo/uhal/gui/pkg/uhal/gui/utilities/hardware.py 8-40 and 193-223.

    Simplifications: mode and permission are not the strings but what these are made from; the value
    shown (initially empty) and the messages are not here. *)
From Coq Require Import NArith List Bool String Ascii.
From Verif Require Import Word ValMem Client NodeTree RegDump.
Import ListNotations.

(** class Node, hardware.py 8-35: its id (a path), the id of its parent, what it copies of the node
    of the device, its children. *)
Inductive gnode := GNode (id parent : string) (addr mask : N) (r w : bool) (md : mode) (size : N) (tags : string) (children : list gnode).
(** get_id, hardware.py 56-57. *)
Definition g_id (g : gnode) : string := match g with GNode x _ _ _ _ _ _ _ _ _ => x end.
(** get_children, hardware.py 53-54. *)
Definition g_children (g : gnode) : list gnode := match g with GNode _ _ _ _ _ _ _ _ _ x => x end.

(** The expression "[^.]*", hardware.py 44 and 223. *)
Definition first_level (s : string) : bool := forallb (fun c => negb (Ascii.eqb c ".")) (list_ascii_of_string s).

(** The results of a loop, unless one of its rounds fails.  Not in the code: exceptions. *)
Fixpoint each {A B} (f : A -> option B) (l : list A) : option (list B) :=
  match l with [] => Some [] | x :: r => match f x, each f r with Some y, Some t => Some (y :: t) | _, _ => None end end.

(** getNode, hardware.py 32 and 209. *)
Definition child_at (n : node) (x : string) : option node := match get_node n x with Found q => get n q | _ => None end.

(** Node.__init__, hardware.py 10-35; [None]: an exception.  [fuel] is never used up when it is at
    least the number of nodes. *)
Fixpoint gui_node (fuel : nat) (n : node) (parent_id : string) : option gnode :=
  match fuel with
  | O => None
  | S f =>
      let a := n_at n in
      let id := match parent_id with EmptyString => a_id a | _ => (parent_id ++ "." ++ a_id a)%string end in
      match names_matching first_level n [] with
      | None => None
      | Some l =>
          option_map (GNode id parent_id (a_addr a) (a_mask a) (a_r a) (a_w a) (a_mode a) (a_size a) (a_tags a))
            (each (fun x => match child_at n x with Some c => gui_node f c id | None => None end) l)
      end
  end.
(** The nodes of one device, HardwareStruct.__load_hardware, hardware.py 201-215. *)
Definition gui_device (t : node) : option (list gnode) :=
  match names_matching first_level t [] with
  | None => None
  | Some l => each (fun x => match child_at t x with Some c => gui_node (size t) c "" | None => None end) l
  end.
(** All devices of the connection file, HardwareStruct.__load_hardware, hardware.py 193-217: names
    and what getDevice gives, [None]: it raises an exception.  The results are the IP end points;
    [None]: the exception leaves the constructor. *)
Definition gui_load (devices : list (string * option node)) : option (list (string * list gnode)) :=
  each (fun d => match snd d with Some t => option_map (pair (fst d)) (gui_device t) | None => None end) devices.
