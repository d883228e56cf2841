(** What the texts of exceptions ought to be: each has a text that grows by what is
    appended; a copy has the text of the original; what() tells the text, or the
    description of the class if there is none. *)
From Coq Require Import NArith List Bool PeanoNat Ascii String.
From Verif Require Import ExcText.
Import ListNotations.
Open Scope nat_scope.

(** What a C string says: [t] is what is before the first NUL of [s] and the NUL at its end. *)
Definition says (s t : list ascii) : Prop := ~ In "000"%char t /\ (s = t \/ exists r, s = t ++ "000"%char :: r).

(** An exception: description of the class, text; [None]: destroyed. *)
Definition notes := list (option (list ascii * list ascii)).

(** [means l c l' r]: the command [c] makes [l'] of [l] and what() returned [r]. *)
Inductive means : notes -> xcmd -> notes -> option (list ascii) -> Prop :=
| M_new l d g : means l (XNew d g) (l ++ [Some (d, [])]) None
| M_message l d g s u : says s u -> means l (XMessage d g s) (l ++ [Some (d, u)]) None
| M_copy l i d t g : nth_error l i = Some (Some (d, t)) -> means l (XCopy i g) (l ++ [Some (d, t)]) None
| M_assign l1 d t l2 j d' t' : nth_error (l1 ++ Some (d, t) :: l2) j = Some (Some (d', t')) ->
    means (l1 ++ Some (d, t) :: l2) (XAssign (List.length l1) j) (l1 ++ Some (d, t') :: l2) None
| M_append l1 d t l2 s u : says s u ->
    means (l1 ++ Some (d, t) :: l2) (XAppend (List.length l1) s) (l1 ++ Some (d, t ++ u) :: l2) None
| M_what l1 d t l2 : t <> [] -> means (l1 ++ Some (d, t) :: l2) (XWhat (List.length l1)) (l1 ++ Some (d, t) :: l2) (Some t)
| M_what_empty l1 d l2 u : says (d ++ list_ascii_of_string " (no additional info)") u ->
    means (l1 ++ Some (d, []) :: l2) (XWhat (List.length l1)) (l1 ++ Some (d, u) :: l2) (Some u)
| M_delete l1 d t l2 : means (l1 ++ Some (d, t) :: l2) (XDelete (List.length l1)) (l1 ++ None :: l2) None.

(** Programs. *)
Inductive meant : notes -> list xcmd -> notes -> list (list ascii) -> Prop :=
| M_nil l : meant l [] l []
| M_cons l c l' r cs l'' rs : means l c l' r -> meant l' cs l'' rs ->
    meant l (c :: cs) l'' (match r with Some t => t :: rs | None => rs end).

(** All texts are shorter than the memory. *)
Definition short (l : notes) : Prop :=
  Forall (fun x => match x with Some (_, t) => (N.of_nat (List.length t) < 65536)%N | None => True end) l.

(** The same at every moment of a program. *)
Inductive short_meant : notes -> list xcmd -> notes -> list (list ascii) -> Prop :=
| S_nil l : short l -> short_meant l [] l []
| S_cons l c l' r cs l'' rs : short l -> means l c l' r -> short_meant l' cs l'' rs ->
    short_meant l (c :: cs) l'' (match r with Some t => t :: rs | None => rs end).

(** malloc gives as much memory as was asked for, and nobody assigns an exception to
    itself. *)
Definition proper (c : xcmd) : Prop :=
  match c with
  | XNew _ g | XMessage _ g _ | XCopy _ g => N.of_nat (List.length g) = 65536%N
  | XAssign i j => i <> j
  | _ => True
  end.
