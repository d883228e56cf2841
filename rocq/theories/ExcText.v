(** Texts of exceptions: uhal/log/src/common/exception.cpp and the macros of
    uhal/log/include/uhal/log/exception.hpp.

    Not modelled: mTime, which nothing reads. *)
From Coq Require Import NArith List Bool PeanoNat Ascii String.
Import ListNotations.
Open Scope nat_scope.

Definition nul : ascii := "000"%char.

(** Memory that was allocated: its bytes. *)
Definition block := list ascii.

(** Results: [UB]: undefined behaviour (an access outside the memory, or strcpy of a
    string to itself). *)
Inductive out (T : Type) := Ok (x : T) | UB.
Arguments Ok {T} x. Arguments UB {T}.

(** strlen: [None] when there is no NUL in the memory. *)
Fixpoint strlen (m : block) : option nat :=
  match m with
  | [] => None
  | c :: t => if Ascii.eqb c nul then Some 0 else match strlen t with Some n => Some (S n) | None => None end
  end.

(** The bytes that std::string::c_str() of [s] shows to a function for C strings: those
    before the first NUL. *)
Fixpoint cstr (s : list ascii) : list ascii :=
  match s with
  | [] => []
  | c :: t => if Ascii.eqb c nul then [] else c :: cstr t
  end.

(** The bytes [l] are written at offset [k]. *)
Definition store (m : block) (k : nat) (l : list ascii) : out block :=
  if k + List.length l <=? List.length m then Ok (firstn k m ++ l ++ skipn (k + List.length l) m) else UB.

(** strcpy(dst, src), strncat(dst, src, n), strncpy(dst, src, n) of the C library; for
    the latter two [src] is given by its characters before the NUL. *)
Definition strcpy (dst src : block) : out block :=
  match strlen src with
  | Some k => store dst 0 (firstn (S k) src)
  | None => UB
  end.
Definition strncat (dst : block) (src : list ascii) (n : nat) : out block :=
  match strlen dst with
  | Some k => store dst k (firstn n src ++ [nul])
  | None => UB
  end.
Definition strncpy (dst : block) (src : list ascii) (n : nat) : out block :=
  store dst 0 (firstn n (src ++ repeat nul n)).

(** The size given to malloc, strncat and strncpy: 65536, exception.cpp 55, 65, 99, 106. *)
Definition room : nat := N.to_nat 65536.

(** An exception: what description() of its class says, and the memory mString points
    to. *)
Record exc := mkE { e_desc : list ascii; e_mem : block }.

(** malloc with anything ([g]) in the memory, then mString[0] = '\0':
    exception.cpp 53-59. *)
Definition fresh (g : block) : block := nul :: skipn 1 g.

(** append, exception.cpp 104-107: the number is computed in size_t; it is not negative
    when mString was never overrun. *)
Definition append (e : exc) (s : list ascii) : out exc :=
  match strlen (e_mem e) with
  | None => UB
  | Some k =>
      match strncat (e_mem e) (cstr s) (room - k) with
      | Ok m => Ok (mkE (e_desc e) m)
      | UB => UB
      end
  end.

Definition no_info : list ascii := list_ascii_of_string " (no additional info)".

(** what(), exception.cpp 86-102: the text, and the exception, which it changes. *)
Definition what (e : exc) : out (exc * list ascii) :=
  match strlen (e_mem e) with
  | None => UB
  | Some (S k) => Ok (e, firstn (S k) (e_mem e))
  | Some O =>
      match strncpy (e_mem e) (cstr (e_desc e ++ no_info)) room with
      | Ok m => match strlen m with Some k => Ok (mkE (e_desc e) m, firstn k m) | None => UB end
      | UB => UB
      end
  end.

(** What is done with exceptions; they are numbered in the order of their construction.
    [XNew]: a constructor without message; [XMessage]: with one (exception.hpp 53); [XCopy]: the
    copy constructor, as when an exception is thrown, also by throwAsDerivedType
    (exception.cpp 62-68; exception.hpp 54); [XAssign i j]: the j-th is assigned to the i-th (exception.cpp 70-75);
    [XAppend], [XWhat], [XDelete]. *)
Inductive xcmd :=
| XNew (d : list ascii) (g : block) | XMessage (d : list ascii) (g : block) (s : list ascii)
| XCopy (i : nat) (g : block) | XAssign (i j : nat) | XAppend (i : nat) (s : list ascii)
| XWhat (i : nat) | XDelete (i : nat).

(** All exceptions; [None]: destroyed. *)
Definition excs := list (option exc).
Definition xget (l : excs) (i : nat) : option exc := match nth_error l i with Some x => x | None => None end.
Definition xput (l : excs) (i : nat) (x : option exc) : excs := firstn i l ++ x :: skipn (S i) l.

(** A command: [None]: not possible (no such exception; malloc gives 65536 bytes); otherwise the new state and
    the text what() returned. *)
Definition xstep (l : excs) (c : xcmd) : option (out (excs * option (list ascii))) :=
  match c with
  | XNew d g =>
      if List.length g =? room then Some (Ok (l ++ [Some (mkE d (fresh g))], None)) else None
  | XMessage d g s =>
      if List.length g =? room then
        Some (match append (mkE d (fresh g)) s with Ok e => Ok (l ++ [Some e], None) | UB => UB end)
      else None
  | XCopy i g =>
      match xget l i with
      | Some e =>
          if List.length g =? room then
            Some (match strcpy g (e_mem e) with Ok m => Ok (l ++ [Some (mkE (e_desc e) m)], None) | UB => UB end)
          else None
      | None => None
      end
  | XAssign i j =>
      match xget l i, xget l j with
      | Some e, Some f =>
          Some (if i =? j then UB
                else match strcpy (e_mem e) (e_mem f) with Ok m => Ok (xput l i (Some (mkE (e_desc e) m)), None) | UB => UB end)
      | _, _ => None
      end
  | XAppend i s =>
      match xget l i with
      | Some e => Some (match append e s with Ok e' => Ok (xput l i (Some e'), None) | UB => UB end)
      | None => None
      end
  | XWhat i =>
      match xget l i with
      | Some e => Some (match what e with Ok (e', t) => Ok (xput l i (Some e'), Some t) | UB => UB end)
      | None => None
      end
  | XDelete i =>
      match xget l i with
      | Some e => Some (Ok (xput l i None, None))
      | None => None
      end
  end.

(** A program: the state at its end, and the texts what() returned. *)
Fixpoint xrun (l : excs) (cs : list xcmd) : option (out (excs * list (list ascii))) :=
  match cs with
  | [] => Some (Ok (l, []))
  | c :: t =>
      match xstep l c with
      | None => None
      | Some UB => Some UB
      | Some (Ok (l', r)) =>
          match xrun l' t with
          | None => None
          | Some UB => Some UB
          | Some (Ok (l'', rs)) => Some (Ok (l'', match r with Some x => x :: rs | None => rs end))
          end
      end
  end.
