(** Model of validated memory: the handles returned to the user.

    Source: /repo/uhal/uhal/src/common/ValMem.cpp lines 43-402.
    A handle is an index into a heap of cells ([shared_ptr] members shared by
    all copies of the handle).  The deque of raw reply headers kept inside each
    cell (IPbusHeaders) is not user visible and is modelled as part of the
    packet, see [Client.dest]. *)
From Verif Require Import Word Bits.
From Coq Require Import NArith List Bool.
Import ListNotations.
Open Scope N_scope.

(** _ValHeader_ / _ValWord_ / _ValVector_ (ValMem.cpp 43-66; fields in ValMem.hpp):
    validity flag, received value(s), bit-mask. *)
Inductive cell :=
| CHdr (valid : bool)
| CWord (valid : bool) (value mask : N)
| CVec (valid : bool) (values : list N).

(** ValMem.cpp 77-80, 111-115, 216-220: [valid()]. *)
Definition cell_valid (c : cell) : bool :=
  match c with CHdr v => v | CWord v _ _ => v | CVec v _ => v end.

(** ValMem.cpp 82-85, 118-122, 223-227: [valid(bool)] with argument [true], the only
    value the library passes (Buffers.cpp 107-117). *)
Definition cell_validate (c : cell) : cell :=
  match c with
  | CHdr _ => CHdr true
  | CWord _ x m => CWord true x m
  | CVec _ l => CVec true l
  end.

(** ValMem.cpp 141-153: [ValWord::value()]; [None] is the exception
    NonValidatedMemory. *)
Definition word_value (c : cell) : option N :=
  match c with
  | CWord true x m => Some (masked_value x m)
  | _ => None
  end.

(** ValMem.cpp 374-387 (value()), 247-276, 286-299, 310-371 (operator[], at, data,
    iterators):
    every accessor of the contents of a [ValVector] tests the flag first; [None]
    is NonValidatedMemory. *)
Definition vec_value (c : cell) : option (list N) :=
  match c with
  | CVec true l => Some l
  | _ => None
  end.

(** ValMem.cpp 264-276: [ValVector::at]; out of range and non-validated both
    raise, hence [None]. *)
Definition vec_at (c : cell) (i : nat) : option N :=
  match c with
  | CVec true l => nth_error l i
  | _ => None
  end.

(** ValMem.cpp 280-283: [size()] is not guarded by the validity flag. *)
Definition vec_size (c : cell) : option nat :=
  match c with CVec _ l => Some (length l) | _ => None end.

(** ValMem.cpp 157-169: [ValWord::value(x)]; [None] is
    ValMemImutabilityViolation. *)
Definition word_set (c : cell) (x : N) : option cell :=
  match c with
  | CWord false _ m => Some (CWord false x m)
  | _ => None
  end.

(** ValMem.cpp 126-130: [ValWord::operator=]: no check of the flag. *)
Definition word_assign (c : cell) (x : N) : cell :=
  match c with
  | CWord v _ m => CWord v x m
  | _ => c
  end.

(** ValMem.cpp 232-244: [ValVector::push_back]. *)
Definition vec_push (c : cell) (x : N) : option cell :=
  match c with
  | CVec false l => Some (CVec false (l ++ [x]))
  | _ => None
  end.

(** ValMem.cpp 390-402: [ValVector::value(v)]. *)
Definition vec_set (c : cell) (l : list N) : option cell :=
  match c with
  | CVec false _ => Some (CVec false l)
  | _ => None
  end.

(** ValMem.cpp 303-307: [ValVector::clear]. *)
Definition vec_clear (c : cell) : cell :=
  match c with
  | CVec _ _ => CVec false []
  | _ => c
  end.

(** ValMem.cpp 180-183: [ValWord::mask(m)]: no check of the flag. *)
Definition word_set_mask (c : cell) (m : N) : cell :=
  match c with
  | CWord v x _ => CWord v x m
  | _ => c
  end.

(** Heap update at one index (C++ pointer write).  As the memcpy of ProtocolUDP.cpp 354. *)
Fixpoint upd {A} (l : list A) (i : nat) (f : A -> A) : list A :=
  match l, i with
  | [], _ => []
  | x :: t, O => f x :: t
  | x :: t, S j => x :: upd t j f
  end.
