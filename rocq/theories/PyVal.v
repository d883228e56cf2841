(** Words and vectors of words as objects of Python.

    Sources: /repo/uhal/python/src/common/cactus_pycohal.cpp 141-220 and 264-303,
    /repo/uhal/python/pkg/uhal/__init__.py 27-75, /repo/uhal/uhal/src/common/ValMem.cpp
    140-153 and 263-387.

    Simplifications (all of the model): pybind11 and CPython are not in the repository;
    what they do here is taken from their documentation: the conversion of an index to
    int, py::slice::compute (PySlice_GetIndicesEx), py::make_iterator, and the
    translation of std::out_of_range to IndexError. *)
From Coq Require Import NArith ZArith QArith List Bool String Ascii.
From Verif Require Import Word.
From Verif Require ValMem OverlapText.
Import ListNotations.
Open Scope Z_scope.

(** What a call from Python gives: a value or an exception.  cactus_pycohal.cpp 156-178;
    ValMem.cpp 264-276. *)
Inductive pyres (A : Type) := PyOk (a : A) | NonValidated | IndexError | TypeError | ValueError.
Arguments PyOk {A}.
Arguments NonValidated {A}.
Arguments IndexError {A}.
Arguments TypeError {A}.
Arguments ValueError {A}.

(** size_t has 64 bits and int 32; conversions are modulo.  cactus_pycohal.cpp 156-178. *)
Definition size_t_of (z : Z) : Z := z mod 2 ^ 64.
(** Conversion to int, cactus_pycohal.cpp 159 and 163. *)
Definition int_of (z : Z) : Z := (z + 2 ^ 31) mod 2 ^ 32 - 2 ^ 31.

(** The members of a ValVector that matter here: the flag and the values.  ValMem.hpp
    123-139. *)
Record vec := { v_valid : bool; v_value : list N }.

(** size(), ValMem.cpp 280-283. *)
Definition size (v : vec) : Z := Z.of_nat (List.length (v_value v)).

(** at(), ValMem.cpp 264-276, with the translation of std::out_of_range. *)
Definition at_ (v : vec) (i : Z) : pyres N :=
  if v_valid v then match nth_error (v_value v) (Z.to_nat i) with Some x => PyOk x | None => IndexError end
  else NonValidated.

(** ** Indices *)

(** getItem, cactus_pycohal.cpp 157-169; an index that is no int fits no overload. *)
Definition get_item (v : vec) (i : Z) : pyres N :=
  if (i <? - 2 ^ 31) || (2 ^ 31 <=? i) then TypeError
  else if int_of (size v) <=? i then IndexError
  else
    let i := if i <? 0 then int_of (size_t_of (size_t_of i + size v)) else i in
    if i <? 0 then IndexError else at_ v i.

(** ** Slices *)

(** A slice object of Python.  cactus_pycohal.cpp 171. *)
Record slice := { sl_start : option Z; sl_stop : option Z; sl_step : option Z }.

(** Py_ssize_t.  PySlice_GetIndicesEx, called in cactus_pycohal.cpp 174. *)
Definition ssize_max : Z := 2 ^ 63 - 1.
(** Numbers of Python beyond the range of Py_ssize_t are replaced by its ends.  The
    first half of PySlice_GetIndicesEx, called in cactus_pycohal.cpp 174. *)
Definition clip (z : Z) : Z := Z.max (- 2 ^ 63) (Z.min ssize_max z).

(** start or stop within the length.  The second half of PySlice_GetIndicesEx, called
    in cactus_pycohal.cpp 174. *)
Definition adjust (len step i : Z) : Z :=
  if i <? 0 then (let i := i + len in if i <? 0 then (if step <? 0 then -1 else 0) else i)
  else if len <=? i then (if step <? 0 then len - 1 else len) else i.

(** How many.  The end of PySlice_GetIndicesEx, called in cactus_pycohal.cpp 174;
    Z.quot: division of C. *)
Definition how_many (start stop step : Z) : Z :=
  if step <? 0 then (if stop <? start then Z.quot (start - stop - 1) (- step) + 1 else 0)
  else (if start <? stop then Z.quot (stop - start - 1) step + 1 else 0).

(** py::slice::compute, cactus_pycohal.cpp 174: start, step and slicelength as size_t;
    [None] is ValueError. *)
Definition compute (len : Z) (s : slice) : option (Z * Z * Z) :=
  let step := match sl_step s with None => 1 | Some k => Z.max (- ssize_max) (clip k) end in
  if step =? 0 then None
  else
    let start := adjust len step (match sl_start s with None => if step <? 0 then ssize_max else 0 | Some a => clip a end) in
    let stop := adjust len step (match sl_stop s with None => if step <? 0 then - 2 ^ 63 else ssize_max | Some b => clip b end) in
    Some (size_t_of start, size_t_of step, size_t_of (how_many start stop step)).

(** The loop of cactus_pycohal.cpp 178-181. *)
Fixpoint copy (v : vec) (n : nat) (start step : Z) : pyres (list N) :=
  match n with
  | O => PyOk []
  | S n' =>
      match at_ v start with
      | PyOk x => match copy v n' (size_t_of (start + step)) step with PyOk r => PyOk (x :: r) | e => e end
      | NonValidated => NonValidated
      | IndexError => IndexError
      | TypeError => TypeError
      | ValueError => ValueError
      end
  end.

(** getSlice, cactus_pycohal.cpp 171-183. *)
Definition get_slice (v : vec) (s : slice) : pyres (list N) :=
  match compute (size v) s with
  | None => ValueError
  | Some (start, step, n) => copy v (Z.to_nat n) start step
  end.

(** ** Texts *)

(** operator<< for a uint32_t in decimal, cactus_pycohal.cpp 188 and 199. *)
Definition decimal (n : N) : OverlapText.text := OverlapText.digits 10 10 n.

(** The loop of cactus_pycohal.cpp 197-205 from index [i], with [n] rounds left; what
    is on the stream so far is [out]. *)
Fixpoint str_loop (v : vec) (n : nat) (i : Z) (out : OverlapText.text) : pyres OverlapText.text :=
  match n with
  | O => PyOk out
  | S n' =>
      match at_ v i with
      | PyOk x =>
          let out := out ++ decimal x in
          let out := if i =? size_t_of (size v - 1) then out else out ++ OverlapText.lit ", " in
          str_loop v n' (i + 1) out
      | NonValidated => NonValidated
      | IndexError => IndexError
      | TypeError => TypeError
      | ValueError => ValueError
      end
  end.

(** convert_to_string of a vector, cactus_pycohal.cpp 191-209. *)
Definition str_vec (v : vec) : pyres OverlapText.text :=
  match str_loop v (List.length (v_value v)) 0 (OverlapText.lit "[") with
  | PyOk out => PyOk (out ++ OverlapText.lit "]")
  | e => e
  end.

(** convert_to_string of a word, cactus_pycohal.cpp 186-189. *)
Definition str_word (c : ValMem.cell) : pyres OverlapText.text :=
  match ValMem.word_value c with Some x => PyOk (decimal x) | None => NonValidated end.

(** ** Iterators *)

(** An iterator of py::make_iterator(v.begin(), v.end()), cactus_pycohal.cpp 290:
    where it is, and whether it is fresh or at its end. *)
Record iter := { i_pos : nat; i_fresh : bool }.

(** How many handles share the values, in Python and elsewhere, and the iterators.
    An iterator is no handle: there is no keep_alive in cactus_pycohal.cpp 290 (there is
    one for nodes, 329).  The values go with the last handle, ValMem.cpp 196-199. *)
Record shared := { s_refs : nat; s_iters : list iter }.

(** What a program does: copy a handle, drop one, ask for an iterator, ask an iterator
    for its next item.  cactus_pycohal.cpp 281 and 290. *)
Inductive event := Copy | Drop | Iter | Next (k : nat).

(** What it gets; [Freed]: memory that was given back is read.  cactus_pycohal.cpp
    281-290. *)
Inductive answer := Nothing | Item (x : N) | Stop | Raises | Freed.

(** Replaces an element.  Not in the code: assignment to one of the iterators,
    cactus_pycohal.cpp 290. *)
Fixpoint set_nth {A} (l : list A) (k : nat) (x : A) : list A :=
  match l, k with [], _ => [] | _ :: r, O => x :: r | y :: r, S k => y :: set_nth r k x end.

(** __next__ of py::make_iterator: moves unless fresh, stops at the end, reads.
    cactus_pycohal.cpp 290. *)
Definition next (v : vec) (alive : bool) (it : iter) : iter * answer :=
  let p := if i_fresh it then i_pos it else S (i_pos it) in
  if Nat.eqb p (List.length (v_value v)) then ({| i_pos := p; i_fresh := true |}, Stop)
  else ({| i_pos := p; i_fresh := false |},
        if alive then match nth_error (v_value v) p with Some x => Item x | None => Freed end else Freed).

(** One action; those for which there is no object do nothing.  cactus_pycohal.cpp 281
    and 290; begin() and end(): ValMem.cpp 311-339. *)
Definition act (v : vec) (s : shared) (e : event) : shared * answer :=
  match e with
  | Copy => (match s_refs s with O => s | S _ => {| s_refs := S (s_refs s); s_iters := s_iters s |} end, Nothing)
  | Drop => ({| s_refs := pred (s_refs s); s_iters := s_iters s |}, Nothing)
  | Iter =>
      match s_refs s with
      | O => (s, Nothing)
      | S _ => if v_valid v then ({| s_refs := s_refs s; s_iters := s_iters s ++ [{| i_pos := 0; i_fresh := true |}] |}, Nothing)
               else (s, Raises)
      end
  | Next k =>
      match nth_error (s_iters s) k with
      | None => (s, Nothing)
      | Some it =>
          let '(it', a) := next v (negb (Nat.eqb (s_refs s) 0)) it in
          ({| s_refs := s_refs s; s_iters := set_nth (s_iters s) k it' |}, a)
      end
  end.

(** A program, from one handle on.  cactus_pycohal.cpp 281 and 290. *)
Fixpoint run (v : vec) (s : shared) (l : list event) : list answer :=
  match l with [] => [] | e :: r => let '(s', a) := act v s e in a :: run v s' r end.

(** ** Words *)

(** The other operand.  __init__.py 33-41.  Simplified: of the types of Python those
    used with numbers; a float is a rational number; a str is just that. *)
Inductive operand := OInt (z : Z) | OFloat (q : Q) | OStr | OWord (c : ValMem.cell) | ONone.

(** int(other): value() of a word, the part before the point of a float.
    __init__.py 41; cactus_pycohal.cpp 270. *)
Definition int_operand (o : operand) : pyres Z :=
  match o with
  | OInt z => PyOk z
  | OFloat q => PyOk (Z.quot (Qnum q) (Zpos (Qden q)))
  | OStr => ValueError
  | OWord c => match ValMem.word_value c with Some x => PyOk (Z.of_N x) | None => NonValidated end
  | ONone => TypeError
  end.

(** The methods that are added to words, by the method of int with two arguments;
    [None]: NotImplemented, what methods of int give for a str.  __init__.py 33-41 with
    Python 3. *)
Definition word_method {R} (m : Z -> Z -> R) (self : ValMem.cell) (o : operand) : pyres (option R) :=
  match ValMem.word_value self with
  | None => NonValidated
  | Some x =>
      match o with
      | OInt z => PyOk (Some (m (Z.of_N x) z))
      | OStr => PyOk None
      | _ => match int_operand o with
             | PyOk z => PyOk (Some (m (Z.of_N x) z))
             | NonValidated => NonValidated | IndexError => IndexError | TypeError => TypeError | ValueError => ValueError
             end
      end
  end.
