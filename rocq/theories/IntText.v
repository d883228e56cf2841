(** Texts of integers in messages: uhal/log/include/uhal/log/log_inserters.integer.hxx and
    uhal/log/src/common/log_inserters.integer.cpp.  A text is a list of characters. *)
From Coq Require Import NArith ZArith List Bool PeanoNat Ascii String.
Import ListNotations.
Open Scope Z_scope.

(** integer_base and integer_format, log_inserters.integer.hpp 47-59. *)
Inductive ibase := Bin | Dec | Hex.
Inductive iformat := Fixed | Variable_.

(** The types for which operator<< exists, log_inserters.integer.hxx 256-327: [it_bytes]
    is sizeof(T) (1, 2, 4 or 8), [it_signed] whether T is signed. *)
Record itype := mkT { it_bytes : nat; it_signed : bool }.

(** The bits of a value in memory: two's complement, as on all platforms of uHAL. *)
Definition raw (t : itype) (v : Z) : N := Z.to_N (v mod 2 ^ Z.of_nat (8 * it_bytes t)).

(** Conversion to int32_t. *)
Definition to_int32 (z : Z) : Z := let m := z mod 2 ^ 32 in if m <? 2 ^ 31 then m else m - 2 ^ 32.

(** Zeros before the digits: lines 64-72, 105-113, 129-137; [width] is the template
    parameter WIDTH, [n] the number of characters that follow. *)
Definition pad (width n : Z) : list ascii :=
  let i := to_int32 (width - n) in
  if 0 <? i then repeat "0"%char (Z.to_nat i) else [].

(** The loop of lines 78-82, [n] rounds: the highest of [bits] bits is written, then the
    value is shifted.  Simplified: shifting a negative value of a signed type, which
    C++ leaves undefined before C++20, shifts the bits, as compilers do. *)
Fixpoint bin_loop (bits n : nat) (x : N) : list ascii :=
  match n with
  | O => []
  | S m =>
      (if N.testbit x (N.of_nat (bits - 1)) then "1" else "0")%char :: bin_loop bits m ((2 * x) mod 2 ^ N.of_nat bits)%N
  end.

(** Lines 59-83. *)
Definition print_bin_fixed (t : itype) (width v : Z) : list ascii :=
  let size := (8 * it_bytes t)%nat in
  list_ascii_of_string "0b" ++ pad width (Z.of_nat size) ++ bin_loop size size (raw t v).

(** The loop of lines 171-181; [p] is lPrint. *)
Fixpoint bin_loop_var (bits n : nat) (x : N) (p : bool) : list ascii :=
  match n with
  | O => []
  | S m =>
      let c := N.testbit x (N.of_nat (bits - 1)) in
      let p' := p || c in
      (if p' then [(if c then "1" else "0")%char] else []) ++ bin_loop_var bits m ((2 * x) mod 2 ^ N.of_nat bits)%N p'
  end.
(** Lines 154-183. *)
Definition print_bin_variable (t : itype) (v : Z) : list ascii :=
  if v =? 0 then list_ascii_of_string "0b0"
  else let size := (8 * it_bytes t)%nat in
       list_ascii_of_string "0b" ++ bin_loop_var size size (raw t v) false.

(** sign_helper: line 55, and log_inserters.integer.cpp 38-72. *)
Definition sign (t : itype) (v : Z) : list ascii := if it_signed t && (v <? 0) then ["-"%char] else [].

(** lCharacterMappingCenter + d, lines 89-90, 101: [None] outside the array. *)
Definition centre_char (d : Z) : option ascii :=
  if d <? -9 then None else nth_error (list_ascii_of_string "9876543210123456789") (Z.to_nat (9 + d)).

(** The loop of lines 97-103 (198-204), which fills lBuffer: the lowest digit first;
    division rounds towards zero; [room]: the characters still free of the 24 of the
    buffer, [None] if there are not enough.  Simplified: the pointer
    lCharacterMappingCenter + tmp_value, which for large numbers is no pointer into the
    array, is not looked at before value * 10 is subtracted. *)
Fixpoint dec_loop (room : nat) (v : Z) : option (list ascii) :=
  match room with
  | O => None
  | S m =>
      let q := Z.quot v 10 in
      match centre_char (v - q * 10) with
      | None => None
      | Some c =>
          if q =? 0 then Some [c]
          else match dec_loop m q with Some l => Some (c :: l) | None => None end
      end
  end.
(** Lines 86-120. *)
Definition print_dec_fixed (t : itype) (width v : Z) : option (list ascii) :=
  match dec_loop 24 v with
  | Some l => Some (sign t v ++ pad width (Z.of_nat (List.length l)) ++ rev l)
  | None => None
  end.
(** Lines 187-211. *)
Definition print_dec_variable (t : itype) (v : Z) : option (list ascii) :=
  match dec_loop 24 v with
  | Some l => Some (sign t v ++ rev l)
  | None => None
  end.

(** lCharacterMapping + d, lines 127, 218; d is below 16. *)
Definition hex_char (d : N) : ascii := nth (N.to_nat d) (list_ascii_of_string "0123456789ABCDEF") "?"%char.

(** The k-th byte in memory: lowest first, as on all platforms of uHAL. *)
Definition byte_at (x : N) (k : nat) : N := ((x / 2 ^ (8 * N.of_nat k)) mod 256)%N.

(** The loop of lines 142-148, for the lowest [n] bytes. *)
Fixpoint hex_loop (n : nat) (x : N) : list ascii :=
  match n with
  | O => []
  | S m => hex_char (N.shiftr (N.land (byte_at x m) 0xF0) 4) :: hex_char (N.land (byte_at x m) 0x0F) :: hex_loop m x
  end.
(** Lines 123-149. *)
Definition print_hex_fixed (t : itype) (width v : Z) : list ascii :=
  list_ascii_of_string "0x" ++ pad width (Z.of_nat (2 * it_bytes t)) ++ hex_loop (it_bytes t) (raw t v).

(** The loop of lines 233-250; [p] is lPrint. *)
Fixpoint hex_loop_var (n : nat) (x : N) (p : bool) : list ascii :=
  match n with
  | O => []
  | S m =>
      let h := N.shiftr (N.land (byte_at x m) 0xF0) 4 in
      let p1 := p || negb (N.eqb h 0) in
      let l := N.land (byte_at x m) 0x0F in
      let p2 := p1 || negb (N.eqb l 0) in
      (if p1 then [hex_char h] else []) ++ (if p2 then [hex_char l] else []) ++ hex_loop_var m x p2
  end.
(** Lines 215-252. *)
Definition print_hex_variable (t : itype) (v : Z) : list ascii :=
  if v =? 0 then list_ascii_of_string "0x0"
  else list_ascii_of_string "0x" ++ hex_loop_var (it_bytes t) (raw t v) false.

(** print, by format.  [None]: outside an array. *)
Definition print (t : itype) (b : ibase) (f : iformat) (width v : Z) : option (list ascii) :=
  match b, f with
  | Bin, Fixed => Some (print_bin_fixed t width v)
  | Dec, Fixed => print_dec_fixed t width v
  | Hex, Fixed => Some (print_hex_fixed t width v)
  | Bin, Variable_ => Some (print_bin_variable t v)
  | Dec, Variable_ => print_dec_variable t v
  | Hex, Variable_ => Some (print_hex_variable t v)
  end.
