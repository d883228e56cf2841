(** What C107 says of the text of a number. *)
From Coq Require Import NArith ZArith List Bool PeanoNat Ascii String.
From Verif Require Import IntText.
Import ListNotations.
Open Scope Z_scope.

(** The types, and their values. *)
Definition integer_type (t : itype) : Prop := In (it_bytes t) [1; 2; 4; 8]%nat.
Definition bits_of (t : itype) : Z := 8 * Z.of_nat (it_bytes t).
Definition in_range (t : itype) (v : Z) : Prop :=
  if it_signed t then - 2 ^ (bits_of t - 1) <= v < 2 ^ (bits_of t - 1) else 0 <= v < 2 ^ bits_of t.

(** The number that stands for a value in binary and hexadecimal: negative values plus
    two to the number of bits. *)
Definition unsigned (t : itype) (v : Z) : Z := if v <? 0 then v + 2 ^ bits_of t else v.

(** Digits. *)
Definition digit (c : ascii) : option Z :=
  let n := Z.of_N (N_of_ascii c) in
  if (48 <=? n) && (n <=? 57) then Some (n - 48)
  else if (65 <=? n) && (n <=? 70) then Some (n - 55) else None.

(** [denotes base ds n]: the digits [ds] denote [n]. *)
Inductive denotes (base : Z) : list ascii -> Z -> Prop :=
| D_one c d : digit c = Some d -> d < base -> denotes base [c] d
| D_more c d ds n : digit c = Some d -> d < base -> denotes base ds n ->
    denotes base (c :: ds) (d * base ^ Z.of_nat (List.length ds) + n).

(** No zero in front. *)
Definition shortest (ds : list ascii) : Prop := ds = ["0"%char] \/ exists c t, ds = c :: t /\ c <> "0"%char.

Definition base_of (b : ibase) : Z := match b with Bin => 2 | Dec => 10 | Hex => 16 end.
(** What comes before the digits, and the number that the digits are to denote. *)
Definition front (t : itype) (b : ibase) (v : Z) : list ascii :=
  match b with
  | Bin => ["0"; "b"]%char
  | Hex => ["0"; "x"]%char
  | Dec => if v <? 0 then ["-"%char] else []
  end.
Definition amount (t : itype) (b : ibase) (v : Z) : Z :=
  match b with Dec => Z.abs v | _ => unsigned t v end.
(** The least number of digits in fixed format, by the type: all bits. *)
Definition least (t : itype) (b : ibase) : Z :=
  match b with Bin => bits_of t | Hex => bits_of t / 4 | Dec => 1 end.
