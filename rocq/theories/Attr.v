(** Numbers in XML attributes.

    Source: /repo/uhal/uhal/src/common/utilities/xml.cpp lines 217-285. *)
From Coq Require Import NArith List Bool String Ascii.
Import ListNotations.
Open Scope N_scope.

(** Value of a digit, as used by the stream extraction in base 10 or 16, xml.cpp 264. *)
Definition digit (c : ascii) : option N :=
  let n := N_of_ascii c in
  if (48 <=? n) && (n <=? 57) then Some (n - 48)
  else if (97 <=? n) && (n <=? 102) then Some (n - 87)
  else if (65 <=? n) && (n <=? 70) then Some (n - 55)
  else None.

(** Member of the character set given to find_first_not_of, xml.cpp 250. *)
Definition in_set (hex : bool) (c : ascii) : bool :=
  match digit c with Some d => hex || (d <? 10) | None => false end.
Fixpoint all_in_set (hex : bool) (s : string) : bool :=
  match s with EmptyString => true | String c r => in_set hex c && all_in_set hex r end.

(** ss >> lTarget, xml.cpp 264: at most 10 characters, so no overflow of uint64_t. *)
Fixpoint extract (hex : bool) (acc : N) (s : string) : N :=
  match s with
  | EmptyString => acc
  | String c r => extract hex (acc * (if hex then 16 else 10) + match digit c with Some d => d | None => 0 end) r
  end.

(** The letter of the prefix, xml.cpp 232-248. *)
Definition is_x (c : ascii) : bool := Ascii.eqb c "x" || Ascii.eqb c "X".

(** lBasePrefixLength, xml.cpp 231-248. *)
Definition prefix_length (s : string) : nat :=
  let p := if Nat.ltb 2 (String.length s) then
             match s with
             | String a (String b _) => if Ascii.eqb a "0" && is_x b then 2%nat else 0%nat
             | _ => 0%nat
             end
           else 0%nat in
  if Nat.ltb 1 (String.length s) then
    match s with String a _ => if is_x a then 1%nat else p | _ => p end
  else p.

(** GetXMLattribute for uint32_t, on the value of an attribute that is present,
    lines 217-285; [None]: one of its exceptions. *)
Definition parse_u32 (s : string) : option N :=
  if Nat.eqb (String.length s) 0 then None
  else
    let p := prefix_length s in
    let hex := negb (Nat.eqb p 0) in
    let r := substring p (String.length s - p) s in
    if negb (all_in_set hex r) then None
    else if Nat.ltb 10 (String.length r) then None
    else
      let n := extract hex 0 r in
      if negb (N.shiftr n 32 =? 0) then None else Some n.
