(** Model of the bit-mask arithmetic of uHAL.

    Sources: /repo/uhal/uhal/src/common/utilities/bits.cpp lines 44-81,
    /repo/uhal/uhal/src/common/ValMem.cpp lines 141-153,
    /repo/uhal/uhal/src/common/ClientInterface.cpp lines 415-442. *)
From Verif Require Import Word.
From Coq Require Import NArith Bool.
Open Scope N_scope.

(** bits.cpp 44-81, [TrailingRightBits]: isolate the lowest set bit with
    [v &= -signed(v)], then the cascade of tests against constants.
    Simplified: [-signed(v)] is modelled as two's complement negation; in C++ it
    is undefined for v = 0x80000000 (negating INT_MIN) and wraps in practice. *)
Definition trailing_right_bits (v0 : N) : N :=
  let v := N.land v0 (sub32 0 v0) in
  let t (m : N) := negb (N.land v m =? 0) in
  let r := 32 in
  let r := if negb (v =? 0) then r - 1 else r in
  let r := if t 0x0000FFFF then r - 16 else r in
  let r := if t 0x00FF00FF then r - 8 else r in
  let r := if t 0x0F0F0F0F then r - 4 else r in
  let r := if t 0x33333333 then r - 2 else r in
  if t 0x55555555 then r - 1 else r.

(** ValMem.cpp 145: the number a valid [ValWord] with this mask presents when
    the memory word received is [w].  For mask 0 the C++ shifts by 32, which is
    undefined; the model gives 0 (the theorems exclude mask 0). *)
Definition masked_value (w mask : N) : N :=
  shr32 (N.land w mask) (trailing_right_bits mask).

(** Outcome of the argument checks of the masked write.  ClientInterface.cpp 415-442. *)
Inductive mw_check :=
| MwRefused                       (* BitsSetWhichAreForbiddenByBitMask *)
| MwRmw (and_term or_term : N).   (* implementRMWbits is called with these *)

(** ClientInterface.cpp 415-442, the checks and the RMW operands of
    [write(addr, source, mask)].  For mask 0 the C++ shifts by 32, which is
    undefined; here the result is that of the unbounded shift reduced mod 2^32. *)
Definition masked_write_check (src mask : N) : mw_check :=
  let sh := trailing_right_bits mask in
  let shifted := shl32 src sh in
  if negb (shr32 shifted sh =? src) then MwRefused
  else if negb (N.land shifted (not32 mask) =? 0) then MwRefused
  else MwRmw (not32 mask) (N.land shifted mask).

(** DummyHardware.cpp 333-361 / IPbus specification: effect of a
    read-modify-write-bits transaction on the addressed register. *)
Definition rmw_bits_word (old and_term or_term : N) : N :=
  N.lor (N.land old and_term) or_term.
