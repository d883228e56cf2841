(** 32-bit machine arithmetic of the C++ sources over [N].

    [uint32_t] values are numbers below [W32]; every C++ operation that can
    leave that range is reduced modulo [W32] explicitly.  [uint8_t*] byte
    counters of the client are also [uint32_t] in the sources
    (/repo/uhal/uhal/include/uhal/Buffers.hpp, mSendCounter / mReplyCounter). *)
From Coq Require Import NArith ZArith List Lia Bool.
Import ListNotations.
Open Scope N_scope.

(** 2^32: the modulus of [uint32_t] (all of /repo/uhal uses [uint32_t]). *)
Definition W32 : N := 4294967296.

(** Reduction of an unsigned result to [uint32_t] (C++ unsigned arithmetic). *)
Definition wrap32 (x : N) : N := x mod W32.

(** [a + b] on [uint32_t]. *)
Definition add32 (a b : N) : N := (a + b) mod W32.

(** [a - b] on [uint32_t]. *)
Definition sub32 (a b : N) : N := (a + (W32 - b mod W32)) mod W32.

(** [~a] on [uint32_t]. *)
Definition not32 (a : N) : N := N.ldiff 4294967295 a.

(** [a << s] on [uint32_t] (defined in C++ only for [s < 32]). *)
Definition shl32 (a s : N) : N := (N.shiftl a s) mod W32.

(** [a >> s] on [uint32_t] (defined in C++ only for [s < 32]). *)
Definition shr32 (a s : N) : N := N.shiftr a s.

(** A value that fits [uint32_t]. *)
Definition is32 (a : N) : Prop := a < W32.
