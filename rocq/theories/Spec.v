(** Independent specification of the operations of the client: what each call
    does when it is executed directly, one after the other, on the device, with
    no packets at all.

    Nothing here models code; [/repo/uhal/uhal/include/uhal/ClientInterface.hpp]
    (the public interface) and the IPbus specification are what it states. *)
From Verif Require Import Word Bits Header ValMem Client.
From Coq Require Import NArith List Bool.
Import ListNotations.
Open Scope N_scope.

(** The addresses a block of [n] words touches, in order: consecutive modulo
    2^32 for an incremental block, always the same for a FIFO-like block. *)
Definition block_addrs (a : N) (n : nat) (inc : bool) : list N :=
  map (fun i => if inc then (a + N.of_nat i) mod 2 ^ 32 else a) (seq 0 n).

(** The bit positions of a 32-bit word. *)
Definition bit_positions : list N := map N.of_nat (seq 0 32).

(** Position of the lowest set bit of a mask. *)
Definition lowest_bit (m : N) : N :=
  match find (N.testbit m) bit_positions with Some i => i | None => 32 end.

(** Does a value, moved up to the lowest set bit of the mask, set only bits that
    the mask allows? *)
Definition mask_fits (x m : N) : bool :=
  forallb (fun i => implb (N.testbit x i) (N.testbit m (i + lowest_bit m)))
          bit_positions.

(** A register after the value has been put in the field of the mask: the bits
    outside the mask keep their value. *)
Definition masked_update (old x m : N) : N :=
  N.lor (N.ldiff (old mod 2 ^ 32) m) (N.shiftl x (lowest_bit m)).

Section Spec.
Variable D : Type.
Variable rd : D -> N -> D * N.
Variable wr : D -> N -> N -> D.
Variable cf : D -> N -> D * N.

(** Read the given addresses one after the other. *)
Fixpoint read_all (d : D) (l : list N) : D * list N :=
  match l with
  | [] => (d, [])
  | a :: t => let (d1, x) := rd d a in
              let (d2, xs) := read_all d1 t in (d2, x :: xs)
  end.

(** Write the given (address, value) pairs one after the other. *)
Fixpoint write_all (d : D) (l : list (N * N)) : D :=
  match l with
  | [] => d
  | (a, x) :: t => write_all (wr d a x) t
  end.

(** A read-modify-write: read the register once, write it once. *)
Definition spec_rmw (v : version) (d : D) (a : N) (f : N -> N) : D * N :=
  let (d1, old) := rd d a in
  (wr d1 a (f old), match v with V1 => f old | V2 => old end).

(** Effect of one call on the device and the content of the handle it returns
    once it has been validated; [None]: the call is refused and has no effect. *)
Definition direct_op (v : version) (d : D) (o : op) : D * option cell :=
  match o with
  | OWrite a x => (wr d a x, Some (CHdr true))
  | OWriteBlock a l inc =>
      (write_all d (combine (block_addrs a (length l) inc) l), Some (CHdr true))
  | ORead a m => let (d', x) := rd d a in (d', Some (CWord true x m))
  | OReadBlock a n inc =>
      let (d', xs) := read_all d (block_addrs a (N.to_nat n) inc) in
      (d', Some (CVec true xs))
  | ORmwBits a x y =>
      let (d', r) := spec_rmw v d a (fun old => N.lor (N.land old x) y) in
      (d', Some (CWord true r 0xFFFFFFFF))
  | ORmwSum a x =>
      let (d', r) := spec_rmw v d a (fun old => (old + x) mod 2 ^ 32) in
      (d', Some (CWord true r 0xFFFFFFFF))
  | OWriteMask a x m =>
      if mask_fits x m then
        let (d', r) := spec_rmw v d a (fun old => masked_update old x m) in
        (d', Some (CWord true r 0xFFFFFFFF))
      else (d, None)
  | OReadCfg a m =>
      match v with
      | V1 => (d, None)
      | V2 => let (d', x) := cf d a in (d', Some (CWord true x m))
      end
  end.

(** A sequence of calls; the results of the calls that are not refused, in
    order. *)
Fixpoint direct (v : version) (d : D) (os : list op) : D * list cell :=
  match os with
  | [] => (d, [])
  | o :: t =>
      let (d1, r) := direct_op v d o in
      let (d2, rs) := direct v d1 t in
      (d2, match r with Some c => c :: rs | None => rs end)
  end.
End Spec.

(** Arguments the C++ types allow, blocks below 2^29 words (see C18 for what
    happens beyond), and masks other than 0 (for which the C++ shifts by 32). *)
Definition op_ok (o : op) : Prop :=
  match o with
  | OWriteBlock a l _ => a < 2 ^ 32 /\ N.of_nat (length l) < 2 ^ 29
  | OReadBlock a n _ => a < 2 ^ 32 /\ n < 2 ^ 29
  | OWriteMask a x m => x < 2 ^ 32 /\ 0 < m < 2 ^ 32
  | _ => True
  end.

(** Limits large enough for the library: above the preamble there must be more
    than 16 bytes in each direction, and IPbus 1.3 packets are padded to 8 words
    (see C19 for what happens below). *)
Definition cfg_ok (g : cfg) : Prop :=
  let hub := match g_hub g with Some _ => 1 | None => 0 end in
  4 * (1 + 2 * hub) + 16 < g_maxsend g /\
  4 * (1 + 3 * hub) + 16 < g_maxreply g /\
  (g_ver g = V1 -> 4 * (8 + 2 * hub) <= g_maxsend g) /\
  g_maxsend g < 2 ^ 32 /\ g_maxreply g < 2 ^ 32 /\
  match g_hub g with Some (_, port) => port < 2 ^ 16 | None => True end.
