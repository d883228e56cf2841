(** What the calls do to a device for which a read-modify-write is one operation
    ([Spec.v] has them as a read and a write).  Specification only, models no
    code. *)
From Verif Require Import Word Bits Header ValMem Client Spec.
From Coq Require Import NArith List Bool.
Import ListNotations.
Open Scope N_scope.

Section Atomic.
Variable D : Type.
Variable rd : D -> N -> D * N.
Variable wr : D -> N -> N -> D.
Variable cf : D -> N -> D * N.
(** [rm v d a f]: apply [f] to the register at [a]; the word the protocol
    version gives back. *)
Variable rm : version -> D -> N -> (N -> N) -> D * N.

(** One call, as [Spec.direct_op]. *)
Definition atomic_op (v : version) (d : D) (o : op) : D * option cell :=
  match o with
  | OWrite a x => (wr d a x, Some (CHdr true))
  | OWriteBlock a l inc =>
      (write_all D wr d (combine (block_addrs a (length l) inc) l), Some (CHdr true))
  | ORead a m => let (d', x) := rd d a in (d', Some (CWord true x m))
  | OReadBlock a n inc =>
      let (d', xs) := read_all D rd d (block_addrs a (N.to_nat n) inc) in
      (d', Some (CVec true xs))
  | ORmwBits a x y =>
      let (d', r) := rm v d a (fun old => N.lor (N.land old x) y) in
      (d', Some (CWord true r 0xFFFFFFFF))
  | ORmwSum a x =>
      let (d', r) := rm v d a (fun old => (old + x) mod 2 ^ 32) in
      (d', Some (CWord true r 0xFFFFFFFF))
  | OWriteMask a x m =>
      if mask_fits x m then
        let (d', r) := rm v d a (fun old => masked_update old x m) in
        (d', Some (CWord true r 0xFFFFFFFF))
      else (d, None)
  | OReadCfg a m =>
      match v with
      | V1 => (d, None)
      | V2 => let (d', x) := cf d a in (d', Some (CWord true x m))
      end
  end.

(** A sequence of calls. *)
Fixpoint atomic (v : version) (d : D) (os : list op) : D * list cell :=
  match os with
  | [] => (d, [])
  | o :: t =>
      let (d1, r) := atomic_op v d o in
      let (d2, rs) := atomic v d1 t in
      (d2, match r with Some c => c :: rs | None => rs end)
  end.
End Atomic.

(** With a read and a write it is [Spec.direct]. *)
Lemma atomic_direct D rd wr cf v d os :
  atomic D rd wr cf (spec_rmw D rd wr) v d os = direct D rd wr cf v d os.
Proof. reflexivity. Qed.
