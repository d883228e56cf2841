(** Several clients of one target: each is the client of [System.v], the target is
    shared.  A packet is processed by the target in one step.

    Sources: those of [System.v]; /repo/uhal/tests/src/common/DummyHardware.cpp
    lines 80-166 (one packet at a time).

    Simplifications: those of [System.v]; the clients are numbered, and have their
    own limits and protocol versions. *)
From Coq Require Import NArith List Bool PeanoNat.
From Verif Require Import Word Bits Header ValMem Client Validate Target System.
Import ListNotations.
Open Scope N_scope.

Section Shared.
Variable D : Type.
Variable rd : D -> N -> D * N.
Variable wr : D -> N -> N -> D.
Variable cf : D -> N -> D * N.
(** The clients.  ProtocolIPbus.hpp 60-330. *)
Variable g : nat -> cfg.

(** The clients (the device in each is not used) and the device.  ClientInterface.hpp
    394-408, DummyHardware.cpp 80-166. *)
Record shared := mkShared { sh_y : nat -> sys D; sh_dev : D }.
Definition with_dev (y : sys D) (d : D) : sys D := mkSys D (y_c D y) (y_rep D y) d (y_wait D y) (y_bad D y).

(** Client [p] makes a step of [System.v] on the device.  Not in the code: the
    clients are different processes. *)
Definition sh_step (s : shared) (pl : nat * label) : option shared :=
  match step D rd wr cf (g (fst pl)) (with_dev (sh_y s (fst pl)) (sh_dev s)) (snd pl) with
  | Some y => Some (mkShared (fun q => if Nat.eqb q (fst pl) then y else sh_y s q) (y_dev D y))
  | None => None
  end.

(** Executions.  Not in the code: a sequence of steps. *)
Fixpoint sh_run (s : shared) (ls : list (nat * label)) : option shared :=
  match ls with
  | [] => Some s
  | l :: t => match sh_step s l with Some s' => sh_run s' t | None => None end
  end.

(** New clients.  ClientInterface.cpp 50-60. *)
Definition init_shared (d : D) : shared := mkShared (fun _ => init_sys D d) d.
End Shared.
