(** Two devices used to state properties: a memory, and the most general device,
    whose state is the list of all accesses made so far and whose answers are an
    arbitrary function of that list.  Specification only, models no code. *)
From Coq Require Import NArith List Bool.
Import ListNotations.
Open Scope N_scope.

(** A memory of 32-bit registers. *)
Definition mem : Type := N -> N.
Definition mem_rd (m : mem) (a : N) : mem * N := (m, m a).
Definition mem_wr (m : mem) (a x : N) : mem :=
  fun b => if b =? a then x mod 2 ^ 32 else m b.
Definition mem_cf (m : mem) (a : N) : mem * N := (m, 0).
Definition mem_ok (m : mem) : Prop := forall a, m a < 2 ^ 32.

(** Bus accesses.  Not in the code. *)
Inductive access :=
| ARead (a : N) | AWrite (a x : N) | ACfg (a : N).

(** The device that records every access; [f] and [fc] give the word returned by
    a read, as a function of everything that happened before and the address. *)
Definition log_rd (f : list access -> N -> N) (l : list access) (a : N)
  : list access * N := (l ++ [ARead a], f l a).
Definition log_wr (l : list access) (a x : N) : list access := l ++ [AWrite a x].
Definition log_cf (fc : list access -> N -> N) (l : list access) (a : N)
  : list access * N := (l ++ [ACfg a], fc l a).
