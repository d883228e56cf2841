(** What is said about several clients of one device: one history of accesses to
    registers, in which a read-modify-write is one access. *)
From Coq Require Import NArith List Bool PeanoNat.
From Verif Require Import Header Client Spec System.
Import ListNotations.
Open Scope N_scope.

(** The steps of client [p]. *)
Definition steps_of (p : nat) (ls : list (nat * label)) : list label := map snd (filter (fun x => Nat.eqb (fst x) p) ls).

(** What of a history is of client [p]. *)
Definition of_client {A} (p : nat) (h : list (nat * A)) : list A := map snd (filter (fun x => Nat.eqb (fst x) p) h).

(** Accesses; [URmw a x]: the register at [a] is read, and then [x] written to it. *)
Inductive use :=
| URead (a : N) | UWrite (a x : N) | UCfg (a : N) | URmw (a x : N).

Section History.
Variable D : Type.
Variable rd : D -> N -> D * N.
Variable wr : D -> N -> N -> D.
Variable cf : D -> N -> D * N.

(** One access: the new state of the device, and the word read (none: []). *)
Definition make (d : D) (x : use) : D * list N :=
  match x with
  | URead a => let (d', w) := rd d a in (d', [w])
  | UWrite a w => (wr d a w, [])
  | UCfg a => let (d', w) := cf d a in (d', [w])
  | URmw a x => let (d', w) := rd d a in (wr d' a x, [w])
  end.

(** A history: accesses one after the other, each of a client.  The state of the
    device after it, and the words read, each with the client. *)
Fixpoint lived (d : D) (h : list (nat * use)) : D * list (nat * N) :=
  match h with
  | [] => (d, [])
  | (p, x) :: t => let (d1, r) := make d x in let (d2, rs) := lived d1 t in (d2, map (pair p) r ++ rs)
  end.
End History.

(** A device that gives given words and records the accesses. *)
Definition told := (list N * list use)%type.
Definition told_rd (o : told) (a : N) : told * N := ((tl (fst o), snd o ++ [URead a]), hd 0 (fst o)).
Definition told_wr (o : told) (a x : N) : told := (fst o, snd o ++ [UWrite a x]).
Definition told_cf (o : told) (a : N) : told * N := ((tl (fst o), snd o ++ [UCfg a]), hd 0 (fst o)).
(** A read-modify-write: the given word is the old value of the register. *)
Definition told_rm (v : version) (o : told) (a : N) (f : N -> N) : told * N :=
  let old := hd 0 (fst o) in
  ((tl (fst o), snd o ++ [URmw a (f old)]), match v with V1 => f old | V2 => old end).

(** Calls that do not write to the register at [a], or only add to it. *)
Definition only_adds (a : N) (o : op) : Prop :=
  match o with
  | OWrite b _ | OWriteMask b _ _ | ORmwBits b _ _ => b <> a
  | OWriteBlock b l inc => ~ In a (block_addrs b (length l) inc)
  | ORead _ _ | OReadBlock _ _ _ | OReadCfg _ _ | ORmwSum _ _ => True
  end.

(** The sum of what calls add to it. *)
Definition adds (a : N) (os : list op) : N :=
  fold_right (fun o n => match o with ORmwSum b x => (if b =? a then x else 0) + n | _ => n end) 0 os.
