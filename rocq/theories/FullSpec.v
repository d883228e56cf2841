(** What is said about [Full.v]. *)
From Coq Require Import NArith List Bool PeanoNat.
From Verif Require Import Header Client Spec System Devices.
From Verif Require Import Hub Manager ManSpec CHub Full.
Import ListNotations.
Open Scope N_scope.

(** What the user of client [p] does, in order. *)
Definition user_of (p : nat) (ls : list flabel) : list System.label :=
  flat_map (fun l => match l with
                     | FOp q o => if Nat.eqb q p then [LOp o] else []
                     | FDispatch q => if Nat.eqb q p then [LDispatch] else []
                     | FReturn q => if Nat.eqb q p then [LReturn] else []
                     | _ => []
                     end) ls.

(** The arguments of a call are 32-bit words. *)
Definition op_words (o : op) : Prop :=
  match o with
  | OWrite a x | OWriteMask a x _ | ORmwSum a x => a < 2 ^ 32 /\ x < 2 ^ 32
  | OWriteBlock a l _ => a < 2 ^ 32 /\ Forall (fun x => x < 2 ^ 32) l
  | ORead a _ | OReadBlock a _ _ | OReadCfg a _ => a < 2 ^ 32
  | ORmwBits a x y => a < 2 ^ 32 /\ x < 2 ^ 32 /\ y < 2 ^ 32
  end.

(** Address and port with their bytes the other way round, as the bytes in network
    order look to a little-endian host. *)
Definition turned4 (x : N) : N := x mod 256 * 2 ^ 24 + x / 2 ^ 8 mod 256 * 2 ^ 16 + x / 2 ^ 16 mod 256 * 2 ^ 8 + x / 2 ^ 24 mod 256.
Definition turned2 (x : N) : N := x mod 256 * 2 ^ 8 + x / 2 ^ 8 mod 256.

(** A client of IPbus 2.0 that talks to target [t] through a ControlHub; the number
    of words of a packet fits into the 16 bits there are for it. *)
Definition hub_client (t : target) (g : cfg) : Prop :=
  cfg_ok g /\ g_ver g = V2 /\ g_hub g = Some (turned4 (fst t), turned2 (snd t)) /\ g_maxsend g < 2 ^ 18.

(** Registers hold 32-bit words. *)
Definition reads32 {D} (rd : D -> N -> D * N) : Prop := forall d a, snd (rd d a) < 2 ^ 32.

(** The calls of all users. *)
Definition all_calls (ls : list flabel) : list op := flat_map (fun l => match l with FOp _ o => [o] | _ => [] end) ls.

(** A memory of 32-bit registers, to be used with [mem_wr] and [mem_cf]. *)
Definition ram_rd (m : mem) (a : N) : mem * N := (m, m a mod 2 ^ 32).
