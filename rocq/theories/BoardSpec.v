(** What is said about [Board.v]. *)
From Coq Require Import NArith List Bool PeanoNat.
From Verif Require Import Header Client Spec System Board.
From Verif Require Ring.
Import ListNotations.
Open Scope N_scope.

(** What the user of client [p] does, in order. *)
Definition board_user (p : nat) (ls : list blabel) : list System.label :=
  flat_map (fun l => match l with
                     | BOp q o => if Nat.eqb q p then [LOp o] else []
                     | BDispatch q => if Nat.eqb q p then [LDispatch] else []
                     | BReturn q => if Nat.eqb q p then [LReturn] else []
                     | BRing _ => []
                     end) ls.

(** The steps of the ring. *)
Definition ring_of (ls : list blabel) : list Ring.rlab :=
  flat_map (fun l => match l with BRing x => [x] | _ => [] end) ls.

(** The calls of all users. *)
Definition board_calls (ls : list blabel) : list op := flat_map (fun l => match l with BOp _ o => [o] | _ => [] end) ls.

(** A client of IPbus 2.0 that talks to the target itself. *)
Definition board_client (g : cfg) : Prop := cfg_ok g /\ g_ver g = V2 /\ g_hub g = None.

(** Steps of the hardware and of the clients [ps] inside the library, the end of
    dispatch() included: no new calls. *)
Definition busy (ps : list nat) (l : blabel) : Prop :=
  match l with
  | BOp _ _ | BDispatch _ => False
  | BReturn p => In p ps
  | BRing x =>
      match x with
      | Ring.LPub => True
      | Ring.LFail _ => False
      | Ring.LConn p | Ring.LDispatch p _ | Ring.LGo p | Ring.LLock p | Ring.LStart p | Ring.LWrite p
      | Ring.LFlush p | Ring.LPoll p | Ring.LRead p | Ring.LUnlock p | Ring.LEnd p => In p ps
      end
  end.
