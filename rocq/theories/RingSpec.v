(** What the page ring must do, in terms of the observed reads, writes and
    publications only (trace newest first). *)
From Coq Require Import NArith List Bool Arith.
From Verif Require Import Ring.
Import ListNotations.
Open Scope N_scope.

(** Requests of client [p] written and neither answered nor given up, oldest
    first, each with its page. *)
Fixpoint pend (tr : list rev) (p : nat) : list (nat * N) :=
  match tr with
  | [] => []
  | OWrite q b pg :: t => if Nat.eqb q p then pend t p ++ [(b, pg)] else pend t p
  | ORead q _ _ _ :: t => if Nat.eqb q p then tl (pend t p) else pend t p
  | ODrop q :: t => if Nat.eqb q p then [] else pend t p
  | OPub _ _ :: t => pend t p
  end.

(** A reply is read from the page its request was written to, and no page is
    written while some client still waits for its reply. *)
Fixpoint ring_ok (tr : list rev) : Prop :=
  match tr with
  | [] => True
  | ORead p b pg _ :: t => hd_error (pend t p) = Some (b, pg) /\ ring_ok t
  | OWrite _ _ pg :: t => (forall q b, ~ In (b, pg) (pend t q)) /\ ring_ok t
  | _ :: t => ring_ok t
  end.

(** The last thing that happened to page [pg]: [Some b] when the reply to [b]
    was published there, [None] when it was written or nothing happened. *)
Fixpoint last_pub (tr : list rev) (pg : N) : option nat :=
  match tr with
  | [] => None
  | OWrite _ _ pg' :: t => if pg' =? pg then None else last_pub t pg
  | OPub pg' b :: t => if pg' =? pg then Some b else last_pub t pg
  | _ :: t => last_pub t pg
  end.

(** A reply page is read only after the reply to that very request was
    published there, and what is read is that reply. *)
Fixpoint pub_ok (tr : list rev) : Prop :=
  match tr with
  | [] => True
  | ORead _ b pg c :: t => last_pub t pg = Some b /\ c = Some b /\ pub_ok t
  | _ :: t => pub_ok t
  end.

(** Number of requests written by all clients together. *)
Fixpoint nwrites (tr : list rev) : N :=
  match tr with
  | [] => 0
  | OWrite _ _ _ :: t => nwrites t + 1
  | _ :: t => nwrites t
  end.

(** Requests, whoever writes them, go to consecutive pages of the ring starting
    at page [s mod n], the one the hardware expects first. *)
Fixpoint in_step (n s : N) (tr : list rev) : Prop :=
  match tr with
  | [] => True
  | OWrite _ _ pg :: t => pg = (s + nwrites t) mod n /\ in_step n s t
  | _ :: t => in_step n s t
  end.

(** Requests of [p] in flight never exceed [m]. *)
Fixpoint flight_ok (m : N) (p : nat) (tr : list rev) : Prop :=
  match tr with
  | [] => True
  | e :: t => N.of_nat (List.length (pend (e :: t) p)) <= m /\ flight_ok m p t
  end.

(** No client begins a session between another client's unlock and endSession
    at the end of Flush (ProtocolPCIe.cpp 404-407); [stale p] says that a session
    began since [p] last released the lock. *)
Definition stale_next (stale : nat -> bool) (l : rlab) : nat -> bool :=
  match l with
  | LUnlock p => upd stale p false
  | LStart _ => fun _ => true
  | _ => stale
  end.

Fixpoint tidy (stale : nat -> bool) (ls : list rlab) : Prop :=
  match ls with
  | [] => True
  | l :: t => match l with LEnd p => stale p = false | _ => True end /\ tidy (stale_next stale l) t
  end.

(** Sessions begin only when the hardware has answered every request it has
    received. *)
Fixpoint calm (g : rcfg) (y : sys) (ls : list rlab) : Prop :=
  match ls with
  | [] => True
  | l :: t =>
      match l with LStart _ => h_wait (y_hw y) = [] | _ => True end /\
      match rstep g y l with Some y' => calm g y' t | None => True end
  end.

(** Number of sessions begun. *)
Fixpoint nstarts (ls : list rlab) : N :=
  match ls with [] => 0 | LStart _ :: t => nstarts t + 1 | _ :: t => nstarts t end.
