(** What C105 and C106 say about the ControlHub's clients and their statistics, in terms
    of what happened. *)
From Coq Require Import NArith ZArith List Bool PeanoNat.
From Verif Require Import Hub Manager Listener.
Import ListNotations.
Open Scope nat_scope.

(** Numbers of events. *)
Definition is_accepted (e : sev) : bool := match e with EAccepted _ => true | _ => false end.
Definition is_left (e : sev) : bool := match e with EClosed _ | ENoPeer _ => true | _ => false end.
Definition is_crashed (e : sev) : bool := match e with ECrashed _ => true | _ => false end.
Definition is_failed (e : sev) : bool := match e with EAcceptError _ | ENoPeer _ => true | _ => false end.
Definition number (f : sev -> bool) (tr : list sev) : Z := Z.of_nat (length (filter f tr)).

(** Clients accepted, and connected at the end of what happened. *)
Definition accepted (tr : list sev) : Z := number is_accepted tr.
Definition connected (tr : list sev) : Z := (number is_accepted tr - number is_left tr - number is_crashed tr)%Z.

(** The greatest number of clients that had been accepted and had not left, at any time. *)
Fixpoint peak_from (now best : Z) (tr : list sev) : Z :=
  match tr with
  | [] => best
  | e :: t =>
      let now' := if is_accepted e then (now + 1)%Z else if is_left e then (now - 1)%Z else now in
      peak_from now' (Z.max best now') t
  end.
Definition peak (tr : list sev) : Z := peak_from 0 0 tr.

(** A request in a chunk: address, port, number of words, and as many words. *)
Definition whole_request (q : bytes) : Prop :=
  exists a b c d e f g h t, q = a :: b :: c :: d :: e :: f :: g :: h :: t /\ length t = (4 * N.to_nat (g * 256 + h))%nat.
(** A chunk of one or more requests. *)
Definition well_formed (p : bytes) : Prop :=
  exists qs, qs <> [] /\ Forall whole_request qs /\ p = concat qs.

(** Requests passed on, malformed chunks, replies sent, in an event; [wf] decides
    [well_formed]. *)
Definition traffic (wf : bytes -> bool) (e : sev) : counters :=
  match e with
  | EChunk _ p cs out => mkC (length cs) (if wf p then 0 else 1) (length (concat out))
  | EReply _ out => mkC 0 0 (length (concat out))
  | _ => mkC 0 0 0
  end.
Definition of_client (i : nat) (e : sev) : bool :=
  match e with
  | EChunk j _ _ _ | EReply j _ => Nat.eqb j i
  | _ => false
  end.
Fixpoint total (wf : bytes -> bool) (tr : list sev) : counters :=
  match tr with
  | [] => mkC 0 0 0
  | e :: t =>
      let c := traffic wf e in let d := total wf t in
      mkC (c_in c + c_in d) (c_bad c + c_bad d) (c_sent c + c_sent d)
  end.

(** A chunk refused because its target is blocked: it is answered at once. *)
Definition refused (e : sev) : bool :=
  match e with EChunk _ _ _ (_ :: _) => true | _ => false end.
Definition not_refused (tr : list sev) : list sev := filter (fun e => negb (refused e)) tr.

(** The rows of a report, added up. *)
Fixpoint sum_rows (rs : list (nat * option counters)) : counters :=
  match rs with
  | [] => mkC 0 0 0
  | (_, Some c) :: t => let d := sum_rows t in mkC (c_in c + c_in d) (c_bad c + c_bad d) (c_sent c + c_sent d)
  | (_, None) :: t => sum_rows t
  end.

(** Where a manager is. *)
Definition at_place (v : srv) (i : nat) : option place := option_map cl_place (nth_error (v_cl v) i).
Definition in_loop (v : srv) (i : nat) : Prop := exists m, at_place v i = Some (PLoop m).

(** All messages to the statistics process have been handled, and no manager is between
    accepting its client and its loop. *)
Definition settled (v : srv) : Prop :=
  v_sbox v = [] /\ forall i p, at_place v i = Some p -> p <> PGot /\ p <> PTold /\ p <> PCounted.

(** The manager has ended, its socket process is waiting for a socket. *)
Definition leftover (c : client) : bool :=
  match cl_place c, cl_owner c with
  | PEnd, OWait | PCrash, OWait => true
  | _, _ => false
  end.
