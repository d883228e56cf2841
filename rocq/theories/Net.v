(** The client against an arbitrary network: every packet may be answered with
    any words at all, at any time, or not at all.

    Sources: /repo/uhal/uhal/src/common/ClientInterface.cpp lines 143-202,
    280-335, 363-383 and 408-490; the way replies and failures reach the user
    thread is that of ProtocolUDP.cpp 121-146, 295-440, 444-493 (ProtocolTCP.cpp
    121-143, 351-565, 569-629 is the same at this level): a failure is stored in
    mAsynchronousException, later replies are ignored, the next implementDispatch
    or Flush throws, and the exception handler drops all packets.
    Simplified: the transport is reduced to the list of unanswered packets; its
    threads and queues are in [Udp.v] and [Tcp.v].  A user call is one step: of
    the replies that come while it queues and sends, those to packets sent
    earlier or in the call itself are taken as coming after it (nothing a call
    does depends on the contents of the handles or on the packets already sent:
    Prop_Frame.v).  A call in the course of which a packet is refused is split in
    two steps, [NCut] and [NThrow], so that replies and failures can come
    between. *)
From Verif Require Import Word Bits Header ValMem Client Validate System.
From Coq Require Import NArith List Bool.
Import ListNotations.
Open Scope N_scope.

(** Client ([s_out]: unanswered packets, oldest first), stored failure
    (mAsynchronousException), user thread inside a call (dispatch() waiting in
    Flush, or a call that is going to raise), undefined behaviour, two ghosts: the
    number of handles that existed when the last transport exception was raised,
    and the number of such exceptions so far; and whether the call the user thread
    is in is going to raise because the transport refuses its next packet.
    ProtocolUDP.hpp 215-238. *)
Record net := mkNet {
  n_c : st;
  n_fail : bool;
  n_wait : bool;
  n_bad : bool;
  n_base : nat;
  n_exc : nat;
  n_doom : bool
}.

(** Events: a user call, start of dispatch(), its normal return, its exception;
    a reply to the oldest unanswered packet; a timeout or socket error; the first
    part of a call ([None]: dispatch()) of which the transport accepts [k] packets
    and not the next one, because of a failure stored in the meantime or because
    connect() throws.
    ClientInterface.cpp 143-180 and 280-335, ProtocolUDP.cpp 121-146, 295-440. *)
Inductive nlabel :=
| NOp (o : op) | NDispatch | NReturn | NThrow | NReply (ws : list N) | NLost
| NCut (o : option op) (k : nat).

(** The transport throws from implementDispatch when a failure is stored
    (ProtocolUDP.cpp 123-126). *)
Definition set_budget (s : st) (fail : bool) : st :=
  mkSt (s_ctr s) (s_cur s) (s_heap s) (s_out s) (if fail then Some O else None).

(** The transport accepts [k] packets (ProtocolUDP.cpp 121-146). *)
Definition cut_budget (s : st) (k : nat) : st :=
  mkSt (s_ctr s) (s_cur s) (s_heap s) (s_out s) (Some k).

(** ProtocolUDP.cpp 458-493 (the transport drops the packets it has), then the
    rest of the handler (ProtocolIPbusCore.cpp 534-538, ClientInterface.cpp
    363-383). *)
Definition drop_all (s : st) : st :=
  exception_handler (mkSt (s_ctr s) (s_cur s) (s_heap s) [] None).

(** One event; [None] when it is not enabled.
    ClientInterface.cpp 143-202, 363-383 and 408-490; ProtocolUDP.cpp 121-146, 295-440 and 444-493. *)
Definition nstep (g : cfg) (y : net) (l : nlabel) : option net :=
  match l with
  | NOp o =>
      if n_wait y then None else
      match run_op g (set_budget (n_c y) (n_fail y)) o with
      | Ok s _ => Some (mkNet s (n_fail y) false (n_bad y) (n_base y) (n_exc y) (n_doom y))
      | Exc s ETransport => Some (mkNet (drop_all s) false false (n_bad y) (length (s_heap s)) (S (n_exc y)) false)
      | Exc s _ => Some (mkNet s (n_fail y) false (n_bad y) (n_base y) (n_exc y) (n_doom y))
      | Bad => Some (mkNet (n_c y) (n_fail y) false true (n_base y) (n_exc y) (n_doom y))
      end
  | NDispatch =>
      if n_wait y then None else
      match s_cur (n_c y) with
      | None => Some y
      | Some _ =>
          match dispatch_send g (set_budget (n_c y) (n_fail y)) with
          | Ok s _ => Some (mkNet s (n_fail y) true (n_bad y) (n_base y) (n_exc y) (n_doom y))
          | Exc s _ => Some (mkNet (drop_all s) false false (n_bad y) (length (s_heap s)) (S (n_exc y)) false)
          | Bad => Some (mkNet (n_c y) (n_fail y) false true (n_base y) (n_exc y) (n_doom y))
          end
      end
  | NReturn =>
      if n_wait y && negb (n_fail y) && negb (n_doom y) then
        match s_out (n_c y) with
        | [] => Some (mkNet (n_c y) false false (n_bad y) (n_base y) (n_exc y) (n_doom y))
        | _ => None
        end
      else None
  | NThrow =>
      if n_wait y && (n_fail y || n_doom y)
      then Some (mkNet (drop_all (n_c y)) false false (n_bad y) (length (s_heap (n_c y))) (S (n_exc y)) false)
      else None
  | NReply ws =>
      if n_fail y then None else
      match s_out (n_c y) with
      | [] => None
      | b :: q =>
          match receive_packet g (s_heap (n_c y)) b ws with
          | (h, VOk) => Some (mkNet (set_heap (set_out (n_c y) q) h) false (n_wait y) (n_bad y) (n_base y) (n_exc y) (n_doom y))
          | (h, VErr _) => Some (mkNet (set_heap (n_c y) h) true (n_wait y) (n_bad y) (n_base y) (n_exc y) (n_doom y))
          | (h, VBad) => Some (mkNet (set_heap (n_c y) h) true (n_wait y) true (n_base y) (n_exc y) (n_doom y))
          end
      end
  | NLost =>
      match s_out (n_c y) with
      | [] => None
      | _ => Some (mkNet (n_c y) true (n_wait y) (n_bad y) (n_base y) (n_exc y) (n_doom y))
      end
  | NCut o k =>
      if n_wait y || n_fail y then None else
      match match o with
            | Some o => match run_op g (cut_budget (n_c y) k) o with Exc s ETransport => Some s | _ => None end
            | None => match dispatch_send g (cut_budget (n_c y) k) with Exc s ETransport => Some s | _ => None end
            end
      with
      | Some s => Some (mkNet s false true (n_bad y) (n_base y) (n_exc y) true)
      | None => None
      end
  end.

(** Executions.  Not in the code: a sequence of events. *)
Fixpoint nrun (g : cfg) (y : net) (ls : list nlabel) : option net :=
  match ls with
  | [] => Some y
  | l :: t => match nstep g y l with Some y' => nrun g y' t | None => None end
  end.

(** The operations called in an execution.  Not in the code. *)
Definition ncalls (ls : list nlabel) : list op :=
  flat_map (fun l => match l with NOp o | NCut (Some o) _ => [o] | _ => [] end) ls.

(** A fresh client.  ClientInterface.cpp 50-60. *)
Definition init_net : net := mkNet init_st false false false 0 0 false.
