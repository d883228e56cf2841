(** The whole system as a labelled transition system: user calls, target and
    replies proceed independently; calls other than dispatch return at once,
    packets are processed by the target in order and replies come back in order
    (what the transports guarantee, see [Udp.v], [Tcp.v], [Ring.v]).

    Sources: /repo/uhal/uhal/src/common/ClientInterface.cpp lines 143-202,
    280-335 and 408-490. *)
From Verif Require Import Word Bits Header ValMem Client Validate Target.
From Coq Require Import NArith List Bool.
Import ListNotations.
Open Scope N_scope.

Section System.
Variable D : Type.
Variable rd : D -> N -> D * N.
Variable wr : D -> N -> N -> D.
Variable cf : D -> N -> D * N.
Variable g : cfg.

(** The client ([s_out] holds the packets the target has not yet processed),
    replies on their way back, the device, whether a dispatch() call is waiting
    in Flush, and whether anything undefined or any validation failure
    happened.  ClientInterface.hpp 394-408. *)
Record sys := mkSys {
  y_c : st;
  y_rep : list (buf * list N);
  y_dev : D;
  y_wait : bool;
  y_bad : bool
}.

(** Schedulable events: a user call, the start of dispatch(), its return, the
    target processing a packet, a reply being received.
    ClientInterface.cpp 143-180 and 408-490. *)
Inductive label :=
| LOp (o : op) | LDispatch | LReturn | LTarget | LReply.

(** Assignment through the handles (ProtocolUDP.cpp 354) and to the list of unanswered packets. *)
Definition set_heap (s : st) (h : list cell) : st :=
  mkSt (s_ctr s) (s_cur s) h (s_out s) (s_budget s).
(** Packets handed to implementDispatch, ClientInterface.cpp 143-180. *)
Definition set_out (s : st) (l : list buf) : st :=
  mkSt (s_ctr s) (s_cur s) (s_heap s) l (s_budget s).

(** One event; [None] when it is not enabled.  ClientInterface.cpp 143-202, 280-335 and 408-490. *)
Definition step (y : sys) (l : label) : option sys :=
  match l with
  | LOp o =>
      (* ClientInterface.cpp 408-490; blocked while dispatch() holds the mutex *)
      if y_wait y then None else
      match run_op g (y_c y) o with
      | Ok s _ => Some (mkSys s (y_rep y) (y_dev y) false (y_bad y))
      | Exc s _ => Some (mkSys s (y_rep y) (y_dev y) false (y_bad y))
      | Bad => Some (mkSys (y_c y) (y_rep y) (y_dev y) false true)
      end
  | LDispatch =>
      (* ClientInterface.cpp 143-173: Flush is entered only when there was a
         current buffer *)
      if y_wait y then None else
      match s_cur (y_c y) with
      | None => Some y
      | Some _ =>
          match dispatch_send g (y_c y) with
          | Ok s _ => Some (mkSys s (y_rep y) (y_dev y) true (y_bad y))
          | Exc s _ => Some (mkSys s (y_rep y) (y_dev y) false (y_bad y))
          | Bad => Some (mkSys (y_c y) (y_rep y) (y_dev y) false true)
          end
      end
  | LReturn =>
      (* Flush returns when nothing is in flight, e.g. ProtocolUDP.cpp 444-453 *)
      if y_wait y then
        match s_out (y_c y), y_rep y with
        | [], [] => Some (mkSys (y_c y) [] (y_dev y) false (y_bad y))
        | _, _ => None
        end
      else None
  | LTarget =>
      match s_out (y_c y) with
      | [] => None
      | b :: q =>
          let '(d, r, ok) := target_packet D rd wr cf g (y_dev y) (b_send b) in
          Some (mkSys (set_out (y_c y) q) (y_rep y ++ [(b, r)]) d (y_wait y)
                      (y_bad y || negb ok))
      end
  | LReply =>
      match y_rep y with
      | [] => None
      | (b, r) :: q =>
          match receive_packet g (s_heap (y_c y)) b r with
          | (h, VOk) =>
              Some (mkSys (set_heap (y_c y) h) q (y_dev y) (y_wait y) (y_bad y))
          | (h, _) =>
              Some (mkSys (set_heap (y_c y) h) q (y_dev y) (y_wait y) true)
          end
      end
  end.

(** Executions.  Not in the code: a sequence of events. *)
Fixpoint run (y : sys) (ls : list label) : option sys :=
  match ls with
  | [] => Some y
  | l :: t => match step y l with Some y' => run y' t | None => None end
  end.

(** The user calls of an execution, in order.  Not in the code. *)
Fixpoint calls (ls : list label) : list op :=
  match ls with
  | [] => []
  | LOp o :: t => o :: calls t
  | _ :: t => calls t
  end.

(** A fresh client connected to a device in state [d].  ClientInterface.cpp 50-60. *)
Definition init_sys (d : D) : sys := mkSys init_st [] d false false.

End System.
