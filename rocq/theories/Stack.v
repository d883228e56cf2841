(** The client on top of its transport: the user's calls make packets
    ([Client.v]), the transport ([Udp.v], [Tcp.v]) sends them and has their
    replies checked ([Validate.v]).

    Sources: /repo/uhal/uhal/src/common/ClientInterface.cpp lines 143-202,
    280-335, 363-383 and 408-490; the places where the transports call validate()
    and the exception handler: ProtocolUDP.cpp 121-146, 320-371, 444-493,
    ProtocolTCP.cpp 121-143, 487-509, 569-629.

    Simplifications (all of the model):
    - the packets a call makes are made at its beginning and handed to the
      transport one after the other; replies received between two of them are
      written into handles the call has already made (nothing a call does depends
      on the contents of the handles or on packets already sent: Prop_Frame.v);
    - a call during which the transport refuses a packet announces at its
      beginning how many it accepts ([cut]); an execution in which the
      announcement turns out wrong stops there and is not considered;
    - the words found in the reply buffers when validate() is called are chosen
      by the environment, the verdict is computed from them. *)
From Coq Require Import NArith List Bool.
From Verif Require Import Word Bits Header ValMem Client Validate System Net.
From Verif Require Udp Tcp.
Import ListNotations.

(** What passes between a client and its transport: a packet accepted by
    implementDispatch, the call of Flush, a call of validate() with its verdict, a
    failure stored in mAsynchronousException, the normal return of Flush, an
    exception reaching the user (after the exception handler).
    ClientInterface.cpp 143-202, 280-335. *)
Inductive tev :=
| VHanded (p : nat) | VFlush | VCheck (p : nat) (v : bool) | VFail | VReturn | VThrow.

(** ** The client *)

(** What the user's thread is doing: outside or handing over the packets of a
    call; handing over the last packet of dispatch(); waiting in Flush; in a call
    that is going to raise.  ClientInterface.cpp 143-180, 280-335. *)
Inductive amode := MOp | MDisp | MFlush | MCut.

(** The client ([s_out] is empty between steps), all packets made so far in order,
    the packets of the current call not yet handed over, what the user's thread is
    doing, undefined behaviour.  ClientInterface.hpp 394-408. *)
Record half := mkHalf {
  a_c : st;
  a_bufs : list buf;
  a_todo : list nat;
  a_mode : amode;
  a_bad : bool
}.

(** The packets in [s_out] get the next numbers.  Not in the code: packets are
    shared pointers there. *)
Definition queue (a : half) (s : st) (m : amode) : half :=
  mkHalf (mkSt (s_ctr s) (s_cur s) (s_heap s) [] None) (a_bufs a ++ s_out s)
         (seq (length (a_bufs a)) (length (s_out s))) m (a_bad a).

(** The user's thread is outside.  ClientInterface.cpp 143-180 and 408-490. *)
Definition outside (a : half) : bool :=
  match a_mode a, a_todo a with MOp, [] => true | _, _ => false end.

(** Undefined behaviour in a call.  Not in the code. *)
Definition broken (a : half) : half := mkHalf (a_c a) (a_bufs a) (a_todo a) (a_mode a) true.

(** A call ([None]: dispatch()) of which the transport accepts all packets, or the
    first [k] and not the next.  [failed]: the transport has stored a failure, so
    that it accepts none.  ClientInterface.cpp 143-180, 280-335 and 408-490. *)
Definition acall (g : cfg) (failed : bool) (a : half) (o : option op) (cut : option nat) : option half :=
  if negb (outside a) then None else
  if failed && match cut with Some (S _) => true | _ => false end then None else
  let s0 := mkSt (s_ctr (a_c a)) (s_cur (a_c a)) (s_heap (a_c a)) [] (if failed then Some O else cut) in
  match o with
  | Some o =>
      match run_op g s0 o, cut with
      | Ok s _, None => Some (queue a s MOp)
      | Exc _ ETransport, None => None
      | Exc s _, None => Some (queue a s MOp)
      | Bad, None => Some (broken a)
      | Exc s ETransport, Some _ => Some (queue a s MCut)
      | _, Some _ => None
      end
  | None =>
      match s_cur (a_c a) with
      | None => match cut with None => Some a | Some _ => None end
      | Some _ =>
          match dispatch_send g s0, cut with
          | Ok s _, None => Some (queue a s MDisp)
          | Exc _ _, None => None
          | Bad, None => Some (broken a)
          | Exc s _, Some _ => Some (queue a s MCut)
          | _, Some _ => None
          end
      end
  end.

(** Verdict of validate(): no exception.  ProtocolUDP.cpp 352-371, ProtocolTCP.cpp 487-509. *)
Definition accepts (r : vres) : bool := match r with VOk => true | _ => false end.

(** The client's part in an event.  [ws]: what is in the reply buffers when
    validate() is called.  ClientInterface.cpp 143-202, 363-383. *)
Definition aevent (g : cfg) (a : half) (v : tev) (ws : list N) : option half :=
  match v with
  | VHanded p =>
      match a_mode a, a_todo a with
      | MFlush, _ => None
      | _, q :: t => if Nat.eqb p q then Some (mkHalf (a_c a) (a_bufs a) t (a_mode a) (a_bad a)) else None
      | _, [] => None
      end
  | VFlush =>
      match a_mode a, a_todo a with
      | MDisp, [] => Some (mkHalf (a_c a) (a_bufs a) [] MFlush (a_bad a))
      | _, _ => None
      end
  | VCheck p v =>
      match nth_error (a_bufs a) p with
      | None => None
      | Some b =>
          let (h, r) := receive_packet g (s_heap (a_c a)) b ws in
          if Bool.eqb v (accepts r)
          then Some (mkHalf (set_heap (a_c a) h) (a_bufs a) (a_todo a) (a_mode a)
                            (a_bad a || match r with VBad => true | _ => false end))
          else None
      end
  | VFail => Some a
  | VReturn =>
      match a_mode a with
      | MFlush => Some (mkHalf (a_c a) (a_bufs a) [] MOp (a_bad a))
      | _ => None
      end
  | VThrow =>
      match a_mode a, a_todo a with
      | MFlush, _ | MCut, [] => Some (mkHalf (drop_all (a_c a)) (a_bufs a) [] MOp (a_bad a))
      | _, _ => None
      end
  end.

(** Several events in a row.  Not in the code. *)
Fixpoint aevents (g : cfg) (a : half) (vs : list tev) (ws : list N) : option half :=
  match vs with
  | [] => Some a
  | v :: t => match aevent g a v ws with Some a' => aevents g a' t ws | None => None end
  end.

(** A new client.  ClientInterface.cpp 50-60. *)
Definition init_half : half := mkHalf init_st [] [] MOp false.

(** ** Client and transport *)
Section Stack.
(** The transport: its states and steps; what passes in a step; whether the user's
    thread is outside the transport; whether it has stored a failure. *)
Variables (T L : Type).
Variable tstep : T -> L -> option T.
Variable passes : T -> L -> T -> list tev.
Variable away : T -> bool.
Variable failed : T -> bool.
Variable g : cfg.

(** Client and transport.  ClientInterface.hpp 394-408. *)
Record stack := mkStack { k_half : half; k_trans : T }.

(** The user calls; the transport makes a step, during which [ws] is found in the
    reply buffers if validate() is called.  ClientInterface.cpp 143-202, 363-383. *)
Inductive slab := SCall (o : option op) (cut : option nat) | STrans (l : L) (ws : list N).

(** One step; [None]: not enabled.  ClientInterface.cpp 143-202 and 408-490. *)
Definition sstep (k : stack) (l : slab) : option stack :=
  match l with
  | SCall o cut =>
      if away (k_trans k) then
        match acall g (failed (k_trans k)) (k_half k) o cut with
        | Some a => Some (mkStack a (k_trans k))
        | None => None
        end
      else None
  | STrans l ws =>
      match tstep (k_trans k) l with
      | None => None
      | Some t =>
          match aevents g (k_half k) (passes (k_trans k) l t) ws with
          | Some a => Some (mkStack a t)
          | None => None
          end
      end
  end.

(** Executions.  Not in the code: a sequence of steps. *)
Fixpoint srun (k : stack) (ls : list slab) : option stack :=
  match ls with
  | [] => Some k
  | l :: t => match sstep k l with Some k' => srun k' t | None => None end
  end.

(** What passed in an execution.  Not in the code. *)
Fixpoint passed (k : stack) (ls : list slab) : list tev :=
  match ls with
  | [] => []
  | l :: t =>
      match sstep k l with
      | None => []
      | Some k' =>
          match l with SCall _ _ => [] | STrans l _ => passes (k_trans k) l (k_trans k') end ++ passed k' t
      end
  end.

(** The steps of the transport, the operations called.  Not in the code. *)
Definition trans_of (ls : list slab) : list L :=
  flat_map (fun l => match l with STrans l _ => [l] | _ => [] end) ls.
Definition scalls (ls : list slab) : list op :=
  flat_map (fun l => match l with SCall (Some o) _ => [o] | _ => [] end) ls.
End Stack.
Arguments mkStack {T}.
Arguments k_half {T}.
Arguments k_trans {T}.
Arguments SCall {L}.
Arguments STrans {L}.
Arguments trans_of {L}.
Arguments scalls {L}.

(** ** The two transports *)

(** What an observation of [Udp.v] is for the client.  ProtocolUDP.cpp 121-493. *)
Definition udp_event (o : Udp.obs) : list tev :=
  match o with
  | Udp.OHanded p => [VHanded p]
  | Udp.OCheck p _ v => [VCheck p v]
  | Udp.OFail => [VFail]
  | Udp.OReturn => [VReturn]
  | Udp.OThrow => [VThrow]
  | Udp.OSent _ | Udp.ORecv _ => []
  end.

(** What passes in a step of the UDP transport.  ProtocolUDP.cpp 121-493. *)
Definition udp_passes (s : Udp.ust) (l : Udp.ulabel) (s' : Udp.ust) : list tev :=
  match l with Udp.LFlush => [VFlush] | _ => [] end
  ++ flat_map udp_event (skipn (length (Udp.u_tr s)) (Udp.u_tr s')).

(** The user's thread is in no function of the UDP transport.  ProtocolUDP.cpp 121-146, 444-493. *)
Definition udp_away (s : Udp.ust) : bool := match Udp.u_user s with Udp.UIdle => true | _ => false end.

(** What an observation of [Tcp.v] is for the client.  ProtocolTCP.cpp 121-629. *)
Definition tcp_event (o : Tcp.tobs) : list tev :=
  match o with
  | Tcp.THanded p => [VHanded p]
  | Tcp.TChecked p v => [VCheck p v]
  | Tcp.TFail => [VFail]
  | Tcp.TReturn => [VReturn]
  | Tcp.TThrow => [VThrow]
  | Tcp.TSent _ _ | Tcp.TRecv _ => []
  end.

(** What passes in a step of the TCP transport.  ProtocolTCP.cpp 121-629. *)
Definition tcp_passes (s : Tcp.tcp) (l : Tcp.tlab) (s' : Tcp.tcp) : list tev :=
  match l with Tcp.KFlush => [VFlush] | _ => [] end
  ++ flat_map tcp_event (skipn (length (Tcp.k_tr s)) (Tcp.k_tr s')).

(** The user's thread is in no function of the TCP transport.  ProtocolTCP.cpp 121-143, 569-629. *)
Definition tcp_away (s : Tcp.tcp) : bool := match Tcp.k_user s with Udp.UIdle => true | _ => false end.

(** A client over UDP and over TCP.  ProtocolUDP.hpp 60-240, ProtocolTCP.hpp 60-280. *)
Definition udp_run (max : N) (zero : bool) (g : cfg) (ls : list (slab Udp.ulabel)) : option (stack Udp.ust) :=
  srun _ _ (Udp.ustep max zero) udp_passes udp_away Udp.u_exc g (mkStack init_half Udp.init_udp) ls.
Definition tcp_run bytes room nr (max : N) (zero : bool) (g : cfg) (ls : list (slab Tcp.tlab)) : option (stack Tcp.tcp) :=
  srun _ _ (Tcp.kstep bytes room nr max zero) tcp_passes tcp_away Tcp.k_exc g (mkStack init_half Tcp.init_tcp) ls.
