(** The UDP transport as a transition system: the user's thread, the thread of
    the io_service, the socket and the deadline timer.

    Sources: /repo/uhal/uhal/src/common/ProtocolUDP.cpp lines 60-93 and 121-516,
    /repo/uhal/uhal/include/uhal/ProtocolUDP.hpp lines 200-240,
    /repo/uhal/uhal/src/common/ClientInterface.cpp lines 143-276 and 363-383.

    Simplifications (all of the model):
    - packets are numbered, their bytes are in [Client.v]; the verdict of
      validate() is chosen by the environment (it is computed in [Validate.v]);
    - a section of code executed under mTransportLayerMutex is one step; the
      sections executed without it (the middle of read_callback, the exception
      handler) are split into several steps, each of which is atomic;
    - boost asio: an outstanding operation completes with a result chosen by the
      environment; its handler is then queued and run by the io_service thread,
      in any order; closing the socket completes the outstanding operations with
      an error;
    - the deadline is either finite (it may expire at any moment) or pos_infin;
    - the logging, and the loop guarding against a wrong expiry time (lines
      191-196 and 283-288), are left out. *)
From Coq Require Import NArith List Bool.
From Verif Require Import Word.
Import ListNotations.
Open Scope N_scope.

(** A packet (std::shared_ptr<Buffers>) and the contents of a datagram.
    ProtocolUDP.hpp 203, 215-232. *)
Definition pkt := nat.
Definition dgram := list N.

(** Handlers queued in the io_service: write_callback with or without full
    success, read_callback with or without an error.  ProtocolUDP.cpp 204 and 295. *)
Inductive compl := CSend (ok : bool) | CRecv (err : bool).

(** Where the io_service thread is: not in a callback; in read_callback after
    its first locked section (lines 297-318); after the validation (line 373). *)
Inductive iopc := IOIdle | IORead (err : bool) | IOChecked.

(** Where the user's thread is: outside; waiting in Flush (line 446); after the
    wait (line 448); in dispatchExceptionHandler before line 462, 475, 483, 487. *)
Inductive upc := UIdle | UWait | UWake | UH1 | UH2 | UH3 | UH4.

(** What an outside observer sees: a packet handed over by implementDispatch
    without exception, a packet given to async_send_to, a datagram received by
    the socket, a datagram checked against a packet with its verdict, a failure
    stored in mAsynchronousException, normal return of dispatch, exception from
    dispatch.  ProtocolUDP.cpp 121-146, 176-201, 295-405, 444-493. *)
Inductive obs :=
| OHanded (p : pkt) | OSent (p : pkt) | ORecv (d : dgram)
| OCheck (p : pkt) (d : dgram) (ok : bool) | OFail | OReturn | OThrow.

(** Members of the class: mAsynchronousException, mDispatchBuffers,
    mDispatchQueue, mReplyBuffers, mReplyQueue, mPacketsInFlight (uint32_t),
    mFlushDone, whether mDeadlineTimer has a finite expiry, mSocket.is_open(),
    mReplyMemory; outstanding sends and receives, queued handlers; places of the
    two threads; dereference of a null pointer; and a ghost, the history. *)
Record ust := mkU {
  u_exc : bool;
  u_disp : option pkt;
  u_queue : list pkt;
  u_reply : option pkt;
  u_rqueue : list pkt;
  u_infl : N;
  u_done : bool;
  u_fin : bool;
  u_open : bool;
  u_mem : dgram;
  u_acts : nat;
  u_actr : nat;
  u_rdy : list compl;
  u_io : iopc;
  u_user : upc;
  u_ub : bool;
  u_tr : list obs
}.

(** Assignments to one or two members.  ProtocolUDP.hpp 203-238. *)
Definition put_exc (s : ust) (b : bool) : ust :=
  mkU b (u_disp s) (u_queue s) (u_reply s) (u_rqueue s) (u_infl s) (u_done s) (u_fin s) (u_open s) (u_mem s)
      (u_acts s) (u_actr s) (u_rdy s) (u_io s) (u_user s) (u_ub s) (u_tr s).
Definition put_disp (s : ust) (d : option pkt) (q : list pkt) : ust :=
  mkU (u_exc s) d q (u_reply s) (u_rqueue s) (u_infl s) (u_done s) (u_fin s) (u_open s) (u_mem s)
      (u_acts s) (u_actr s) (u_rdy s) (u_io s) (u_user s) (u_ub s) (u_tr s).
Definition put_reply (s : ust) (r : option pkt) (q : list pkt) : ust :=
  mkU (u_exc s) (u_disp s) (u_queue s) r q (u_infl s) (u_done s) (u_fin s) (u_open s) (u_mem s)
      (u_acts s) (u_actr s) (u_rdy s) (u_io s) (u_user s) (u_ub s) (u_tr s).
Definition put_infl (s : ust) (n : N) : ust :=
  mkU (u_exc s) (u_disp s) (u_queue s) (u_reply s) (u_rqueue s) n (u_done s) (u_fin s) (u_open s) (u_mem s)
      (u_acts s) (u_actr s) (u_rdy s) (u_io s) (u_user s) (u_ub s) (u_tr s).
Definition put_fin (s : ust) (b : bool) : ust :=
  mkU (u_exc s) (u_disp s) (u_queue s) (u_reply s) (u_rqueue s) (u_infl s) (u_done s) b (u_open s) (u_mem s)
      (u_acts s) (u_actr s) (u_rdy s) (u_io s) (u_user s) (u_ub s) (u_tr s).
Definition put_open (s : ust) (b : bool) : ust :=
  mkU (u_exc s) (u_disp s) (u_queue s) (u_reply s) (u_rqueue s) (u_infl s) (u_done s) (u_fin s) b (u_mem s)
      (u_acts s) (u_actr s) (u_rdy s) (u_io s) (u_user s) (u_ub s) (u_tr s).
Definition put_ops (s : ust) (a r : nat) (q : list compl) : ust :=
  mkU (u_exc s) (u_disp s) (u_queue s) (u_reply s) (u_rqueue s) (u_infl s) (u_done s) (u_fin s) (u_open s) (u_mem s)
      a r q (u_io s) (u_user s) (u_ub s) (u_tr s).
Definition put_mem (s : ust) (d : dgram) : ust :=
  mkU (u_exc s) (u_disp s) (u_queue s) (u_reply s) (u_rqueue s) (u_infl s) (u_done s) (u_fin s) (u_open s) d
      (u_acts s) (u_actr s) (u_rdy s) (u_io s) (u_user s) (u_ub s) (u_tr s).
Definition put_io (s : ust) (i : iopc) : ust :=
  mkU (u_exc s) (u_disp s) (u_queue s) (u_reply s) (u_rqueue s) (u_infl s) (u_done s) (u_fin s) (u_open s) (u_mem s)
      (u_acts s) (u_actr s) (u_rdy s) i (u_user s) (u_ub s) (u_tr s).
Definition put_user (s : ust) (i : upc) : ust :=
  mkU (u_exc s) (u_disp s) (u_queue s) (u_reply s) (u_rqueue s) (u_infl s) (u_done s) (u_fin s) (u_open s) (u_mem s)
      (u_acts s) (u_actr s) (u_rdy s) (u_io s) i (u_ub s) (u_tr s).
Definition put_ub (s : ust) : ust :=
  mkU (u_exc s) (u_disp s) (u_queue s) (u_reply s) (u_rqueue s) (u_infl s) (u_done s) (u_fin s) (u_open s) (u_mem s)
      (u_acts s) (u_actr s) (u_rdy s) (u_io s) (u_user s) true (u_tr s).
Definition see (s : ust) (o : obs) : ust :=
  mkU (u_exc s) (u_disp s) (u_queue s) (u_reply s) (u_rqueue s) (u_infl s) (u_done s) (u_fin s) (u_open s) (u_mem s)
      (u_acts s) (u_actr s) (u_rdy s) (u_io s) (u_user s) (u_ub s) (u_tr s ++ [o]).

(** NotifyConditionalVariable, lines 497-504. *)
Definition notify (s : ust) (b : bool) : ust :=
  mkU (u_exc s) (u_disp s) (u_queue s) (u_reply s) (u_rqueue s) (u_infl s) b (u_fin s) (u_open s) (u_mem s)
      (u_acts s) (u_actr s) (u_rdy s) (u_io s) (u_user s) (u_ub s) (u_tr s).

(** mSocket.close(): the outstanding operations complete with an error.
    ProtocolUDP.cpp 231, 333, 432, 466. *)
Definition close (s : ust) : ust :=
  put_open (put_ops s 0 0 (u_rdy s ++ repeat (CSend false) (u_acts s) ++ repeat (CRecv true) (u_actr s))) false.

(** A new exception is stored and the user's thread is woken.
    ProtocolUDP.cpp 224-225, 241-242, 307, 336-339, 363, 369. *)
Definition store (s : ust) : ust := notify (see (put_exc s true) OFail) true.

Section Udp.
(** getMaxNumberOfBuffers (ProtocolIPbus.hpp: 1 or 16), and whether
    setTimeoutPeriod was given 0 (ClientInterface.cpp 494-506). *)
Variable max : N.
Variable zero : bool.

(** write, lines 176-200, with [p] as mDispatchBuffers. *)
Definition write (s : ust) (p : pkt) (q : list pkt) : ust :=
  let s := notify (put_disp s (Some p) q) false in
  let s := put_fin s (negb zero) in
  let s := put_ops s (S (u_acts s)) (u_actr s) (u_rdy s) in
  see (put_infl s (add32 (u_infl s) 1)) (OSent p).

(** read, lines 270-291, with [p] as mReplyBuffers. *)
Definition read (s : ust) (p : pkt) (q : list pkt) : ust :=
  let s := put_fin (put_reply s (Some p) q) (negb zero) in
  put_ops s (u_acts s) (S (u_actr s)) (u_rdy s).

(** implementDispatch, lines 121-146, without the exception. *)
Definition implement_dispatch (s : ust) (p : pkt) : ust :=
  let s := see (put_open s true) (OHanded p) in
  match u_disp s with
  | Some _ => put_disp s (u_disp s) (u_queue s ++ [p])
  | None => if u_infl s =? max then put_disp s None (u_queue s ++ [p]) else write s p (u_queue s)
  end.

(** write_callback, lines 204-266.  Lines 229 and 237 dereference
    mDispatchBuffers whether or not an error is reported. *)
Definition write_callback (s : ust) (ok : bool) : ust :=
  if u_exc s then notify s true
  else if negb (u_fin s) then store s
  else match u_disp s with
  | None => put_ub s
  | Some p =>
      if negb ok then store (close s)
      else
        let s := match u_reply s with
                 | Some _ => put_reply s (u_reply s) (u_rqueue s ++ [p])
                 | None => read s p (u_rqueue s)
                 end in
        match u_queue s with
        | p' :: q => if u_infl s =? max then put_disp s None (u_queue s) else write s p' q
        | [] => put_disp s None []
        end
  end.

(** read_callback, first locked section, lines 297-318. *)
Definition read_callback (s : ust) (err : bool) : ust :=
  if u_exc s then notify s true
  else if negb (u_fin s) then store s
  else put_io s (IORead err).

(** read_callback without the mutex, lines 320-371: [v] is the verdict of
    validate().  A wrong number of bytes is only logged. *)
Definition read_middle (s : ust) (err v : bool) : ust :=
  match u_reply s with
  | None => put_io s IOIdle
  | Some p =>
      if err then put_io (store (close s)) IOIdle
      else
        let s := put_io (see s (OCheck p (u_mem s) v)) IOChecked in
        if v then s else see (put_exc s true) OFail
  end.

(** read_callback, last locked section, lines 373-406. *)
Definition read_end (s : ust) : ust :=
  let s := put_io s IOIdle in
  if u_exc s then notify s true
  else
    let s := match u_rqueue s with
             | p :: q => read s p q
             | [] => put_reply s None []
             end in
    let s := put_infl s (sub32 (u_infl s) 1) in
    let s := match u_disp s, u_queue s with
             | None, p :: q => if u_infl s =? max then s else write s p q
             | _, _ => s
             end in
    match u_disp s, u_reply s with
    | None, None => notify (put_fin s true) true
    | _, _ => s
    end.

(** CheckDeadline when the deadline has passed, lines 411-440. *)
Definition check_deadline (s : ust) : ust := put_fin (close s) false.

(** One part of dispatchExceptionHandler, lines 458-493; the buffers returned to
    the pool are deleted at the end (ClientInterface.cpp 363-383). *)
Definition handler (s : ust) : ust :=
  match u_user s with
  | UH1 => put_user (if u_open s then close s else s) UH2
  | UH2 => put_user (put_exc (notify s true) false) UH3
  | UH3 => put_user (put_infl (put_reply (put_disp s (u_disp s) []) (u_reply s) []) 0) UH4
  | UH4 => see (put_user (put_reply (put_disp s None (u_queue s)) None (u_rqueue s)) UIdle) OThrow
  | _ => s
  end.

(** Events.  User's thread: implementDispatch, a failure of connect() in it
    (line 133), entering Flush, the end of the wait, the rest of Flush (lines
    448-452), a part of the exception handler.  Environment: an outstanding send
    completes, a datagram arrives, an outstanding receive fails, the deadline
    passes.  Thread of the io_service: it runs a queued handler, the middle and
    the end of read_callback. *)
Inductive ulabel :=
| LDispatch (p : pkt) | LConnectFail | LFlush | LWaited | LFlushed | LHandler
| LSent (ok : bool) | LDatagram (d : dgram) | LRecvErr | LDeadline
| LCallback (i : nat) | LMiddle (v : bool) | LEnd.

(** The list without its [i]-th element.  Not in the code. *)
Fixpoint drop_nth {A} (l : list A) (i : nat) : list A :=
  match l, i with
  | [], _ => []
  | _ :: t, O => t
  | x :: t, S j => x :: drop_nth t j
  end.

(** One step; [None]: not enabled.  ProtocolUDP.cpp 121-493. *)
Definition ustep (s : ust) (l : ulabel) : option ust :=
  if u_ub s then None else
  match l with
  | LDispatch p =>
      match u_user s with
      | UIdle => Some (if u_exc s then put_user s UH1 else implement_dispatch s p)
      | _ => None
      end
  | LConnectFail =>
      match u_user s, u_exc s, u_open s with
      | UIdle, false, false => Some (put_user s UH1)
      | _, _, _ => None
      end
  | LFlush => match u_user s with UIdle => Some (put_user s UWait) | _ => None end
  | LWaited =>
      match u_user s with UWait => if u_done s then Some (put_user s UWake) else None | _ => None end
  | LFlushed =>
      match u_user s with
      | UWake => Some (if u_exc s then put_user s UH1 else see (put_user s UIdle) OReturn)
      | _ => None
      end
  | LHandler =>
      match u_user s with UH1 | UH2 | UH3 | UH4 => Some (handler s) | _ => None end
  | LSent ok =>
      match u_acts s with
      | S n => Some (put_ops s n (u_actr s) (u_rdy s ++ [CSend ok]))
      | O => None
      end
  | LDatagram d =>
      match u_actr s, u_open s with
      | S n, true => Some (see (put_mem (put_ops s (u_acts s) n (u_rdy s ++ [CRecv false])) d) (ORecv d))
      | _, _ => None
      end
  | LRecvErr =>
      match u_actr s with
      | S n => Some (put_ops s (u_acts s) n (u_rdy s ++ [CRecv true]))
      | O => None
      end
  | LDeadline =>
      match u_io s with
      | IOIdle => if u_fin s then Some (check_deadline s) else None
      | _ => None
      end
  | LCallback i =>
      match u_io s, nth_error (u_rdy s) i with
      | IOIdle, Some c =>
          let s := put_ops s (u_acts s) (u_actr s) (drop_nth (u_rdy s) i) in
          Some (match c with CSend ok => write_callback s ok | CRecv err => read_callback s err end)
      | _, _ => None
      end
  | LMiddle v => match u_io s with IORead err => Some (read_middle s err v) | _ => None end
  | LEnd => match u_io s with IOChecked => Some (read_end s) | _ => None end
  end.

(** Executions.  Not in the code: a sequence of steps. *)
Fixpoint urun (s : ust) (ls : list ulabel) : option ust :=
  match ls with
  | [] => Some s
  | l :: t => match ustep s l with Some s' => urun s' t | None => None end
  end.
End Udp.

(** After the constructor, lines 60-93: the socket is open, no deadline that
    equals pos_infin. *)
Definition init_udp : ust := mkU false None [] None [] 0 true true true [] 0 0 [] IOIdle UIdle false [].
