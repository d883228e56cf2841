(** The TCP transport as a transition system, in the style of [Udp.v].

    Sources: /repo/uhal/uhal/src/common/ProtocolTCP.cpp lines 62-92, 121-143,
    161-629 and 654-658, /repo/uhal/uhal/include/uhal/ProtocolTCP.hpp lines
    188-280, /repo/uhal/uhal/src/common/ClientInterface.cpp lines 220-276.

    Simplifications (all of the model):
    - packets are numbered; [bytes] gives the bytes of a packet and [room] its
      replyCounter(); the verdict of validate() is chosen by the environment (it
      is computed in [Validate.v]);
    - a section of code executed under mTransportLayerMutex is one step; the
      sections executed without it (the middle of read_callback, the exception
      handler) are split into several steps, each of which is atomic;
    - boost asio: as in [Udp.v]; the synchronous read of lines 454-455 occupies
      the io_service thread until the environment lets it complete;
    - read_callback looks at mReplyBuffers without the mutex: it is read once, at
      the first step of the callback after line 398;
    - the test of mAsynchronousException in line 504 is made together with the
      assignment before it (lines 494 and 500);
    - the statistics, the log and the loops guarding against a wrong expiry time
      (lines 229-234 and 332-337) are left out. *)
From Coq Require Import NArith List Bool.
From Verif Require Import Word Udp.
Import ListNotations.
Open Scope N_scope.

(** Handlers queued in the io_service: write_callback and read_callback with
    their two arguments, whether there is an error and the bytes transferred.
    ProtocolTCP.cpp 248 and 351. *)
Inductive tcompl := KSend (err : bool) (n : N) | KRecv (err : bool) (n : N).

(** Where the io_service thread is: not in a callback; in read_callback after
    its first locked section (line 398); in the synchronous read for the given
    chunk (line 455); validating, with these packets to go (line 487); before the
    last locked section (line 511). *)
Inductive tiopc := TIdle | TRead (err : bool) (n : N) | TBody (c : list pkt) | TCheck (c : list pkt) | TEnd.

(** What an outside observer sees: a packet handed over by implementDispatch
    without exception; a chunk of packets and the bytes given to async_write for
    it; the body of a reply chunk received completely; a packet checked, with its
    verdict; a failure stored in mAsynchronousException; normal return of
    dispatch; exception from dispatch.  ProtocolTCP.cpp 121-143, 161-246, 351-540, 569-629. *)
Inductive tobs :=
| THanded (p : pkt) | TSent (c : list pkt) (bs : list N) | TRecv (n : N) | TChecked (p : pkt) (ok : bool)
| TFail | TReturn | TThrow.

(** Members of the class: mAsynchronousException, mDispatchBuffers,
    mDispatchQueue, mReplyBuffers.first, mReplyQueue (without the times),
    mPacketsInFlight (uint32_t), mFlushStarted, mFlushDone, whether
    mDeadlineTimer has a finite expiry, mSocket.is_open(), mSendByteCounter,
    mReplyByteCounter; outstanding sends and receives, queued handlers; places of
    the two threads ([Udp.upc]: dispatchExceptionHandler before line 595, 610,
    618, 622); and a ghost, the history. *)
Record tcp := mkT {
  k_exc : bool;
  k_disp : list pkt;
  k_queue : list pkt;
  k_reply : list pkt;
  k_rqueue : list (list pkt);
  k_infl : N;
  k_flush : bool;
  k_done : bool;
  k_fin : bool;
  k_open : bool;
  k_scnt : N;
  k_rcnt : N;
  k_acts : nat;
  k_actr : nat;
  k_rdy : list tcompl;
  k_io : tiopc;
  k_user : upc;
  k_tr : list tobs
}.

(** Assignments to one or two members.  ProtocolTCP.hpp 209-260. *)
Definition tput_exc (s : tcp) (b : bool) : tcp :=
  mkT b (k_disp s) (k_queue s) (k_reply s) (k_rqueue s) (k_infl s) (k_flush s) (k_done s) (k_fin s) (k_open s)
      (k_scnt s) (k_rcnt s) (k_acts s) (k_actr s) (k_rdy s) (k_io s) (k_user s) (k_tr s).
Definition tput_disp (s : tcp) (d q : list pkt) : tcp :=
  mkT (k_exc s) d q (k_reply s) (k_rqueue s) (k_infl s) (k_flush s) (k_done s) (k_fin s) (k_open s)
      (k_scnt s) (k_rcnt s) (k_acts s) (k_actr s) (k_rdy s) (k_io s) (k_user s) (k_tr s).
Definition tput_reply (s : tcp) (r : list pkt) (q : list (list pkt)) : tcp :=
  mkT (k_exc s) (k_disp s) (k_queue s) r q (k_infl s) (k_flush s) (k_done s) (k_fin s) (k_open s)
      (k_scnt s) (k_rcnt s) (k_acts s) (k_actr s) (k_rdy s) (k_io s) (k_user s) (k_tr s).
Definition tput_infl (s : tcp) (n : N) : tcp :=
  mkT (k_exc s) (k_disp s) (k_queue s) (k_reply s) (k_rqueue s) n (k_flush s) (k_done s) (k_fin s) (k_open s)
      (k_scnt s) (k_rcnt s) (k_acts s) (k_actr s) (k_rdy s) (k_io s) (k_user s) (k_tr s).
Definition tput_flush (s : tcp) (b : bool) : tcp :=
  mkT (k_exc s) (k_disp s) (k_queue s) (k_reply s) (k_rqueue s) (k_infl s) b (k_done s) (k_fin s) (k_open s)
      (k_scnt s) (k_rcnt s) (k_acts s) (k_actr s) (k_rdy s) (k_io s) (k_user s) (k_tr s).
Definition tput_fin (s : tcp) (b : bool) : tcp :=
  mkT (k_exc s) (k_disp s) (k_queue s) (k_reply s) (k_rqueue s) (k_infl s) (k_flush s) (k_done s) b (k_open s)
      (k_scnt s) (k_rcnt s) (k_acts s) (k_actr s) (k_rdy s) (k_io s) (k_user s) (k_tr s).
Definition tput_open (s : tcp) (b : bool) : tcp :=
  mkT (k_exc s) (k_disp s) (k_queue s) (k_reply s) (k_rqueue s) (k_infl s) (k_flush s) (k_done s) (k_fin s) b
      (k_scnt s) (k_rcnt s) (k_acts s) (k_actr s) (k_rdy s) (k_io s) (k_user s) (k_tr s).
Definition tput_cnt (s : tcp) (a b : N) : tcp :=
  mkT (k_exc s) (k_disp s) (k_queue s) (k_reply s) (k_rqueue s) (k_infl s) (k_flush s) (k_done s) (k_fin s) (k_open s)
      a b (k_acts s) (k_actr s) (k_rdy s) (k_io s) (k_user s) (k_tr s).
Definition tput_ops (s : tcp) (a r : nat) (q : list tcompl) : tcp :=
  mkT (k_exc s) (k_disp s) (k_queue s) (k_reply s) (k_rqueue s) (k_infl s) (k_flush s) (k_done s) (k_fin s) (k_open s)
      (k_scnt s) (k_rcnt s) a r q (k_io s) (k_user s) (k_tr s).
Definition tput_io (s : tcp) (i : tiopc) : tcp :=
  mkT (k_exc s) (k_disp s) (k_queue s) (k_reply s) (k_rqueue s) (k_infl s) (k_flush s) (k_done s) (k_fin s) (k_open s)
      (k_scnt s) (k_rcnt s) (k_acts s) (k_actr s) (k_rdy s) i (k_user s) (k_tr s).
Definition tput_user (s : tcp) (u : upc) : tcp :=
  mkT (k_exc s) (k_disp s) (k_queue s) (k_reply s) (k_rqueue s) (k_infl s) (k_flush s) (k_done s) (k_fin s) (k_open s)
      (k_scnt s) (k_rcnt s) (k_acts s) (k_actr s) (k_rdy s) (k_io s) u (k_tr s).
Definition tsee (s : tcp) (o : tobs) : tcp :=
  mkT (k_exc s) (k_disp s) (k_queue s) (k_reply s) (k_rqueue s) (k_infl s) (k_flush s) (k_done s) (k_fin s) (k_open s)
      (k_scnt s) (k_rcnt s) (k_acts s) (k_actr s) (k_rdy s) (k_io s) (k_user s) (k_tr s ++ [o]).

(** NotifyConditionalVariable, lines 632-640. *)
Definition tnotify (s : tcp) (b : bool) : tcp :=
  mkT (k_exc s) (k_disp s) (k_queue s) (k_reply s) (k_rqueue s) (k_infl s) (k_flush s) b (k_fin s) (k_open s)
      (k_scnt s) (k_rcnt s) (k_acts s) (k_actr s) (k_rdy s) (k_io s) (k_user s) (k_tr s).

(** mSocket.close(): the outstanding operations complete with an error.
    ProtocolTCP.cpp 282, 420, 460, 558, 601. *)
Definition tclose (s : tcp) : tcp :=
  tput_open (tput_ops s 0 0 (k_rdy s ++ repeat (KSend true 0) (k_acts s) ++ repeat (KRecv true 0) (k_actr s))) false.

(** A new exception is stored and the user's thread is woken.
    ProtocolTCP.cpp 261, 276, 394, 403, 464, 470, 494, 500. *)
Definition tstore (s : tcp) : tcp := tnotify (tsee (tput_exc s true) TFail) true.

(** Bytes of a uint32_t in memory, little-endian host. *)
Definition mem4 (w : N) : list N :=
  [w mod 256; (w / 256) mod 256; (w / 65536) mod 256; (w / 16777216) mod 256].
(** htonl and ntohl on a little-endian host.  ProtocolTCP.cpp 225, 251, 437. *)
Definition swap32 (w : N) : N :=
  16777216 * (w mod 256) + 65536 * ((w / 256) mod 256) + 256 * ((w / 65536) mod 256) + (w / 16777216) mod 256.

Section Tcp.
(** Contents of a packet, replyCounter() of a packet. *)
Variable bytes : pkt -> list N.
Variable room : pkt -> N.
(** nr_buffers_per_send, getMaxNumberOfBuffers (1 and 1 or 16: IPbus; 3 and 60:
    ControlHub, ProtocolControlHub.cpp 279-282), and whether setTimeoutPeriod was
    given 0 (ClientInterface.cpp 494-506). *)
Variable nr : nat.
Variable max : N.
Variable zero : bool.

(** sendCounter() of a packet.  Buffers.cpp 55-58. *)
Definition psize (p : pkt) : N := N.of_nat (List.length (bytes p)).

(** mSendByteCounter after the loop of lines 215-222. *)
Definition count (c : list pkt) : N := fold_left (fun n p => add32 n (psize p)) c 0.

(** write, lines 205-243. *)
Definition twrite (s : tcp) : tcp :=
  let k := Nat.min (List.length (k_queue s)) nr in
  let c := firstn k (k_queue s) in
  let s := tput_disp (tnotify s false) (k_disp s ++ c) (skipn k (k_queue s)) in
  let s := tput_cnt s (swap32 (count c)) (k_rcnt s) in
  let s := tput_fin s (negb zero) in
  let s := tput_ops s (S (k_acts s)) (k_actr s) (k_rdy s) in
  tsee (tput_infl s (add32 (k_infl s) (N.of_nat (List.length (k_disp s)))))
       (TSent c (mem4 (k_scnt s) ++ flat_map bytes c)).

(** read, lines 324-344, with mReplyBuffers assigned first. *)
Definition tread (s : tcp) (c : list pkt) (q : list (list pkt)) : tcp :=
  let s := tput_fin (tput_reply s c q) (negb zero) in
  tput_ops s (k_acts s) (S (k_actr s)) (k_rdy s).

(** implementDispatch, lines 121-143, without the exceptions; connect (161-200)
    sets the deadline. *)
Definition timplement_dispatch (s : tcp) (p : pkt) : tcp :=
  let s := if k_open s then s else tput_open (tput_fin s (negb zero)) true in
  let s := tsee (tput_disp (tput_flush s false) (k_disp s) (k_queue s ++ [p])) (THanded p) in
  if match k_disp s with [] => true | _ => false end
     && Nat.leb nr (List.length (k_queue s)) && (k_infl s <? max)
  then twrite s else s.

(** The condition of lines 315 and 525 without mDispatchBuffers. *)
Definition want_write (s : tcp) : bool :=
  Nat.leb (if k_flush s then 1 else nr) (List.length (k_queue s)) && (k_infl s <? max).

(** write_callback, lines 248-320. *)
Definition twrite_callback (s : tcp) (err : bool) (n : N) : tcp :=
  let s := tput_cnt s (swap32 (k_scnt s)) (k_rcnt s) in
  if k_exc s then tnotify s true
  else if negb (k_fin s) then tstore s
  else if err || negb (n =? add32 (k_scnt s) 4) then tstore (tclose s)
  else
    let s := match k_reply s with
             | _ :: _ => tput_reply s (k_reply s) (k_rqueue s ++ [k_disp s])
             | [] => tread s (k_disp s) (k_rqueue s)
             end in
    let s := tput_disp s [] (k_queue s) in
    if want_write s then twrite s else s.

(** read_callback, first locked section, lines 364-398. *)
Definition tread_callback (s : tcp) (err : bool) (n : N) : tcp :=
  if k_exc s then tnotify s true
  else if negb (k_fin s) then tstore s
  else tput_io s (TRead err n).

(** read_callback without the mutex, lines 400-452. *)
Definition tread_header (s : tcp) (err : bool) (n : N) : tcp :=
  if err || negb (n =? 4) then tput_io (tstore (tclose s)) TIdle
  else tput_io (tput_cnt s (k_scnt s) (swap32 (k_rcnt s))) (TBody (k_reply s)).

(** Size of the buffers the synchronous read may fill, lines 444-452. *)
Definition reply_room (c : list pkt) : N := fold_left (fun n p => n + room p) c 0.

(** The synchronous read completes with [n] bytes, lines 455-484. *)
Definition tread_body (s : tcp) (c : list pkt) (err : bool) (n : N) : tcp :=
  if err || negb (n =? k_rcnt s) then tput_io (tstore (tclose s)) TIdle
  else tput_io (tsee s (TRecv n)) (match c with [] => TEnd | _ => TCheck c end).

(** One round of the loop of lines 487-509. *)
Definition tcheck (s : tcp) (p : pkt) (c : list pkt) (v : bool) : tcp :=
  let s := tsee s (TChecked p v) in
  if v then tput_io s (match c with [] => TEnd | _ => TCheck c end)
  else tput_io (tstore s) TIdle.

(** read_callback, last locked section, lines 511-534. *)
Definition tread_end (s : tcp) : tcp :=
  let s := tput_io s TIdle in
  let s := tput_infl s (sub32 (k_infl s) (N.of_nat (List.length (k_reply s)))) in
  let s := match k_rqueue s with
           | c :: q => tread s c q
           | [] => tput_reply s [] []
           end in
  let s := match k_disp s with [] => if want_write s then twrite s else s | _ => s end in
  match k_disp s, k_reply s with
  | [], [] => tnotify (tput_fin s true) true
  | _, _ => s
  end.

(** CheckDeadline when the deadline has passed, lines 540-565. *)
Definition tcheck_deadline (s : tcp) : tcp := tput_fin (tclose s) false.

(** Flush up to the wait, lines 571-579. *)
Definition tflush (s : tcp) : tcp :=
  let s := tput_flush s true in
  match k_queue s, k_disp s with
  | _ :: _, [] => twrite s
  | _, _ => s
  end.

(** One part of dispatchExceptionHandler, lines 593-629.  The vectors in
    mReplyQueue are emptied, mReplyQueue itself is not. *)
Definition thandler (s : tcp) : tcp :=
  match k_user s with
  | UH1 => tput_user (if k_open s then tclose s else s) UH2
  | UH2 => tput_user (tput_exc (tnotify s true) false) UH3
  | UH3 => tput_user (tput_infl (tput_reply (tput_disp s (k_disp s) []) (k_reply s) (map (fun _ => []) (k_rqueue s))) 0) UH4
  | UH4 => tsee (tput_user (tput_cnt (tput_reply (tput_disp s [] (k_queue s)) [] (k_rqueue s)) 0 0) UIdle) TThrow
  | _ => s
  end.

(** Events.  User's thread: implementDispatch, a failure of connect() in it,
    Flush up to the wait, the end of the wait, the rest of Flush, a part of the
    exception handler.  Environment: an outstanding send or receive completes,
    the deadline passes, the synchronous read completes.  Thread of the
    io_service: it runs a queued handler, or the next part of read_callback.
    ProtocolTCP.cpp 121-143 and 161-629. *)
Inductive tlab :=
| KDispatch (p : pkt) | KConnectFail | KFlush | KWaited | KFlushed | KHandler
| KSentBytes (err : bool) (n : N) | KHeader (err : bool) (n cnt : N) | KDeadline | KBody (err : bool) (n : N)
| KCallback (i : nat) | KMiddle | KValidate (v : bool) | KLast.

(** One step; [None]: not enabled.  The deadline is looked at by the io_service
    thread, so not while it is in a callback.  ProtocolTCP.cpp 121-143 and 161-629. *)
Definition kstep (s : tcp) (l : tlab) : option tcp :=
  match l with
  | KDispatch p =>
      match k_user s with
      | UIdle => Some (if k_exc s then tput_user s UH1 else timplement_dispatch s p)
      | _ => None
      end
  | KConnectFail =>
      match k_user s, k_exc s, k_open s with
      | UIdle, false, false => Some (tput_user (tput_fin s (negb zero)) UH1)
      | _, _, _ => None
      end
  | KFlush => match k_user s with UIdle => Some (tput_user (tflush s) UWait) | _ => None end
  | KWaited => match k_user s with UWait => if k_done s then Some (tput_user s UWake) else None | _ => None end
  | KFlushed =>
      match k_user s with
      | UWake => Some (if k_exc s then tput_user s UH1 else tsee (tput_user s UIdle) TReturn)
      | _ => None
      end
  | KHandler => match k_user s with UH1 | UH2 | UH3 | UH4 => Some (thandler s) | _ => None end
  | KSentBytes err n =>
      match k_acts s with
      | S a => Some (tput_ops s a (k_actr s) (k_rdy s ++ [KSend err n]))
      | O => None
      end
  | KHeader err n cnt =>
      match k_actr s with
      | S a => Some (tput_cnt (tput_ops s (k_acts s) a (k_rdy s ++ [KRecv err n])) (k_scnt s) cnt)
      | O => None
      end
  | KDeadline =>
      match k_io s with
      | TIdle => if k_fin s then Some (tcheck_deadline s) else None
      | _ => None
      end
  | KBody err n =>
      match k_io s with
      | TBody c => if n <=? reply_room c then Some (tread_body s c err n) else None
      | _ => None
      end
  | KCallback i =>
      match k_io s, nth_error (k_rdy s) i with
      | TIdle, Some c =>
          let s := tput_ops s (k_acts s) (k_actr s) (drop_nth (k_rdy s) i) in
          Some (match c with KSend err n => twrite_callback s err n | KRecv err n => tread_callback s err n end)
      | _, _ => None
      end
  | KMiddle => match k_io s with TRead err n => Some (tread_header s err n) | _ => None end
  | KValidate v => match k_io s with TCheck (p :: c) => Some (tcheck s p c v) | _ => None end
  | KLast => match k_io s with TEnd => Some (tread_end s) | _ => None end
  end.

(** Executions.  Not in the code: a sequence of steps. *)
Fixpoint krun (s : tcp) (ls : list tlab) : option tcp :=
  match ls with
  | [] => Some s
  | l :: t => match kstep s l with Some s' => krun s' t | None => None end
  end.
End Tcp.

(** After the constructor, lines 62-92: the socket is not open, no deadline that
    equals pos_infin. *)
Definition init_tcp : tcp := mkT false [] [] [] [] 0 false true true false 0 0 0 0 [] TIdle UIdle [].
