(** The page ring shared by PCIe and mmap clients: several clients (processes)
    and the hardware.

    Sources: /repo/uhal/uhal/src/common/ProtocolPCIe.cpp 385-422 and 443-658,
    ProtocolMmap.cpp 330-367 and 388-559 (the same code up to the limit of
    packets in flight and the interrupt mode), detail/RobustSessionMutex.cpp
    54-98, ClientInterface.cpp 143-180 and 280-335 (who calls what).

    Granularity: one step per flock call and per section guarded by the shared
    session mutex; everything between is local to one client.  Numbers that the
    program only increments, copies and compares (session counter uint64_t,
    published and read counts uint32_t) are kept unbounded here and compared
    modulo 2^64 and 2^32.  Packet contents are reduced to an identity; memory
    addresses are in [Pages.v].

    Hardware (not part of the repository's library; compare the emulator
    uhal/tests/src/common/PCIeDummyHardware.cpp 118-178): pages are filled and
    answered in ring order, the reply to a request is put in the page of the
    same index, then the published count is incremented and an interrupt raised.
    The emulator reports the next index after answering; hardware may also
    report it on reception: [r_early]. *)
From Coq Require Import NArith List Bool Arith.
Import ListNotations.
Open Scope N_scope.

(** ProtocolPCIe.hpp, ProtocolMmap.hpp: which client.
    ProtocolPCIe.hpp 183-205, ProtocolMmap.hpp 190-203. *)
Inductive rkind := RPCIe | RMmap.

(** Parameters: kind, number of pages (status word 0), index offset at start,
    when the index is reported, interrupt mode (mUseInterrupt) and the user's
    max_in_flight of each client. *)
Record rcfg := mkR {
  r_kind : rkind;
  r_pages : N;
  r_off : N;
  r_early : bool;
  r_intr : nat -> bool;
  r_user : nat -> N
}.

(** ProtocolPCIe.cpp 392 with 465-467 (mMaxInFlight reset when 0 or above the
    number of pages); ProtocolMmap.cpp 337 compares with mNumberOfPages. *)
Definition limit (g : rcfg) (p : nat) : N :=
  match r_kind g with
  | RPCIe => if (r_user g p =? 0) || (r_pages g <? r_user g p) then r_pages g else r_user g p
  | RMmap => r_pages g
  end.

(** What read() returns to: implementDispatch with the packet still to be
    written (ProtocolPCIe.cpp 392-394) or Flush (401-402). *)
Inductive cont := KDisp (b : nat) | KFlush.

(** Where a client is: outside the transport; in implementDispatch; before
    flock; after flock and before startSession; before the page write; in
    read() waiting for the published count; in read() about to read the page;
    in Flush before unlock; in Flush before endSession.  ProtocolPCIe.cpp 385-422 and 443-658. *)
Inductive rpc :=
| PIdle | PDisp (b : nat) | PLock (b : nat) | PStart (b : nat) | PWrite (b : nat)
| PWait (k : cont) | PRead (k : cont) | PUnlock | PEnd.

(** Members of one client: mConnected, File::mLocked, mIPCExternalSessionActive,
    mIPCSessionCount, mIndexNextPage, mPublishedReplyPageCount,
    mReadReplyPageCount, mReplyQueue (ProtocolPCIe.hpp; ProtocolMmap.hpp 175-190). *)
Record cst := mkC {
  c_pc : rpc;
  c_conn : bool;
  c_lock : bool;
  c_ext : bool;
  c_cnt : N;
  c_idx : N;
  c_pub : N;
  c_read : N;
  c_queue : list nat
}.

(** Hardware: requests received, replies published, requests received and not
    answered, reply pages, pending interrupt.  Compare PCIeDummyHardware.cpp 118-178. *)
Record hw := mkH {
  h_recv : N;
  h_pub : N;
  h_wait : list nat;
  h_rep : N -> option nat;
  h_irq : bool
}.

(** Observations, newest first in the trace: a request written to a page; a
    reply page read for a request, with what it held; a reply published; the
    requests of a client given up.  ProtocolPCIe.cpp 510-658 (write, read). *)
Inductive rev :=
| OWrite (p b : nat) (pg : N) | ORead (p b : nat) (pg : N) (c : option nat)
| OPub (pg : N) (b : nat) | ODrop (p : nat).

(** Everything: hardware, shared session counter and flag
    (RobustSessionMutex.hpp), flock owner, clients, trace.  ProtocolPCIe.hpp 183-205. *)
Record sys := mkY {
  y_hw : hw;
  y_count : N;
  y_active : bool;
  y_owner : option nat;
  y_cl : nat -> cst;
  y_tr : list rev
}.

(** State with one client replaced.  Not in the code. *)
Definition upd {A} (f : nat -> A) (p : nat) (c : A) : nat -> A :=
  fun q => if Nat.eqb q p then c else f q.

(** Reply page written.  Not in the code. *)
Definition updN {A} (f : N -> A) (p : N) (c : A) : N -> A :=
  fun q => if N.eqb q p then c else f q.

(** uint32_t and uint64_t comparison. *)
Definition eq32 (a b : N) : bool := a mod 2 ^ 32 =? b mod 2 ^ 32.
Definition eq64 (a b : N) : bool := a mod 2 ^ 64 =? b mod 2 ^ 64.

(** Status word 2: index of the page to fill next. *)
Definition reported (g : rcfg) (h : hw) : N :=
  ((if r_early g then h_recv h else h_pub h) + r_off g) mod r_pages g.

(** A client with a new position.  Not in the code. *)
Definition at_pc (c : cst) (i : rpc) : cst :=
  mkC i (c_conn c) (c_lock c) (c_ext c) (c_cnt c) (c_idx c) (c_pub c) (c_read c) (c_queue c).

(** connect(guard), ProtocolPCIe.cpp 443-498, ProtocolMmap.cpp 388-431.
    Simplified: the four status words are read at once and are in range (a
    hardware reporting an index beyond the last page is refused, 481-485). *)
Definition connect (g : rcfg) (h : hw) (count : N) (active : bool) (c : cst) : cst :=
  mkC (c_pc c) true (c_lock c) (active && negb (c_lock c)) count
      (reported g h) (h_pub h) (h_pub h) (c_queue c).

(** Entering read(), ProtocolPCIe.cpp 547: wait only when the counts are equal. *)
Definition enter_read (c : cst) (k : cont) : cst :=
  at_pc c (if eq32 (c_read c) (c_pub c) then PWait k else PRead k).

(** Entering write(), ProtocolPCIe.cpp 510-512. *)
Definition enter_write (c : cst) (b : nat) : cst :=
  at_pc c (if c_lock c then PWrite b else PLock b).

(** Flush loop, ProtocolPCIe.cpp 401-402. *)
Definition enter_flush (c : cst) : cst :=
  match c_queue c with [] => at_pc c PUnlock | _ => enter_read c KFlush end.

(** Hardware receiving a request: only the expected page is accepted.
    Compare PCIeDummyHardware.cpp 118-178. *)
Definition hw_write (g : rcfg) (h : hw) (pg : N) (b : nat) : hw :=
  if pg =? (h_recv h + r_off g) mod r_pages g
  then mkH (h_recv h + 1) (h_pub h) (h_wait h ++ [b]) (h_rep h) (h_irq h)
  else h.

(** Page to read, ProtocolPCIe.cpp 544, size_t arithmetic (64 bits). *)
Definition page_to_read (g : rcfg) (c : cst) : N :=
  ((c_idx c + (2 ^ 64 - N.of_nat (List.length (c_queue c))) + r_pages g) mod 2 ^ 64) mod r_pages g.

(** dispatchExceptionHandler, ProtocolPCIe.cpp 411-422, ProtocolMmap.cpp
    356-367 (no endSession); also the death of a process. *)
Definition handler (c : cst) : cst :=
  mkC PIdle false false (c_ext c) (c_cnt c) (c_idx c) (c_pub c) (c_read c) [].

(** Steps: user calls (connect through getMaxSendSize, implementDispatch,
    Flush), internal steps of a client, failure of a client, hardware.
    ProtocolPCIe.cpp 385-422 and 443-658. *)
Inductive rlab :=
| LConn (p : nat) | LDispatch (p b : nat) | LGo (p : nat) | LLock (p : nat) | LStart (p : nat)
| LWrite (p : nat) | LFlush (p : nat) | LPoll (p : nat) | LRead (p : nat) | LUnlock (p : nat)
| LEnd (p : nat) | LFail (p : nat) | LPub.

(** State with client [p] replaced and one observation added.  Not in the code. *)
Definition set_cl (y : sys) (p : nat) (c : cst) : sys :=
  mkY (y_hw y) (y_count y) (y_active y) (y_owner y) (upd (y_cl y) p c) (y_tr y).
(** Not in the code. *)
Definition set_hw (y : sys) (h : hw) (o : rev) : sys :=
  mkY h (y_count y) (y_active y) (y_owner y) (y_cl y) (o :: y_tr y).
(** Not in the code. *)
Definition note (y : sys) (o : rev) : sys :=
  mkY (y_hw y) (y_count y) (y_active y) (y_owner y) (y_cl y) (o :: y_tr y).

(** One step; [None] when it is not enabled (a poll that finds nothing new is
    no step; flock blocks while another client owns the lock).
    ProtocolPCIe.cpp 385-422 and 443-658, ProtocolMmap.cpp 330-367 and 388-559. *)
Definition rstep (g : rcfg) (y : sys) (l : rlab) : option sys :=
  match l with
  | LConn p => (* ProtocolPCIe.cpp 389-390, 425-440 *)
      let c := y_cl y p in
      match c_pc c with
      | PIdle | PDisp _ =>
          if c_conn c then None else Some (set_cl y p (connect g (y_hw y) (y_count y) (y_active y) c))
      | _ => None
      end
  | LDispatch p b => (* 385 *)
      let c := y_cl y p in
      match c_pc c with PIdle => Some (set_cl y p (at_pc c (PDisp b))) | _ => None end
  | LGo p => (* 392-394 *)
      let c := y_cl y p in
      match c_pc c with
      | PDisp b =>
          if c_conn c then
            if N.of_nat (List.length (c_queue c)) =? limit g p
            then Some (set_cl y p (enter_read c (KDisp b)))
            else Some (set_cl y p (enter_write c b))
          else None
      | _ => None
      end
  | LLock p => (* 513 *)
      let c := y_cl y p in
      match c_pc c, y_owner y with
      | PLock b, None =>
          Some (mkY (y_hw y) (y_count y) (y_active y) (Some p)
                 (upd (y_cl y) p (mkC (PStart b) (c_conn c) true (c_ext c) (c_cnt c) (c_idx c) (c_pub c) (c_read c) (c_queue c)))
                 (y_tr y))
      | _, _ => None
      end
  | LStart p => (* 515-523 *)
      let c := y_cl y p in
      match c_pc c with
      | PStart b =>
          let n := y_count y + 1 in
          let c1 := mkC (PWrite b) (c_conn c) (c_lock c) (c_ext c) (c_cnt c + 1) (c_idx c) (c_pub c) (c_read c) (c_queue c) in
          let c2 := if c_ext c || negb (eq64 n (c_cnt c + 1)) then connect g (y_hw y) n true c1 else c1 in
          Some (mkY (y_hw y) n true (y_owner y) (upd (y_cl y) p c2) (y_tr y))
      | _ => None
      end
  | LWrite p => (* 526-538 *)
      let c := y_cl y p in
      match c_pc c with
      | PWrite b =>
          Some (mkY (hw_write g (y_hw y) (c_idx c) b) (y_count y) (y_active y) (y_owner y)
                 (upd (y_cl y) p (mkC PIdle (c_conn c) (c_lock c) (c_ext c) (c_cnt c)
                    ((c_idx c + 1) mod r_pages g) (c_pub c) (c_read c) (c_queue c ++ [b])))
                 (OWrite p b (c_idx c) :: y_tr y))
      | _ => None
      end
  | LFlush p => (* ClientInterface.cpp 164-170, ProtocolPCIe.cpp 398-402 *)
      let c := y_cl y p in
      match c_pc c, c_queue c with
      | PIdle, _ :: _ => Some (set_cl y p (enter_flush c))
      | _, _ => None
      end
  | LPoll p => (* 549-605 *)
      let c := y_cl y p in
      let h := y_hw y in
      match c_pc c with
      | PWait k =>
          if r_intr g p then
            if h_irq h
            then Some (mkY (mkH (h_recv h) (h_pub h) (h_wait h) (h_rep h) false)
                         (y_count y) (y_active y) (y_owner y) (upd (y_cl y) p (at_pc c (PRead k))) (y_tr y))
            else None
          else if eq32 (h_pub h) (c_pub c) then None
          else Some (set_cl y p (mkC (PRead k) (c_conn c) (c_lock c) (c_ext c) (c_cnt c) (c_idx c)
                                   (h_pub h) (c_read c) (c_queue c)))
      | _ => None
      end
  | LRead p => (* 606-640; the copy is in Pages.v, validation in Validate.v *)
      let c := y_cl y p in
      match c_pc c, c_queue c with
      | PRead k, b :: q =>
          let pg := page_to_read g c in
          let c1 := mkC (c_pc c) (c_conn c) (c_lock c) (c_ext c) (c_cnt c) (c_idx c) (c_pub c) (c_read c + 1) q in
          let c2 := match k with KDisp b' => enter_write c1 b' | KFlush => enter_flush c1 end in
          Some (note (set_cl y p c2) (ORead p b pg (h_rep (y_hw y) pg)))
      | _, _ => None
      end
  | LUnlock p => (* 404 *)
      let c := y_cl y p in
      match c_pc c with
      | PUnlock =>
          Some (mkY (y_hw y) (y_count y) (y_active y) None
                 (upd (y_cl y) p (mkC PEnd (c_conn c) false (c_ext c) (c_cnt c) (c_idx c) (c_pub c) (c_read c) (c_queue c)))
                 (y_tr y))
      | _ => None
      end
  | LEnd p => (* 406-407 *)
      let c := y_cl y p in
      match c_pc c with
      | PEnd => Some (mkY (y_hw y) (y_count y) false (y_owner y) (upd (y_cl y) p (at_pc c PIdle)) (y_tr y))
      | _ => None
      end
  | LFail p => (* 411-422: at any time, for any reason *)
      let c := y_cl y p in
      Some (mkY (y_hw y) (y_count y) (y_active y) (if c_lock c then None else y_owner y)
              (upd (y_cl y) p (handler c)) (ODrop p :: y_tr y))
  | LPub => (* PCIeDummyHardware.cpp 147-175 *)
      let h := y_hw y in
      match h_wait h with
      | b :: w =>
          let pg := (h_pub h + r_off g) mod r_pages g in
          Some (set_hw y (mkH (h_recv h) (h_pub h + 1) w (updN (h_rep h) pg (Some b)) true) (OPub pg b))
      | [] => None
      end
  end.

(** Executions.  Not in the code: a sequence of steps. *)
Fixpoint rrun (g : rcfg) (y : sys) (ls : list rlab) : option sys :=
  match ls with
  | [] => Some y
  | l :: t => match rstep g y l with Some y' => rrun g y' t | None => None end
  end.

(** A client after its constructor (ProtocolPCIe.cpp 315-335; the members
    mIPCExternalSessionActive and mIPCSessionCount are not initialised there
    and are assigned by the first connect). *)
Definition new_client : cst := mkC PIdle false false false 0 0 0 0 [].

(** Start: no client connected, nobody in a session, the hardware idle with any
    counts, pages with any contents, the shared counter and flag with any
    value.  Constructors, ProtocolPCIe.cpp 315-376, ProtocolMmap.cpp 283-321. *)
Definition init_ring (k count : N) (active : bool) (rep : N -> option nat) : sys :=
  mkY (mkH k k [] rep false) count active None (fun _ => new_client) [].
