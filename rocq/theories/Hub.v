(** The ControlHub's device client, the target it talks to over UDP, and the
    datagrams between them: the packet-loss recovery of IPbus 2.0.

    Sources: /repo/controlhub/src/ch_device_client.erl lines 44-60, 212-242,
    247-490, 549-681 and 694-770; /repo/uhal/tests/src/common/DummyHardware.cpp
    lines 80-166 and 377-476; /repo/uhal/uhal/src/common/IPbusInspector.cpp 61-90;
    /repo/controlhub/src/ch_device_client_registry.erl 66-86, 166-176.

    Simplifications (all of the model):
    - packets are lists of bytes; the process that owns the socket
      (ch_device_client.erl 826-870) passes messages on and is part of the network;
    - the target is an IPbus 2.0 one, so the reply to an IPbus 1.3 status request
      (lines 747-751) does not come;
    - a message in the mailbox that the receive of the moment does not match stays
      in the network; the network gives datagrams in any order, so the mailbox is
      not a separate queue, except for the requests, which are taken in order;
    - a timeout (after clause) may come at any moment;
    - statistics and logging are left out. *)
From Coq Require Import NArith List Bool PeanoNat.
Import ListNotations.
Open Scope N_scope.

(** binary() and the process identifiers of the transaction managers, as in
    ch_device_client.erl 44-60. *)
Definition bytes := list N.
Definition pid := nat.

(** Integers in binaries, most significant byte first: <<X:16>>, <<X:32>>. *)
Definition be16 (x : N) : bytes := [x / 256 mod 256; x mod 256].
Definition be32 (x : N) : bytes := [x / 2 ^ 24 mod 256; x / 2 ^ 16 mod 256; x / 2 ^ 8 mod 256; x mod 256].
Definition un32 (a b c d : N) : N := ((a * 256 + b) * 256 + c) * 256 + d.

(** ** Packets *)

(** big | little.  ch_device_client.erl 549-557. *)
Inductive endness := Big | Little.

(** parse_ipbus_control_pkt, ch_device_client.erl 550-559: the byte order of an
    IPbus 2.0 control packet.  Simplified: IPbus 1.3 packets give None; for an
    IPbus 2.0 target both are treated alike (lines 346-348). *)
Definition parse_ctl (p : bytes) : option endness :=
  match p with
  | b0 :: _ :: _ :: b3 :: _ =>
      if (b0 =? 0x20) && (b3 =? 0xF0) then Some Big
      else if (b0 =? 0xF0) && (b3 =? 0x20) then Some Little else None
  | _ => None
  end.

(** ipbus2_pkt_header, ch_device_client.erl 569-572. *)
Definition ctl_header (id : N) (e : endness) : bytes :=
  match e with
  | Big => 0x20 :: be16 id ++ [0xF0]
  | Little => [0xF0; id mod 256; id / 256 mod 256; 0x20]
  end.

(** increment_pkt_id and decrement_pkt_id, ch_device_client.erl 581-614. *)
Definition inc_id (id : N) : N := if id =? 0xFFFF then 1 else id + 1.
Definition dec_id (id : N) : N := if id =? 1 then 0xFFFF else id - 1.
Fixpoint dec_ids (id : N) (n : nat) : N := match n with O => id | S n => dec_ids (dec_id id) n end.

(** resend_request_pkt, ch_device_client.erl 673-679; the headers given to it are
    those made by [ctl_header], on which it does not fail. *)
Definition resend_pkt (hdr : bytes) : bytes :=
  match hdr with
  | [b0; b1; b2; b3] => if b0 =? 0x20 then [0x20; b1; b2; 0xF2] else [0x20; b2; b1; 0xF2]
  | _ => []
  end.

(** StatusReq20 and StatusReq13 (native is little), ch_device_client.erl 724-725. *)
Definition status_req : bytes := [0x20; 0; 0; 0xF1] ++ repeat 0 60.
Definition status_req13 : bytes := concat (repeat [0xF8; 0; 0; 0x10] 10).

(** The first four bytes.  <<Hdr:4/binary, Body/binary>>, ch_device_client.erl 340,
    367. *)
Definition hdr (p : bytes) : bytes := firstn 4 p.
Definition body (p : bytes) : bytes := skipn 4 p.
Fixpoint same (a b : bytes) : bool :=
  match a, b with
  | [], [] => true
  | x :: a, y :: b => (x =? y) && same a b
  | _, _ => false
  end.

(** parse_ipbus_packet of a request, ch_device_client.erl 628-655, as far as
    handle_cast looks at it (line 214): the version is 2.0 (true) or 1.3 (false);
    None if the match fails.  Lines 657-664 are [status_ok]. *)
Definition status_ok (p : bytes) : bool :=
  forallb (N.eqb 0) (body p) || (nth 12 p 0 =? 0x20) && (nth 15 p 0 =? 0xF0).
Definition first_version (p : bytes) : option bool :=
  match p with
  | b0 :: b1 :: b2 :: b3 :: _ =>
      if (b0 =? 0x20) && (b3 / 16 =? 15) then
        if b3 mod 16 =? 0 then Some true
        else if (b3 mod 16 =? 1) && (b1 =? 0) && (b2 =? 0) && Nat.eqb (length p) 64 then
          if status_ok p then Some true else None
        else if (b3 mod 16 =? 2) && Nat.eqb (length p) 4 then Some true else None
      else if (b0 / 16 =? 15) && (b3 =? 0x20) then if b0 mod 16 =? 0 then Some true else None
      else if (b0 / 16 =? 1) && (b2 =? 0) && (b3 / 8 =? 0x1F) && (b3 mod 4 =? 0) then Some false
      else if (b0 / 8 =? 0x1F) && (b0 mod 4 =? 0) && (b1 =? 0) && (b3 / 16 =? 1) then Some false
      else None
  | _ => None
  end.

(** What get_device_status finds in a reply that begins with 0x200000f1:
    ch_device_client.erl 752-763 with 628-664.  SCrash: no clause matches. *)
Inductive stat := SOk (nbuf next : N) | SMalformed | SCrash.
Definition parse_status (p : bytes) : stat :=
  if negb (Nat.eqb (length p) 64) then SMalformed
  else if forallb (N.eqb 0) (body p) then SMalformed
  else if (nth 12 p 0 =? 0x20) && (nth 15 p 0 =? 0xF0) then
    SOk (un32 (nth 8 p 0) (nth 9 p 0) (nth 10 p 0) (nth 11 p 0)) (nth 13 p 0 * 256 + nth 14 p 0)
  else SCrash.

(** ** The device client *)

(** A request of a transaction manager: {send, Packet, Pid}.  Line 212. *)
Record req := mkReq { q_pid : pid; q_pkt : bytes }.

(** An element of InFlightQ: {Pid, OrigHdr, NewHdr, Body}.  Line 345. *)
Record flight := mkFl { f_pid : pid; f_orig : bytes; f_hdr : bytes; f_body : bytes }.

(** TypeLost, line 423. *)
Inductive lost := LRequest | LResponse.

(** Where the process is: before the first request; in get_device_status of
    handle_cast (first request, its version, attempts left); in
    device_client_loop; in recover_from_timeout, in its get_device_status or in
    its receive (failed attempts; attempts left of the status, kind of loss);
    stopped.  Lines 212-236, 247-333, 416-478, 694-770. *)
Inductive mode :=
| MIdle | MSetup (r : req) (v2 : bool) (togo : nat) | MLoop
| MStat (k togo : nat) | MWait (k : nat) (t : lost) | MDead.

(** The state of the device client, lines 44-60: mode, next_id, in_flight (the
    count is the length of the queue), max_in_flight; and the requests in the
    mailbox. *)
Record hub := mkHub { h_mode : mode; h_next : N; h_fl : list flight; h_max : nat; h_box : list req }.
Definition set_mode (h : hub) (m : mode) : hub := mkHub m (h_next h) (h_fl h) (h_max h) (h_box h).

(** What the device client does besides sending datagrams: a request gets its
    place in the sequence (line 345); a device_client_response message to a
    transaction manager (error code and reply); the process ends by a failed
    match. *)
Inductive hev := VSend (f : flight) | VResp (p : pid) (code : N) (reply : bytes) | VCrash.

(** ch_error_codes.hrl 14-29. *)
Definition E_OK : N := 0.
Definition E_CONTROL : N := 1.
Definition E_STATUS : N := 3.
Definition E_RESEND : N := 4.
Definition E_MALFORMED : N := 5.
Definition E_VERSION : N := 6.

(** What a function leaves: the state, the datagrams sent, and what it has done.  Not
    in the code. *)
Definition outcome := (hub * list bytes * list hev)%type.

(** The process ends without telling anybody: an exception in the loop of
    ch_device_client.erl 247-333. *)
Definition crash (h : hub) : outcome := (mkHub MDead (h_next h) [] (h_max h) [], [], [VCrash]).

(** send_request for an IPbus 2.0 target, ch_device_client.erl 336-349; the guard
    of increment_pkt_id fails for 0 (line 608). *)
Definition send_request (h : hub) (r : req) : outcome :=
  match parse_ctl (q_pkt r) with
  | Some e =>
      if h_next h =? 0 then
        let (h', v) := (fst (fst (crash h)), snd (crash h)) in (h', [ctl_header (h_next h) e ++ body (q_pkt r)], v)
      else
      let f := mkFl (q_pid r) (hdr (q_pkt r)) (ctl_header (h_next h) e) (body (q_pkt r)) in
      (mkHub (h_mode h) (inc_id (h_next h)) (h_fl h ++ [f]) (h_max h) (h_box h), [f_hdr f ++ f_body f], [VSend f])
  | None => (h, [], [VResp (q_pid r) E_VERSION []])
  end.

(** forward_reply for an IPbus 2.0 target, ch_device_client.erl 364-393. *)
Definition forward_reply (h : hub) (p : bytes) : outcome :=
  match h_fl h with
  | [] => (h, [], [])
  | f :: fl =>
      if Nat.ltb (length p) 4 then crash h
      else if same (hdr p) (f_hdr f) then
        (mkHub (h_mode h) (h_next h) fl (h_max h) (h_box h), [], [VResp (f_pid f) E_OK (f_orig f ++ body p)])
      else (h, [], [])
  end.

(** The process stops after an error: the clients of the packets in flight and of
    the requests in the mailbox are told.  ch_device_client.erl 229-233, 322-332,
    481-488. *)
Definition give_up (h : hub) (ps : list pid) (code : N) : outcome :=
  (mkHub MDead (h_next h) [] (h_max h) [], [],
   map (fun p => VResp p code []) (ps ++ map q_pid (h_box h))).
Definition fl_pids (h : hub) : list pid := map f_pid (h_fl h).

(** The next message is a request: handle_cast (lines 212-236, 727-744), or the
    first clause of device_client_loop(send) (lines 253-255).  None: not received
    now. *)
Definition take (h : hub) : option outcome :=
  match h_box h with
  | [] => None
  | r :: t =>
      let h1 := mkHub (h_mode h) (h_next h) (h_fl h) (h_max h) t in
      match h_mode h with
      | MIdle =>
          match first_version (q_pkt r) with
          | None => Some (crash h1)
          | Some v2 => Some (set_mode h1 (MSetup r v2 5), [if v2 then status_req else status_req13], [])
          end
      | MLoop => if Nat.ltb (length (h_fl h)) (h_max h) then Some (send_request h1 r) else None
      | _ => None
      end
  end.

(** The packets sent again, or asked for again, ch_device_client.erl 427-446. *)
Definition repeat_pkts (h : hub) (t : lost) : list bytes :=
  match t with
  | LRequest => map (fun f => f_hdr f ++ f_body f) (h_fl h)
  | LResponse => map (fun f => resend_pkt (f_hdr f)) (h_fl h)
  end.

(** A datagram from the target is taken from the mailbox.  None: not received
    now.  ch_device_client.erl 252-262, 279-291 and 456-459 (loop and recovery),
    746-763 with 215-235 and 421-446, 466-477 (status), 501-503 (before the first
    request; the process stops). *)
Definition recv (absmax : nat) (h : hub) (p : bytes) : option outcome :=
  match h_mode h with
  | MIdle => Some (crash h)
  | MLoop => Some (forward_reply h p)
  | MSetup r v2 togo =>
      if same (hdr p) [0x20; 0; 0; 0xF1] then
        match parse_status p with
        | SOk nbuf next =>
            let h1 := mkHub MLoop next [] (Nat.min (N.to_nat nbuf) absmax) (h_box h) in
            Some (send_request h1 r)
        | SMalformed => Some (give_up h [q_pid r] E_MALFORMED)
        | SCrash => Some (crash h)
        end
      else None
  | MStat k togo =>
      if same (hdr p) [0x20; 0; 0; 0xF1] then
        match parse_status p with
        | SOk _ next =>
            let t := if next =? dec_ids (h_next h) (length (h_fl h)) then LRequest else LResponse in
            match h_fl h with
            | [] => Some (crash h)
            | _ => Some (set_mode h (MWait k t), repeat_pkts h t, [])
            end
        | SMalformed => Some (give_up h (fl_pids h) E_MALFORMED)
        | SCrash => Some (crash h)
        end
      else None
  | MWait k t =>
      match h_fl h with
      | f :: _ => if same (hdr p) (f_hdr f) then Some (forward_reply (set_mode h MLoop) p) else None
      | [] => None
      end
  | MDead => None
  end.

(** An after clause: ch_device_client.erl 261-269, 292-297, 459-466, 711-714,
    764-769.  The one at line 261 does not come while there is a request in the
    mailbox. *)
Definition expire (h : hub) : option outcome :=
  match h_mode h with
  | MIdle | MDead => None
  | MLoop =>
      if Nat.ltb (length (h_fl h)) (h_max h) then
        match h_box h, h_fl h with
        | _ :: _, _ => None
        | [], [] => Some (set_mode h MDead, [], [])
        | [], _ => Some (set_mode h (MStat 0 5), [status_req], [])
        end
      else Some (set_mode h (MStat 0 5), [status_req], [])
  | MSetup r v2 togo =>
      if Nat.leb togo 1 then Some (give_up h [q_pid r] E_STATUS)
      else Some (set_mode h (MSetup r v2 (togo - 1)), if v2 then [status_req] else [], [])
  | MStat k togo =>
      if Nat.leb togo 1 then Some (give_up h (fl_pids h) E_STATUS)
      else Some (set_mode h (MStat k (togo - 1)), [status_req], [])
  | MWait k t =>
      if Nat.eqb (k + 1) 5 then Some (give_up h (fl_pids h) (match t with LResponse => E_RESEND | LRequest => E_CONTROL end))
      else Some (set_mode h (MStat (k + 1) 5), [status_req], [])
  end.

(** ** The target *)
Section Target.
Variable D : Type.
(** What the target does with the body of a control packet, and the body of its
    reply ([Target.v] has this for words). *)
Variable exec : D -> bytes -> D * bytes.
(** mBigEndianHack, and REPLY_HISTORY_DEPTH.  DummyHardware.hpp 58, 219. *)
Variable hack : bool.
Variable depth : nat.
(** max_udp_in_flight.  ch_config.erl 53, ch_device_client_registry.erl 112. *)
Variable absmax : nat.

(** The registers, the counter in mLastPacketHeader, mReplyHistory (oldest first).
    DummyHardware.hpp 194-216. *)
Record dev := mkDev { v_d : D; v_last : N; v_hist : list (N * bytes) }.

(** The packet identifier expected next, DummyHardware.cpp 382-387, 412-418
    (uint16_t). *)
Definition next_id (last : N) : N := let x := (last + 1) mod 65536 in if x =? 0 then 1 else x.

(** status_packet_header, DummyHardware.cpp 408-449.  Simplified: the twelve words
    of history, at which the device client does not look, are 0. *)
Definition status_reply (v : dev) (h : bytes) : bytes :=
  h ++ be32 400000 ++ be32 (N.of_nat depth) ++ (0x20 :: be16 (next_id (v_last v)) ++ [0xF0]) ++ repeat 0 48.

(** resend_packet_header: the newest reply with the identifier.
    DummyHardware.cpp 453-468. *)
Definition find_reply (l : list (N * bytes)) (id : N) : option bytes :=
  option_map snd (find (fun x => fst x =? id) (rev l)).

(** A datagram reaches the target: AnalyzeReceivedAndCreateReply and analyze,
    DummyHardware.cpp 80-166 and 377-476, IPbusInspector.cpp 73-90.  The reply, if
    there is one, and the body if a control packet was carried out.  Simplified:
    datagrams of less than four bytes and of unknown type are dropped (the answer
    to the latter is one word, at which the device client does not look). *)
Definition receive (v : dev) (p : bytes) : dev * option bytes * option (bytes * bytes) :=
  match p with
  | b0 :: b1 :: b2 :: b3 :: t =>
      let swap := hack || same [b0; b1; b2; b3] [0x20; 0; 0; 0xF1] || ((b0 =? 0x20) && (b3 =? 0xF2)) in
      let low := if swap then b3 else b0 in
      let cnt := if swap then b1 * 256 + b2 else b2 * 256 + b1 in
      if low mod 16 =? 0 then
        if (cnt =? 0) || (cnt =? next_id (v_last v)) then
          let (d, r) := exec (v_d v) t in
          let reply := [b0; b1; b2; b3] ++ r in
          (mkDev d (if cnt =? 0 then v_last v else cnt) (tl (v_hist v) ++ [(cnt, reply)]), Some reply, Some (t, r))
        else (v, None, None)
      else if low mod 16 =? 1 then
        (v, Some (status_reply v (if swap then [b0; b1; b2; b3] else [b3; b2; b1; b0])), None)
      else if low mod 16 =? 2 then (v, find_reply (v_hist v) cnt, None)
      else (v, None, None)
  | _ => (v, None, None)
  end.

(** ** The network *)

(** A datagram: the socket of the device client that sent it or to which it goes
    (a new device client has a new one, ch_device_client.erl 158); and a ghost, the
    number of requests this device client had forwarded when the datagram was
    sent. *)
Record dgram := mkDg { g_sock : nat; g_born : nat; g_bytes : bytes }.

(** Everything: the device client and its socket, the number of requests it has
    forwarded (a ghost), the datagrams to and from the target, the target.
    ch_device_client.erl 44-60, DummyHardware.cpp 80-166. *)
Record world := mkW {
  w_hub : hub; w_sock : nat; w_sent : nat;
  w_up : list dgram; w_down : list dgram; w_dev : dev
}.

(** What happens: a request reaches the mailbox, is taken; a timeout; a datagram
    reaches the target, or the device client (and may come again: [keep]); is
    lost; a datagram comes that the target has not sent; a stopped device client
    is replaced by a new one.  ch_device_client.erl 247-333,
    ch_device_client_registry.erl 66-86, 166-176. *)
Inductive label :=
| LCast (r : req) | LTake | LTime
| LUp (i : nat) (keep : bool) | LDown (i : nat) (keep : bool)
| LLoseUp (i : nat) | LLoseDown (i : nat) | LNoise (p : bytes) | LRestart.

(** What is seen: what the device client does; a request to a process that has
    stopped (gen_server:cast to it does nothing); a control packet carried out,
    with its reply.  Not in the code. *)
Inductive ev := EHub (v : hev) | ELost (r : req) | EExec (b r : bytes).

(** The list without element [i].  Not in the code. *)
Definition drop {A} (i : nat) (l : list A) : list A := firstn i l ++ skipn (S i) l.

(** Requests among what the device client does.  A ghost: not in the code. *)
Definition sends (vs : list hev) : nat := length (filter (fun v => match v with VSend _ => true | _ => false end) vs).

(** What the device client has done is put into the world: gen_udp:send and the
    messages, ch_device_client.erl 336-393. *)
Definition apply_hub (w : world) (o : outcome) : world * list ev :=
  let '(h, ps, vs) := o in
  let n := (w_sent w + sends vs)%nat in
  (mkW h (w_sock w) n (w_up w ++ map (mkDg (w_sock w) n) ps) (w_down w) (w_dev w), map EHub vs).

(** One step.  The registry looks up a stopped process until it is told of its end
    (ch_device_client_registry.erl 66-70, 166-176), so requests can still be sent to
    it; after that a new process is made. *)
Definition step (w : world) (l : label) : option (world * list ev) :=
  let h := w_hub w in
  match l with
  | LCast r =>
      match h_mode h with
      | MDead => Some (w, [ELost r])
      | _ => Some (mkW (mkHub (h_mode h) (h_next h) (h_fl h) (h_max h) (h_box h ++ [r]))
                       (w_sock w) (w_sent w) (w_up w) (w_down w) (w_dev w), [])
      end
  | LTake => option_map (apply_hub w) (take h)
  | LTime => option_map (apply_hub w) (expire h)
  | LUp i keep =>
      match nth_error (w_up w) i with
      | None => None
      | Some g =>
          let '(v, r, x) := receive (w_dev w) (g_bytes g) in
          Some (mkW h (w_sock w) (w_sent w) (if keep then w_up w else drop i (w_up w))
                    (w_down w ++ match r with Some p => [mkDg (g_sock g) (w_sent w) p] | None => [] end) v,
                match x with Some (b, r) => [EExec b r] | None => [] end)
      end
  | LDown i keep =>
      match nth_error (w_down w) i with
      | None => None
      | Some g =>
          if Nat.eqb (g_sock g) (w_sock w) then
            match recv absmax h (g_bytes g) with
            | None => None
            | Some o => Some (apply_hub (mkW h (w_sock w) (w_sent w) (w_up w) (if keep then w_down w else drop i (w_down w)) (w_dev w)) o)
            end
          else None
      end
  | LLoseUp i => Some (mkW h (w_sock w) (w_sent w) (drop i (w_up w)) (w_down w) (w_dev w), [])
  | LLoseDown i => Some (mkW h (w_sock w) (w_sent w) (w_up w) (drop i (w_down w)) (w_dev w), [])
  | LNoise p => option_map (apply_hub w) (recv absmax h p)
  | LRestart =>
      match h_mode h with
      | MDead => Some (mkW (mkHub MIdle 0 [] 0 []) (S (w_sock w)) 0 (w_up w) (w_down w) (w_dev w), [])
      | _ => None
      end
  end.

(** An execution and what is seen of it.  Not in the code. *)
Fixpoint run (w : world) (ls : list label) : option (world * list ev) :=
  match ls with
  | [] => Some (w, [])
  | l :: t =>
      match step w l with
      | None => None
      | Some (w1, e1) => match run w1 t with None => None | Some (w2, e2) => Some (w2, e1 ++ e2) end
      end
  end.
End Target.
