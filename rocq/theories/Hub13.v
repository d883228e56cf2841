(** The ControlHub's device client for an IPbus 1.3 target, the target, and the
    datagrams between them.  IPbus 1.3 has no packet identifiers.

    Sources: /repo/controlhub/src/ch_device_client.erl lines 212-242, 247-333,
    350-414, 549-559, 694-770; /repo/uhal/tests/src/common/DummyHardware.cpp
    80-166, 178-188.

    Simplifications: those of [Hub.v], except that the target is an IPbus 1.3 one:
    the reply to an IPbus 2.0 status request (lines 752-763) does not come. *)
From Coq Require Import NArith List Bool PeanoNat.
From Verif Require Import Hub.
Import ListNotations.
Open Scope N_scope.

(** parse_ipbus_control_pkt gives {{1,3}, _}: ch_device_client.erl 554-557 (the
    clauses for 2.0, lines 550-553, do not match such packets). *)
Definition ctl13 (p : bytes) : bool :=
  match p with
  | b0 :: b1 :: b2 :: b3 :: _ =>
      (b0 / 16 =? 1) && (b2 =? 0) && (b3 / 8 =? 0x1F) && (b3 mod 4 =? 0) ||
      (b0 / 8 =? 0x1F) && (b0 mod 4 =? 0) && (b1 =? 0) && (b3 / 16 =? 1)
  | _ => false
  end.

(** Where the process is, as in [Hub.v]; KWait: in recover_from_timeout (failed
    attempts).  Lines 212-236, 247-333, 395-414, 694-770. *)
Inductive mode13 := KIdle | KSetup (r : req) (v2 : bool) (togo : nat) | KLoop | KWait (k : nat) | KDead.

(** The state: the mode; in_flight, {1, {Pid, Packet}} or {0, {void, void}}; the
    requests in the mailbox.  Lines 44-60, 356, 379. *)
Record hub13 := mkH13 { k_mode : mode13; k_fl : option (pid * bytes); k_box : list req }.
Definition out13 := (hub13 * list bytes * list hev)%type.

(** The process ends without telling anybody: an exception in the loop of
    ch_device_client.erl 247-333. *)
Definition crash13 : out13 := (mkH13 KDead None [], [], [VCrash]).

(** send_request for an IPbus 1.3 target, ch_device_client.erl 350-361. *)
Definition send13 (h : hub13) (r : req) : out13 :=
  if ctl13 (q_pkt r) then (mkH13 (k_mode h) (Some (q_pid r, q_pkt r)) (k_box h), [q_pkt r], [])
  else (h, [], [VResp (q_pid r) E_VERSION []]).

(** forward_reply for an IPbus 1.3 target, ch_device_client.erl 375-392. *)
Definition forward13 (h : hub13) (p : bytes) : out13 :=
  match k_fl h with
  | Some (q, _) => (mkH13 (k_mode h) None (k_box h), [], [VResp q E_OK p])
  | None => (h, [], [])
  end.

(** The process stops after an error, ch_device_client.erl 229-233, 322-332,
    481-488. *)
Definition give_up13 (h : hub13) (ps : list pid) (code : N) : out13 :=
  (mkH13 KDead None [], [], map (fun p => VResp p code []) (ps ++ map q_pid (k_box h))).
(** The client of the request in flight, ch_device_client.erl 481-488. *)
Definition fl13 (h : hub13) : list pid := match k_fl h with Some (q, _) => [q] | None => [] end.

(** The next message is a request: lines 212-223, 727-744 and 253-255 (max_in_flight
    is 1, line 220). *)
Definition take13 (h : hub13) : option out13 :=
  match k_box h with
  | [] => None
  | r :: t =>
      let h1 := mkH13 (k_mode h) (k_fl h) t in
      match k_mode h with
      | KIdle =>
          match first_version (q_pkt r) with
          | None => Some crash13
          | Some v2 => Some (mkH13 (KSetup r v2 5) (k_fl h) t, [if v2 then status_req else status_req13], [])
          end
      | KLoop => match k_fl h with None => Some (send13 h1 r) | Some _ => None end
      | _ => None
      end
  end.

(** A datagram from the target is taken from the mailbox.  Lines 256-258, 279-291,
    405-407, 747-751 with 216-223; 501-503 before the first request. *)
Definition recv13 (h : hub13) (p : bytes) : option out13 :=
  match k_mode h with
  | KIdle => Some crash13
  | KLoop => Some (forward13 h p)
  | KSetup r v2 togo =>
      if same (hdr p) [0xFC; 0; 0; 0x10] then Some (send13 (mkH13 KLoop None (k_box h)) r) else None
  | KWait k => Some (forward13 (mkH13 KLoop (k_fl h) (k_box h)) p)
  | KDead => None
  end.

(** An after clause: lines 262-270, 292-297, 408-414, 711-714, 764-769. *)
Definition expire13 (h : hub13) : option out13 :=
  match k_mode h with
  | KIdle | KDead => None
  | KLoop =>
      match k_fl h, k_box h with
      | Some _, _ => Some (mkH13 (KWait 0) (k_fl h) (k_box h), [], [])
      | None, [] => Some (mkH13 KDead None [], [], [])
      | None, _ => None
      end
  | KSetup r v2 togo =>
      if Nat.leb togo 1 then Some (give_up13 h [q_pid r] E_STATUS)
      else Some (mkH13 (KSetup r v2 (togo - 1)) (k_fl h) (k_box h), if v2 then [status_req] else [], [])
  | KWait k =>
      if Nat.eqb (k + 1) 3 then Some (give_up13 h (fl13 h) E_CONTROL)
      else Some (mkH13 (KWait (k + 1)) (k_fl h) (k_box h), [], [])
  end.

Section Target13.
Variable D : Type.
(** What the target does with a packet, and its reply ([Target.v] has this for
    words). *)
Variable exec : D -> bytes -> D * bytes.

(** A datagram reaches the target.  The status request is ten byte-order
    transactions, each of which is answered: DummyHardware.cpp 178-188.  An IPbus
    2.0 status request is no packet of IPbus 1.3; simplified: it is dropped (the
    answer to it is one word, at which the device client does not look). *)
Definition receive13 (d : D) (p : bytes) : D * option bytes * option (bytes * bytes) :=
  if same p status_req13 then (d, Some (concat (repeat [0xFC; 0; 0; 0x10] 10)), None)
  else if same p status_req then (d, None, None)
  else let (d', r) := exec d p in (d', Some r, Some (p, r)).

(** Everything: the device client and its socket; the datagrams to and from the
    target, each with the socket; the target.  What the device client has done is put
    into it.  ch_device_client.erl 44-60, 350-392, DummyHardware.cpp 80-166. *)
Record world13 := mkW13 {
  x_hub : hub13; x_sock : nat; x_up : list (nat * bytes); x_down : list (nat * bytes); x_dev : D
}.
Definition apply13 (w : world13) (o : out13) : world13 * list ev :=
  let '(h, ps, vs) := o in
  (mkW13 h (x_sock w) (x_up w ++ map (pair (x_sock w)) ps) (x_down w) (x_dev w), map EHub vs).

(** One step, as in [Hub.v].  ch_device_client.erl 247-333. *)
Definition step13 (w : world13) (l : label) : option (world13 * list ev) :=
  let h := x_hub w in
  match l with
  | LCast r =>
      match k_mode h with
      | KDead => Some (w, [ELost r])
      | _ => Some (mkW13 (mkH13 (k_mode h) (k_fl h) (k_box h ++ [r])) (x_sock w) (x_up w) (x_down w) (x_dev w), [])
      end
  | LTake => option_map (apply13 w) (take13 h)
  | LTime => option_map (apply13 w) (expire13 h)
  | LUp i keep =>
      match nth_error (x_up w) i with
      | None => None
      | Some g =>
          let '(d, r, x) := receive13 (x_dev w) (snd g) in
          Some (mkW13 h (x_sock w) (if keep then x_up w else drop i (x_up w))
                      (x_down w ++ match r with Some p => [(fst g, p)] | None => [] end) d,
                match x with Some (b, r) => [EExec b r] | None => [] end)
      end
  | LDown i keep =>
      match nth_error (x_down w) i with
      | None => None
      | Some g =>
          if Nat.eqb (fst g) (x_sock w) then
            option_map (apply13 (mkW13 h (x_sock w) (x_up w) (if keep then x_down w else drop i (x_down w)) (x_dev w))) (recv13 h (snd g))
          else None
      end
  | LLoseUp i => Some (mkW13 h (x_sock w) (drop i (x_up w)) (x_down w) (x_dev w), [])
  | LLoseDown i => Some (mkW13 h (x_sock w) (x_up w) (drop i (x_down w)) (x_dev w), [])
  | LNoise p => option_map (apply13 w) (recv13 h p)
  | LRestart =>
      match k_mode h with
      | KDead => Some (mkW13 (mkH13 KIdle None []) (S (x_sock w)) (x_up w) (x_down w) (x_dev w), [])
      | _ => None
      end
  end.

(** An execution and what is seen of it.  Not in the code. *)
Fixpoint run13 (w : world13) (ls : list label) : option (world13 * list ev) :=
  match ls with
  | [] => Some (w, [])
  | l :: t =>
      match step13 w l with
      | None => None
      | Some (w1, e1) => match run13 w1 t with None => None | Some (w2, e2) => Some (w2, e1 ++ e2) end
      end
  end.
End Target13.
