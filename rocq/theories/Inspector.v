(** Model of the packet inspectors.

    Source: /repo/uhal/uhal/src/common/IPbusInspector.cpp, lines 61-194
    ([HostToTargetInspector::analyze]) and 329-435
    ([TargetToHostInspector::analyze]).
    The vector the iterators point into is the list [buf]; an iterator is a
    position in it; [stop] is [aEnd], which need not be the end of the vector
    (DummyHardware.cpp 112-113: the vector is the receive buffer, longer than the
    packet).  The result is the list of the callbacks with their arguments, and
    how the function ended.  Simplified: the messages of the default callbacks
    are not modelled, only the calls; [control_packet_header] returns true, as in
    the classes themselves (IPbusInspector.cpp 283-287 and 509-513; the override
    of DummyHardware.cpp 377-404 is modelled in Board.v). *)
From Verif Require Import Word Header Client.
From Coq Require Import NArith List Bool Arith.
Import ListNotations.
Open Scope N_scope.

(** The callbacks for transactions: IPbusInspector.hpp 93-146 (requests) and
    204-240 (replies), with their arguments (the payload given by a pair of
    iterators is the list of its words). *)
Inductive handler :=
| KBot
| KNiRead (a : N) | KRead (a : N) | KConfig (a : N)
| KNiWrite (a : N) (ws : list N) | KWrite (a : N) (ws : list N)
| KSum (a x : N) | KBits (a m o : N)
| KData (inc : bool) (ws : list N)
| KWritten (inc : bool)
| KValue (bits : bool) (x : N)
| KUnknown.

(** The callbacks for packet headers: IPbusInspector.hpp 148-158 and 242-249. *)
Inductive pkind := PControl | PStatus | PResend | PUnknown.

(** A call: of a packet callback, with [mPacketHeader] and [mPacketCounter], or
    of a transaction callback, with [mHeader] and the four members decoded from
    it (IPbusInspector.hpp 64-80 and 174-190). *)
Inductive call :=
| KPacket (k : pkind) (p ctr : N)
| KTx (w : N) (x : hdr) (f : handler).

(** How [analyze] ends: the value returned and the position of [aIt]; or a word
    behind the end of the vector was needed (undefined behaviour).  [NoFuel]
    does not occur (fuel of the model). *)
Inductive outcome := Done (b : bool) (pos : nat) | Overrun | NoFuel.

(** [lPayloadBegin] to [lPayloadEnd], IPbusInspector.cpp 149-150, 156-157, 392-393, 398-399; a
    payload that does not lie inside the vector cannot be read. *)
Definition payload (buf : list N) (pos : nat) (wc : N) : option (list N) :=
  if Nat.leb (pos + N.to_nat wc) (length buf) then Some (firstn (N.to_nat wc) (skipn pos buf)) else None.

(** IPbusInspector.cpp 130-175: the switch on the type of a request: the
    callback and the number of words it took.  [None]: a word behind the end of
    the vector; [KUnknown]: [unknown_type] (172-174). *)
Definition request_arm (buf : list N) (pos : nat) (t : ttype) (wc : N) : option (handler * nat) :=
  match t with
  | BOT => Some (KBot, 0%nat)
  | NI_READ => match nth_error buf pos with Some a => Some (KNiRead a, 1%nat) | None => None end
  | READ => match nth_error buf pos with Some a => Some (KRead a, 1%nat) | None => None end
  | CONFIG_SPACE_READ => match nth_error buf pos with Some a => Some (KConfig a, 1%nat) | None => None end
  | NI_WRITE =>
      match nth_error buf pos, payload buf (pos + 1) wc with
      | Some a, Some ws => Some (KNiWrite a ws, (1 + N.to_nat wc)%nat)
      | _, _ => None
      end
  | WRITE =>
      match nth_error buf pos, payload buf (pos + 1) wc with
      | Some a, Some ws => Some (KWrite a ws, (1 + N.to_nat wc)%nat)
      | _, _ => None
      end
  | RMW_SUM =>
      match nth_error buf pos, nth_error buf (pos + 1) with
      | Some a, Some x => Some (KSum a x, 2%nat)
      | _, _ => None
      end
  | RMW_BITS =>
      match nth_error buf pos, nth_error buf (pos + 1), nth_error buf (pos + 2) with
      | Some a, Some m, Some o => Some (KBits a m o, 3%nat)
      | _, _, _ => None
      end
  | _ => Some (KUnknown, 0%nat)
  end.

(** IPbusInspector.cpp 386-420: the switch on the type of a reply.  There is no
    case for CONFIG_SPACE_READ: [unknown_type]. *)
Definition reply_arm (buf : list N) (pos : nat) (t : ttype) (wc : N) : option (handler * nat) :=
  match t with
  | BOT => Some (KBot, 0%nat)
  | NI_READ => match payload buf pos wc with Some ws => Some (KData false ws, N.to_nat wc) | None => None end
  | READ => match payload buf pos wc with Some ws => Some (KData true ws, N.to_nat wc) | None => None end
  | NI_WRITE => Some (KWritten false, 0%nat)
  | WRITE => Some (KWritten true, 0%nat)
  | RMW_SUM => match nth_error buf pos with Some x => Some (KValue false x, 1%nat) | None => None end
  | RMW_BITS => match nth_error buf pos with Some x => Some (KValue true x, 1%nat) | None => None end
  | _ => Some (KUnknown, 0%nat)
  end.

(** The two classes. *)
Inductive direction := Requests | Replies.

(** IPbusInspector.cpp 75-77 and 337-339: the fields of a packet header. *)
Definition packet_counter (p : N) : N := N.land (shr32 p 8) 0xFFFF.
Definition packet_type (p : N) : N := N.land p 0x0F.

(** The functions.  [fresh] true: the beginning of [analyze], lines 64-91
    and 180-190 (requests), 335-352 and 425-431 (replies); false: the do loop,
    lines 92-177 and 354-422, at the position of a transaction header.  The recursive call in
    lines 116 and 378 has [aContinueOnError] = true (default argument).  The
    first loop of the requests' function (lines 64-67) reads every word from
    [aIt] up to [aEnd], so runs off the vector if [aIt] is behind [aEnd].
    IPbus 1.3 has no packet header: [mPacketType] is 0 for ever (lines 53 and
    321). *)
Fixpoint analyze_at (d : direction) (v : version) (stop : nat) (buf : list N)
    (fuel : nat) (fresh : bool) (go_on : bool) (pos : nat) {struct fuel} : list call * outcome :=
  match fuel with
  | O => ([], NoFuel)
  | S fuel =>
      if fresh then
        if (match d with Requests => Nat.ltb stop pos | Replies => false end) then ([], Overrun) else
        match v with
        | V1 => analyze_at d v stop buf fuel false go_on pos
        | V2 =>
            match nth_error buf pos with
            | None => ([], Overrun)
            | Some p =>
                if packet_type p =? 0 then
                  let (cs, o) := analyze_at d v stop buf fuel false go_on (pos + 1) in
                  (KPacket PControl p (packet_counter p) :: cs, o)
                else if packet_type p =? 1 then ([KPacket PStatus p (packet_counter p)], Done true stop)
                else if (packet_type p =? 2) && (match d with Requests => true | Replies => false end) then
                  ([KPacket PResend p (packet_counter p)], Done true stop)
                else ([KPacket PUnknown p (packet_counter p)], Done false (pos + 1))
            end
        end
      else
        match nth_error buf pos with
        | None => ([], Overrun)
        | Some w =>
            match extract_header v w with
            | None =>
                match v with
                | V1 => ([], Done false (pos + 1))
                | V2 => if go_on then analyze_at d v stop buf fuel true true pos else ([], Done true pos)
                end
            | Some x =>
                if (match d with Requests => negb (h_info x =? req_info v) | Replies => false end) then
                  ([], Done false (pos + 1))
                else
                  match (match d with
                         | Requests => request_arm buf (pos + 1) (h_type x) (h_wc x)
                         | Replies => reply_arm buf (pos + 1) (h_type x) (h_wc x)
                         end) with
                  | None => ([], Overrun)
                  | Some (KUnknown, _) => ([KTx w x KUnknown], Done false (pos + 1))
                  | Some (f, n) =>
                      if Nat.eqb (pos + 1 + n) stop then ([KTx w x f], Done true stop)
                      else let (cs, o) := analyze_at d v stop buf fuel false go_on (pos + 1 + n) in
                           (KTx w x f :: cs, o)
                  end
            end
        end
  end.

(** [analyze(aIt, aEnd, aContinueOnError)]: IPbusInspector.cpp 61-194 and 329-435. *)
Definition analyze (d : direction) (v : version) (buf : list N) (start stop : nat) (go_on : bool)
  : list call * outcome :=
  analyze_at d v stop buf (2 * length buf + 3) true go_on start.
