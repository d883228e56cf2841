(** Model of the reply side of the client: copying a reply into the handles and
    checking it.

    Sources: /repo/uhal/uhal/src/common/ProtocolIPbusCore.cpp lines 142-265,
    /repo/uhal/uhal/src/common/ProtocolIPbus.cpp lines 287-307,
    /repo/uhal/uhal/src/common/ProtocolControlHub.cpp lines 214-276,
    /repo/uhal/uhal/src/common/ClientInterface.cpp lines 187-202,
    /repo/uhal/uhal/src/common/Buffers.cpp lines 107-117. *)
From Verif Require Import Word Bits Header ValMem Client.
From Coq Require Import NArith List Bool.
Import ListNotations.
Open Scope N_scope.

(** The copying of a reply into the memory listed in the reply list (e.g.
    ProtocolUDP.cpp read_callback, ProtocolPCIe.cpp read, ProtocolMmap.cpp read):
    entry by entry, as many words as were received; entries not reached keep
    their initial content, words beyond the list are dropped.
    ProtocolUDP.cpp 344-356, ProtocolPCIe.cpp 630-640, ProtocolMmap.cpp 531-541. *)
Fixpoint scatter (ds : list dest) (ws : list N) : list (dest * list N) :=
  match ds with
  | [] => []
  | d :: t =>
      let n := N.to_nat (dest_words d) in
      (d, firstn n ws) :: scatter t (skipn n ws)
  end.

(** Overwriting part of a vector with received words.  The memcpy of ProtocolUDP.cpp 354. *)
Definition overwrite (l : list N) (off : nat) (ws : list N) : list N :=
  firstn off l ++ ws ++ skipn (off + length ws) l.

(** Effect of one entry on the handles.  ProtocolUDP.cpp 344-356. *)
Definition fill_cell (heap : list cell) (e : dest * list N) : list cell :=
  match e with
  | (DWord c, w :: _) =>
      upd heap c (fun k => match k with CWord v _ m => CWord v w m | _ => k end)
  | (DVec c off _, ws) =>
      upd heap c (fun k => match k with
                           | CVec v l => CVec v (overwrite l (N.to_nat off) ws)
                           | _ => k end)
  | _ => heap
  end.

(** All entries of a reply.  ProtocolUDP.cpp 344-356. *)
Definition fill (heap : list cell) (slots : list (dest * list N)) : list cell :=
  fold_left fill_cell slots heap.

(** [* (uint32_t* ) it->first]: the word in a one-word slot; 0 is the initial
    content (push_back(0) in the sources) when nothing was received. *)
Definition slot_word (e : dest * list N) : N := hd 0 (snd e).

(** Result of validation: NULL, an exception object, or undefined behaviour.
    ProtocolIPbusCore.cpp 142-265, ProtocolIPbus.cpp 288-307, ProtocolControlHub.cpp 215-276. *)
Inductive verr :=
| VHubAddress | VHubTimeout | VHubError
| VPacketHeader | VUnparsable | VFields | VInfoCode.
(** ClientInterface.hpp 342 and 354-357. *)
Inductive vres := VOk | VErr (e : verr) | VBad.

(** Words of a request transaction: ProtocolIPbusCore.cpp 217-238. *)
Definition send_advance (t : ttype) (wc : N) : N :=
  match t with
  | BOT | RAI => 1
  | NI_READ | READ | CONFIG_SPACE_READ => 2
  | NI_WRITE | WRITE => 2 + wc
  | RMW_SUM => 3
  | RMW_BITS => 4
  end.

(** Entries of the reply list a reply transaction occupies:
    ProtocolIPbusCore.cpp 242-259. *)
Definition reply_advance (t : ttype) : nat :=
  match t with
  | BOT | NI_WRITE | WRITE => 1
  | RAI | NI_READ | READ | CONFIG_SPACE_READ | RMW_SUM | RMW_BITS => 2
  end%nat.

(** ProtocolIPbusCore.cpp 155-261, the do-while loop.  [VBad] when it would read
    before it can know it is inside the buffers. *)
Fixpoint validate_core (fuel : nat) (v : version) (send : list N)
         (slots : list (dest * list N)) : vres :=
  match fuel with
  | O => VBad
  | S fuel =>
      match send, slots with
      | sh :: _, rslot :: _ =>
          match extract_header v sh with
          | None => VErr VUnparsable
          | Some hs =>
              match extract_header v (slot_word rslot) with
              | None => VErr VUnparsable
              | Some hr =>
                  if negb (h_id hs =? h_id hr)
                     || negb (ttype_eqb (h_type hs) (h_type hr))
                  then VErr VFields
                  else if negb (h_info hr =? 0) then VErr VInfoCode
                  else
                    let ns := N.to_nat (send_advance (h_type hs) (h_wc hs)) in
                    let nr := reply_advance (h_type hr) in
                    if Nat.ltb (length send) ns || Nat.ltb (length slots) nr
                    then VBad
                    else
                      let send' := skipn ns send in
                      let slots' := skipn nr slots in
                      match send', slots' with
                      | _ :: _, _ :: _ => validate_core fuel v send' slots'
                      | _, _ => VOk
                      end
              end
          end
      | _, _ => VBad
      end
  end.

(** ProtocolIPbus.cpp 287-307 (V2: packet header must be echoed) and the V1
    case, which uses the core directly. *)
Definition validate_ipbus (v : version) (send : list N)
           (slots : list (dest * list N)) : vres :=
  match v with
  | V1 => validate_core (length send) V1 send slots
  | V2 => match send, slots with
          | p :: send', r :: slots' =>
              if negb (p =? slot_word r) then VErr VPacketHeader
              else validate_core (length send') V2 send' slots'
          | _, _ => VBad
          end
  end.

(** ProtocolControlHub.cpp 214-276: check address, port and error code of the
    ControlHub reply preamble; the third word holds the port (low half) and the
    error code (high half, network byte order).  The first word is not checked. *)
Definition validate_packet (g : cfg) (b : buf) (slots : list (dest * list N)) : vres :=
  match g_hub g with
  | None => validate_ipbus (g_ver g) (b_send b) slots
  | Some (ip, port) =>
      match b_send b, slots with
      | _ :: _ :: send', _ :: r1 :: r2 :: slots' =>
          if negb (slot_word r1 =? ip) then VErr VHubAddress
          else if negb (slot_word r2 mod 65536 =? port) then VErr VHubAddress
          else
            let code := swap16 (slot_word r2 / 65536) in
            if negb (code =? 0) then
              if (code =? 1) || (code =? 3) || (code =? 4)
              then VErr VHubTimeout else VErr VHubError
            else validate_ipbus (g_ver g) send' slots'
      | _, _ => VBad
      end
  end.

(** Buffers.cpp 107-117: mark the handles stored with the packet valid. *)
Definition mark_valid (heap : list cell) (cs : list nat) : list cell :=
  fold_left (fun h c => upd h c cell_validate) cs heap.

(** ClientInterface.cpp 187-202: the reply words [ws] of packet [b] arrive. *)
Definition receive_packet (g : cfg) (heap : list cell) (b : buf) (ws : list N)
  : list cell * vres :=
  let slots := scatter (b_reply b) ws in
  let heap := fill heap slots in
  match validate_packet g b slots with
  | VOk => (mark_valid heap (b_vals b), VOk)
  | r => (heap, r)
  end.
