(** Model of the user side of the client: packing operations into packets.

    Sources:
    /repo/uhal/uhal/src/common/ClientInterface.cpp lines 143-180, 280-404, 408-490
    /repo/uhal/uhal/src/common/ProtocolIPbusCore.cpp lines 127-139, 270-538
    /repo/uhal/uhal/src/common/ProtocolIPbus.cpp lines 68-104, 261-283
    /repo/uhal/uhal/src/common/ProtocolControlHub.cpp lines 162-211
    /repo/uhal/uhal/src/common/Buffers.cpp lines 42-128

    Simplifications (all of the model):
    - buffers are lists of 32-bit words instead of bytes (every field of a
      packet is a whole number of words; the two 16-bit fields of the ControlHub
      preamble are combined into one little-endian word);
    - the pool of recycled Buffers objects is replaced by fresh empty buffers
      (see [Pool.v] for the pool itself);
    - every public function is atomic: the source holds mUserSideMutex from the
      first to the last line of each of them. *)
From Verif Require Import Word Bits Header ValMem.
From Coq Require Import NArith List Bool.
Import ListNotations.
Open Scope N_scope.

(** What distinguishes one client from another for the packing: protocol
    version (ProtocolIPbus.hpp), getMaxSendSize / getMaxReplySize of the
    transport in bytes (ProtocolUDP.cpp, ProtocolTCP.cpp, ProtocolPCIe.cpp
    425-440, ProtocolMmap.cpp 370-385), and the target address when the client
    talks through a ControlHub (ProtocolControlHub.cpp 144-153, values as stored,
    i.e. in network byte order). *)
Record cfg := mkCfg {
  g_ver : version;
  g_maxsend : N;
  g_maxreply : N;
  g_hub : option (N * N)
}.

(** ProtocolIPbus.hpp 150-153 (V1) and 279-282 (V2): requestTransactionInfoCode. *)
Definition req_info (v : version) : N := match v with V1 => 0 | V2 => 0xF end.

(** ProtocolIPbus.hpp 156-159 (V1) and 285-288 (V2):
    getMaxTransactionWordCount. *)
Definition max_wc (v : version) : N := match v with V1 => 0x1ff | V2 => 0xff end.

(** One entry of the reply list (Buffers::receive, Buffers.cpp 75-79 and
    Buffers.hxx 63-77): where the next words of the reply are copied to.
    [DHdr]: a transaction header slot of some handle; [DPkt]: the slot in
    mReceivePacketHeader; [DWord]: the value of a word handle; [DVec c off len]:
    [len] words of a vector handle from [off]; [DHub]: one of the three words of
    the ControlHub reply preamble. *)
Inductive dest :=
| DHub | DPkt | DHdr
| DWord (c : nat)
| DVec (c : nat) (off len : N).

(** Size of an entry in words (Buffers.cpp 78 counts bytes). *)
Definition dest_words (d : dest) : N :=
  match d with DVec _ _ len => len | _ => 1 end.

(** Buffers (Buffers.hpp): words to send, reply list, handles to mark valid.
    Buffers.hpp 164-178. *)
Record buf := mkBuf {
  b_send : list N;
  b_reply : list dest;
  b_vals : list nat
}.

(** Buffers::sendCounter (Buffers.cpp 55-58), in bytes. *)
Definition send_counter (b : buf) : N := 4 * N.of_nat (length (b_send b)).

(** Sum of the sizes of a reply list, in words.  Buffers.cpp 75-79. *)
Fixpoint dests_words (l : list dest) : N :=
  match l with [] => 0 | d :: t => dest_words d + dests_words t end.

(** Buffers::replyCounter (Buffers.cpp 60-63), in bytes. *)
Definition reply_counter (b : buf) : N := 4 * dests_words (b_reply b).

(** Exceptions the user side can raise.  ClientInterface.hpp 80-94. *)
Inductive exc :=
| EBitMask          (* BitsSetWhichAreForbiddenByBitMask *)
| EValidation       (* ValidationError: type not in this protocol version *)
| ETransport.       (* anything thrown by implementDispatch / Flush *)

(** State of the client object: mTransactionCounter, mCurrentBuffers, the heap
    of handles, the packets passed to implementDispatch (oldest first), and the
    number of further packets the transport accepts before it throws ([None]:
    it never throws).  ProtocolIPbusCore.hpp 257, ClientInterface.hpp 400-408. *)
Record st := mkSt {
  s_ctr : N;
  s_cur : option buf;
  s_heap : list cell;
  s_out : list buf;
  s_budget : option nat
}.

(** Result of a C++ call: normal return, exception, or undefined behaviour /
    non-termination ([Bad]).  Not in the code: the three ways a C++ call can end. *)
Inductive res (A : Type) :=
| Ok (s : st) (a : A)
| Exc (s : st) (e : exc)
| Bad.
Arguments Ok {A}. Arguments Exc {A}. Arguments Bad {A}.

(** Sequencing of C++ statements.  Not in the code. *)
Definition bind {A B} (r : res A) (f : st -> A -> res B) : res B :=
  match r with
  | Ok s a => f s a
  | Exc s e => Exc s e
  | Bad => Bad
  end.

(** Assignment to mCurrentBuffers.  ClientInterface.hpp 408. *)
Definition set_cur (s : st) (b : option buf) : st :=
  mkSt (s_ctr s) b (s_heap s) (s_out s) (s_budget s).

(** mTransactionCounter++ (uint32_t, ProtocolIPbusCore.hpp 257). *)
Definition inc_ctr (s : st) : st :=
  mkSt (add32 (s_ctr s) 1) (s_cur s) (s_heap s) (s_out s) (s_budget s).

(** ClientInterface.cpp 386-404, CreateValHeader / CreateValWord /
    CreateValVector: a new cell; the handle is its index. *)
Definition alloc (s : st) (c : cell) : st * nat :=
  (mkSt (s_ctr s) (s_cur s) (s_heap s ++ [c]) (s_out s) (s_budget s),
   length (s_heap s)).

(** Swap of the two bytes of a uint16_t (htons on a little-endian host). *)
Definition swap16 (x : N) : N := (x mod 256) * 256 + (x / 256) mod 256.

(** ProtocolIPbusCore.cpp 534-538 and ClientInterface.cpp 363-383
    (dispatchExceptionHandler): transaction counter reset, buffers dropped.
    Also ProtocolIPbus.cpp 426-431 and ProtocolControlHub.cpp 286-294, which
    clear the queues modelled by the [DPkt]/[DHub] entries. *)
Definition exception_handler (s : st) : st :=
  mkSt 0 None (s_heap s) (s_out s) (s_budget s).

(** Words put at the front of a new packet: ControlHub preamble
    (ProtocolControlHub.cpp 178-190; the word count is 0 until predispatch), then
    the IPbus 2.0 packet header (ProtocolIPbus.cpp 262-270, mPacketCounter is
    always 0) or the IPbus 1.3 byte-order transaction (ProtocolIPbus.cpp 69-72,
    ProtocolIPbusCore.cpp 270-288).
    Simplified: implementBOT re-enters checkBufferSpace, which cannot trigger a
    dispatch when the limits hold at least the preamble; limits below that are
    [Bad]. *)
Definition preamble (g : cfg) (s : st) : res buf :=
  let h := match g_hub g with
           | Some (ip, port) => mkBuf [ip; port] [DHub; DHub; DHub] []
           | None => mkBuf [] [] []
           end in
  match g_ver g with
  | V2 => Ok s (mkBuf (b_send h ++ [0x200000F0]) (b_reply h ++ [DPkt]) [])
  | V1 => match calc_header V1 BOT 0 (s_ctr s) (req_info V1) with
          | Some w => Ok (inc_ctr s) (mkBuf (b_send h ++ [w]) (b_reply h ++ [DHdr]) [])
          | None => Bad
          end
  end.

(** ProtocolIPbus.cpp 76-79, 274-277; ProtocolControlHub.cpp 197-200. *)
Definition preamble_size (g : cfg) : N :=
  1 + match g_hub g with Some _ => 2 | None => 0 end.

(** ClientInterface.cpp 339-360, updateCurrentBuffers; [Bad] when the preamble
    does not fit the buffer of getMaxSendSize() bytes or the reply limit. *)
Definition update_current (g : cfg) (s : st) : res buf :=
  match s_cur s with
  | Some b => Ok s b
  | None =>
      bind (preamble g s) (fun s b =>
        if (send_counter b <=? g_maxsend g) && (reply_counter b <=? g_maxreply g)
        then Ok (set_cur s (Some b)) b
        else Bad)
  end.

(** ProtocolIPbus.cpp 82-104: IPbus 1.3 padding to 8 words of payload; the
    handles created for the padding are never given to the user and are not
    modelled.  ProtocolControlHub.cpp 203-211: patch the word count.
    [Bad] when the padding overruns the send buffer. *)
Definition predispatch (g : cfg) (b : buf) : option buf :=
  let b1 := match g_ver g with
            | V2 => b
            | V1 =>
                let words := N.of_nat (length (b_send b)) in
                let pad := N.to_nat (7 + preamble_size g - words) in
                match calc_header V1 BOT 0 0 0 with
                | Some w => mkBuf (b_send b ++ repeat w pad)
                                  (b_reply b ++ repeat DHdr pad) (b_vals b)
                | None => b
                end
            end in
  if g_maxsend g <? send_counter b1 then None else
  match g_hub g, b_send b1 with
  | Some _, ip :: port :: rest =>
      Some (mkBuf (ip :: port mod 65536
                      + 65536 * swap16 (((send_counter b1 - 8) / 4) mod 65536)
                      :: rest)
                  (b_reply b1) (b_vals b1))
  | Some _, _ => None
  | None, _ => Some b1
  end.

(** predispatch + implementDispatch + mCurrentBuffers.reset() + catch block:
    ClientInterface.cpp 308-318 (and 167-179 without the Flush). *)
Definition send_current (g : cfg) (s : st) (b : buf) : res unit :=
  match predispatch g b with
  | None => Bad
  | Some b' =>
      match s_budget s with
      | Some O => Exc (exception_handler s) ETransport
      | Some (S k) => Ok (mkSt (s_ctr s) None (s_heap s) (s_out s ++ [b']) (Some k)) tt
      | None => Ok (mkSt (s_ctr s) None (s_heap s) (s_out s ++ [b']) None) tt
      end
  end.

(** ClientInterface.cpp 280-335, checkBufferSpace: returns the sizes available
    for the caller (aAvailableSendSize, aAvailableReplySize); the buffer to use
    is mCurrentBuffers of the resulting state. *)
Definition check_space (g : cfg) (s : st) (req_send req_reply : N)
  : res (N * N) :=
  bind (update_current g s) (fun s b =>
    let sf := sub32 (g_maxsend g) (send_counter b) in
    let rf := sub32 (g_maxreply g) (reply_counter b) in
    if (req_send <=? sf) && (req_reply <=? rf) then Ok s (req_send, req_reply)
    else if (16 <? sf) && (16 <? rf) then Ok s (sf, rf)
    else
      bind (send_current g s b) (fun s _ =>
      bind (update_current g s) (fun s b =>
        let sf := sub32 (g_maxsend g) (send_counter b) in
        let rf := sub32 (g_maxreply g) (reply_counter b) in
        if (req_send <=? sf) && (req_reply <=? rf) then Ok s (req_send, req_reply)
        else Ok s (sf, rf)))).

(** One transaction appended to mCurrentBuffers: header
    (implementCalculateHeader with mTransactionCounter++), body words
    (Buffers::send) and reply entries (Buffers::receive), as in every
    implementXxx of ProtocolIPbusCore.cpp 270-530.  [Bad] when the words do not
    fit the send buffer (memcpy past the end of mSendBuffer, Buffers.cpp 66-72). *)
Definition push_tx (g : cfg) (s : st) (t : ttype) (wc : N)
           (body : list N) (rep : list dest) : res unit :=
  match s_cur s with
  | None => Bad
  | Some b =>
      match calc_header (g_ver g) t wc (s_ctr s) (req_info (g_ver g)) with
      | None => Exc (inc_ctr s) EValidation
      | Some h =>
          let b' := mkBuf (b_send b ++ h :: body) (b_reply b ++ rep) (b_vals b) in
          if g_maxsend g <? send_counter b' then Bad
          else Ok (set_cur (inc_ctr s) (Some b')) tt
      end
  end.

(** Buffers::add (Buffers.cpp 81-94) on mCurrentBuffers. *)
Definition add_val (s : st) (c : nat) : st :=
  match s_cur s with
  | None => s
  | Some b => set_cur s (Some (mkBuf (b_send b) (b_reply b) (b_vals b ++ [c])))
  end.

(** ProtocolIPbusCore.cpp 293-316, implementWrite. *)
Definition implement_write (g : cfg) (s : st) (a x : N) : res nat :=
  bind (check_space g s 12 4) (fun s _ =>
  bind (push_tx g s WRITE 1 [a; x] [DHdr]) (fun s _ =>
  let (s, c) := alloc s (CHdr false) in
  Ok (add_val s c) c)).

(** ProtocolIPbusCore.cpp 372-395 and 446-469 (implementRead,
    implementReadConfigurationSpace), 474-501 (implementRMWbits), 506-530
    (implementRMWsum): one word back. *)
Definition implement_word (g : cfg) (s : st) (t : ttype) (a : N)
           (extra : list N) (mask : N) : res nat :=
  bind (check_space g s (8 + 4 * N.of_nat (length extra)) 8) (fun s _ =>
  bind (push_tx g s t 1 (a :: extra) [DHdr; DWord (length (s_heap s))])
       (fun s _ =>
  let (s, c) := alloc s (CWord false 0 mask) in
  Ok (add_val s c) c)).

(** Signed test [x > 0] of an int32_t held as a uint32_t. *)
Definition pos_i32 (x : N) : bool := (0 <? x) && (x <? 2147483648).

(** Chunk size in bytes: ProtocolIPbusCore.cpp 344 and 423. *)
Definition chunk_bytes (v : version) (avail hdr : N) : N :=
  N.land (N.min (4 * max_wc v) (sub32 avail hdr)) 0xFFFFFFFC.

(** ProtocolIPbusCore.cpp 341-363, the do-while loop of implementWriteBlock.
    [payload] is lPayloadByteCount, [rest] the words from lSourcePtr on,
    [nonempty] is [aSource.size() > 0].  [Bad] when more words are taken than
    the source has, or when the loop does not end within [fuel] rounds. *)
Fixpoint write_loop (fuel : nat) (g : cfg) (s : st) (t : ttype) (inc : bool)
         (nonempty : bool) (a : N) (rest : list N) (payload : N) : res unit :=
  match fuel with
  | O => Bad
  | S fuel =>
      bind (check_space g s (add32 8 payload) 4) (fun s av =>
      let n := chunk_bytes (g_ver g) (fst av) 8 in
      let w := N.to_nat (n / 4) in
      if nonempty && Nat.ltb (length rest) w then Bad else
      let body := if nonempty then firstn w rest else [] in
      let rest' := if nonempty then skipn w rest else rest in
      let payload' := if nonempty then sub32 payload n else payload in
      bind (push_tx g s t (n / 4) (a :: body) [DHdr]) (fun s _ =>
      let a' := if inc then add32 a (n / 4) else a in
      if pos_i32 payload'
      then write_loop fuel g s t inc nonempty a' rest' payload'
      else Ok s tt))
  end.

(** ProtocolIPbusCore.cpp 319-367, implementWriteBlock. *)
Definition implement_write_block (g : cfg) (s : st) (a : N) (src : list N)
           (inc : bool) : res nat :=
  let (s, c) := alloc s (CHdr false) in
  bind (write_loop (S (length src)) g s (if inc then WRITE else NI_WRITE) inc
          (match src with [] => false | _ => true end) a src
          (wrap32 (4 * N.of_nat (length src)))) (fun s _ =>
  Ok (add_val s c) c).

(** ProtocolIPbusCore.cpp 420-438, the do-while loop of implementReadBlock.
    [off] is the position of lReplyPtr in the vector of [size] words. *)
Fixpoint read_loop (fuel : nat) (g : cfg) (s : st) (t : ttype) (inc : bool)
         (c : nat) (size : N) (a off payload : N) : res unit :=
  match fuel with
  | O => Bad
  | S fuel =>
      bind (check_space g s 8 (add32 4 payload)) (fun s av =>
      let n := chunk_bytes (g_ver g) (snd av) 4 in
      if size <? off + n / 4 then Bad else
      bind (push_tx g s t (n / 4) [a] [DHdr; DVec c off (n / 4)]) (fun s _ =>
      let payload' := sub32 payload n in
      let a' := if inc then add32 a (n / 4) else a in
      if pos_i32 payload'
      then read_loop fuel g s t inc c size a' (off + n / 4) payload'
      else Ok s tt))
  end.

(** ProtocolIPbusCore.cpp 398-442, implementReadBlock. *)
Definition implement_read_block (g : cfg) (s : st) (a size : N) (inc : bool)
  : res nat :=
  let (s, c) := alloc s (CVec false (repeat 0 (N.to_nat size))) in
  bind (read_loop (S (N.to_nat size)) g s (if inc then READ else NI_READ) inc
          c size a 0 (wrap32 (4 * size))) (fun s _ =>
  Ok (add_val s c) c).

(** ClientInterface.cpp 415-442: write(addr, source, mask). *)
Definition masked_write (g : cfg) (s : st) (a x mask : N) : res nat :=
  match masked_write_check x mask with
  | MwRefused => Exc s EBitMask
  | MwRmw and_term or_term =>
      implement_word g s RMW_BITS a [and_term; or_term] 0xFFFFFFFF
  end.

(** ClientInterface.cpp 143-180: dispatch, up to and including the
    implementDispatch call; waiting for the replies (Flush) is in [System.v]. *)
Definition dispatch_send (g : cfg) (s : st) : res unit :=
  match s_cur s with
  | None => Ok s tt
  | Some b => send_current g s b
  end.

(** The public operations that queue work: ClientInterface.cpp 408-490 and
    ProtocolIPbusCore.cpp 129-139.  [inc] is [aMode == defs::INCREMENTAL]. *)
Inductive op :=
| OWrite (a x : N)
| OWriteMask (a x mask : N)
| OWriteBlock (a : N) (src : list N) (inc : bool)
| ORead (a mask : N)
| OReadBlock (a size : N) (inc : bool)
| ORmwBits (a and_term or_term : N)
| ORmwSum (a addend : N)
| OReadCfg (a mask : N).

(** Dispatch table of the public operations.  ClientInterface.cpp 408-490. *)
Definition run_op (g : cfg) (s : st) (o : op) : res nat :=
  match o with
  | OWrite a x => implement_write g s a x
  | OWriteMask a x m => masked_write g s a x m
  | OWriteBlock a l inc => implement_write_block g s a l inc
  | ORead a m => implement_word g s READ a [] m
  | OReadBlock a n inc => implement_read_block g s a n inc
  | ORmwBits a x y => implement_word g s RMW_BITS a [x; y] 0xFFFFFFFF
  | ORmwSum a x => implement_word g s RMW_SUM a [x] 0xFFFFFFFF
  | OReadCfg a m => implement_word g s CONFIG_SPACE_READ a [] m
  end.

(** A freshly constructed client (ClientInterface / IPbusCore constructors).
    ClientInterface.cpp 50-60, ProtocolIPbusCore.cpp 118-121. *)
Definition init_st : st := mkSt 0 None [] [] None.
