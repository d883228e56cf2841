(** Everything at once: clients of the library ([Client.v], [Validate.v]), their TCP
    connections to the ControlHub, the ControlHub and its network ([CHub.v]), and an
    IPbus 2.0 target ([Target.v]), with the bytes that pass between them.

    Sources: those of the files named;
    /repo/uhal/uhal/src/common/ProtocolTCP.cpp lines 205-243 and 437-509 (a chunk of
    packets is sent and a chunk of replies received).

    Simplifications:
    - the threads of a TCP client are not modelled here ([Tcp.v] has them): packets
      are sent in chunks of any number, in order; a chunk of replies is taken in one
      step; the four bytes of length in front of a chunk are taken off and put on
      by the sockets;
    - a client that meets an error is marked bad and does nothing any more: the
      exception handler is not modelled ([Net.v] has it);
    - the connections stay open. *)
From Coq Require Import NArith List Bool PeanoNat.
From Verif Require Import Word Bits Header ValMem Client Validate Target System.
From Verif Require Tcp.
From Verif Require Import Hub Manager ManSpec CHub.
Import ListNotations.
Open Scope N_scope.

(** 32-bit words in the memory of a little-endian host, and back; bytes left over at
    the end are dropped.  ProtocolTCP.cpp 219, 447. *)
Definition bytes_of (ws : list N) : bytes := flat_map Tcp.mem4 ws.
Fixpoint words_of (bs : bytes) : list N :=
  match bs with
  | a :: b :: c :: d :: t => a + 256 * b + 65536 * c + 16777216 * d :: words_of t
  | _ => []
  end.

(** The replies of a chunk: the words go into the reply buffers of the packets, in
    order, and each packet is checked.  True: no exception.  ProtocolTCP.cpp 441-509.
    Simplified: after a failed check the buffers of the packets after it are not
    written. *)
Fixpoint take_replies (g : cfg) (h : list cell) (c : list buf) (ws : list N) : list cell * bool :=
  match c with
  | [] => (h, true)
  | b :: c' =>
      let n := N.to_nat (dests_words (b_reply b)) in
      match receive_packet g h b (firstn n ws) with
      | (h', VOk) => take_replies g h' c' (skipn n ws)
      | (h', _) => (h', false)
      end
  end.
(** Bytes that fit into the reply buffers of a chunk.  ProtocolTCP.cpp 441-455. *)
Definition room_of (c : list buf) : N := fold_right (fun b n => reply_counter b + n) 0 c.

Section Full.
Variable D : Type.
Variable rd : D -> N -> D * N.
Variable wr : D -> N -> N -> D.
Variable cf : D -> N -> D * N.
Variable depth absmax : nat.
Variable t : target.
Variable allow : target -> bool.
(** The clients.  ProtocolControlHub.cpp 144-153. *)
Variable g : nat -> cfg.

(** The target's part of [Hub.v]: the body of a control packet as words.
    DummyHardware.cpp 80-166 (packets are in the byte order of the host), 377-404. *)
Definition dev_exec (d : D) (b : bytes) : D * bytes :=
  let ws := words_of b in
  let '(d', r, _) := target_loop D rd wr cf (length ws) V2 d ws in (d', bytes_of r).

(** A client: its state ([s_out]: packets not sent yet), whether dispatch() is
    waiting, whether there was an error, the chunks without reply, the chunks of
    replies on their way.  ProtocolTCP.hpp 209-260. *)
Record fclient := mkFc { fc_st : st; fc_wait : bool; fc_bad : bool; fc_fly : list (list buf); fc_in : list bytes }.
Record full := mkFull { f_c : nat -> fclient; f_w : whole D }.

(** What happens: a call of the user of client [p], the beginning of dispatch(), its
    end; client [p] sends its next [k] packets as a chunk; a chunk of replies is
    received; a step of [CHub.v].  ClientInterface.cpp 143-180 and 408-490,
    ProtocolTCP.cpp 205-243 and 437-509. *)
Inductive flabel := FOp (p : nat) (o : op) | FDispatch (p : nat) | FReturn (p : nat) | FChunk (p k : nat) | FBack (p : nat) | FHub (l : wlabel).

(** A client changes.  Not in the code. *)
Definition with_client (F : full) (p : nat) (c : fclient) : full := mkFull (put (f_c F) p c) (f_w F).

(** A chunk arrives at the manager of [p], as in [CHub.v], but with any bytes.
    ch_transaction_manager.erl 173-192. *)
Definition arrive (W : whole D) (p : pid) (bs : bytes) : whole D * list (list response) :=
  let '(m, cs, out) := man_step allow (c_man D W p) (MChunk bs) in
  (mkWh D (c_hub D W) (put (c_man D W) p m)
        (put (c_out D W) p (c_out D W p ++ map snd (filter (fun x => same_target (fst x) t) cs))) (c_in D W), out).

(** The bytes of a chunk of replies.  ch_transaction_manager.erl 200-211. *)
Definition chunk_bytes (rs : list response) : bytes := flat_map reply_bytes rs.

(** The chunks sent by the managers in a step go to their clients.
    ch_transaction_manager.erl 200-211. *)
Definition give (cs : nat -> fclient) (e : list wev) : nat -> fclient :=
  fun p => let c := cs p in
    mkFc (fc_st c) (fc_wait c) (fc_bad c) (fc_fly c)
         (fc_in c ++ flat_map (fun v => match v with XMan q _ out => if Nat.eqb q p then map chunk_bytes out else [] | XHub _ _ => [] end) e).

(** One step, and what is seen of the ControlHub.  ClientInterface.cpp 143-180 and
    408-490, ProtocolTCP.cpp 205-243 and 437-509. *)
Definition fstep (F : full) (l : flabel) : option (full * list wev) :=
  match l with
  | FOp p o =>
      let c := f_c F p in
      if fc_wait c || fc_bad c then None else
      match run_op (g p) (fc_st c) o with
      | Ok s _ | Exc s _ => Some (with_client F p (mkFc s false (fc_bad c) (fc_fly c) (fc_in c)), [])
      | Bad => Some (with_client F p (mkFc (fc_st c) false true (fc_fly c) (fc_in c)), [])
      end
  | FDispatch p =>
      let c := f_c F p in
      if fc_wait c || fc_bad c then None else
      match s_cur (fc_st c) with
      | None => Some (F, [])
      | Some _ =>
          match dispatch_send (g p) (fc_st c) with
          | Ok s _ => Some (with_client F p (mkFc s true (fc_bad c) (fc_fly c) (fc_in c)), [])
          | Exc s _ => Some (with_client F p (mkFc s false (fc_bad c) (fc_fly c) (fc_in c)), [])
          | Bad => Some (with_client F p (mkFc (fc_st c) false true (fc_fly c) (fc_in c)), [])
          end
      end
  | FReturn p =>
      let c := f_c F p in
      if fc_wait c && negb (fc_bad c) then
        match s_out (fc_st c), fc_fly c with
        | [], [] => Some (with_client F p (mkFc (fc_st c) false (fc_bad c) [] (fc_in c)), [])
        | _, _ => None
        end
      else None
  | FChunk p k =>
      let c := f_c F p in
      let bs := firstn k (s_out (fc_st c)) in
      if (negb (fc_bad c) && Nat.ltb 0 k && Nat.leb k (length (s_out (fc_st c))))%bool then
        let (W, out) := arrive (f_w F) p (bytes_of (flat_map b_send bs)) in
        let F1 := mkFull (put (f_c F) p (mkFc (set_out (fc_st c) (skipn k (s_out (fc_st c)))) (fc_wait c) (fc_bad c) (fc_fly c ++ [bs]) (fc_in c))) W in
        let e := [XMan p (TChunk (map (fun b => bytes_of (skipn 2 (b_send b))) bs)) out] in
        Some (mkFull (give (f_c F1) e) W, e)
      else None
  | FBack p =>
      let c := f_c F p in
      match fc_bad c, fc_fly c, fc_in c with
      | false, bs :: q, r :: rest =>
          let (h, ok) := if room_of bs <? N.of_nat (length r) then (s_heap (fc_st c), false)
                         else take_replies (g p) (s_heap (fc_st c)) bs (words_of r) in
          Some (with_client F p (mkFc (set_heap (fc_st c) h) (fc_wait c) (fc_bad c || negb ok) q rest), [])
      | _, _, _ => None
      end
  | FHub (WChunk _ _) => None
  | FHub l =>
      match wstep D dev_exec false depth absmax t allow (f_w F) l with
      | Some (W, e) => Some (mkFull (give (f_c F) e) W, e)
      | None => None
      end
  end.

(** An execution.  Not in the code. *)
Fixpoint frun (F : full) (ls : list flabel) : option (full * list wev) :=
  match ls with
  | [] => Some (F, [])
  | l :: r =>
      match fstep F l with
      | None => None
      | Some (F1, e1) => match frun F1 r with None => None | Some (F2, e2) => Some (F2, e1 ++ e2) end
      end
  end.

(** New clients and a ControlHub.  ClientInterface.cpp 50-60. *)
Definition init_full (W : whole D) : full := mkFull (fun _ => mkFc init_st false false [] []) W.
End Full.
