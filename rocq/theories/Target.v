(** Model of the target: the request interpreter and the dummy hardware.

    Sources: /repo/uhal/uhal/src/common/IPbusInspector.cpp lines 61-194,
    /repo/uhal/tests/src/common/DummyHardware.cpp lines 80-404.
    The register file is abstracted to any type of device state with a read, a
    write and a configuration-space read function, each of which may change the
    state (so FIFOs, self-clearing and read-sensitive registers are included). *)
From Verif Require Import Word Bits Header ValMem Client.
From Coq Require Import NArith List Bool.
Import ListNotations.
Open Scope N_scope.

Section Target.
Variable D : Type.
Variable rd : D -> N -> D * N.
Variable wr : D -> N -> N -> D.
Variable cf : D -> N -> D * N.

(** DummyHardware.cpp 201-204 and 219-222: [n] reads, address post-incremented
    when [inc]. *)
Fixpoint dev_read (d : D) (a : N) (n : nat) (inc : bool) : D * list N :=
  match n with
  | O => (d, [])
  | S n =>
      let (d1, x) := rd d a in
      let (d2, l) := dev_read d1 (if inc then add32 a 1 else a) n inc in
      (d2, x :: l)
  end.

(** DummyHardware.cpp 237-240: configuration space reads. *)
Fixpoint dev_cfg_read (d : D) (a : N) (n : nat) : D * list N :=
  match n with
  | O => (d, [])
  | S n =>
      let (d1, x) := cf d a in
      let (d2, l) := dev_cfg_read d1 (add32 a 1) n in
      (d2, x :: l)
  end.

(** DummyHardware.cpp 251-254 and 280-283: writes of the payload. *)
Fixpoint dev_write (d : D) (a : N) (ws : list N) (inc : bool) : D :=
  match ws with
  | [] => d
  | x :: t => dev_write (wr d a x) (if inc then add32 a 1 else a) t inc
  end.

(** DummyHardware.cpp 302-361: read-modify-write; V1 returns the new value, V2
    the old one. *)
Definition dev_rmw (v : version) (d : D) (a : N) (f : N -> N) : D * N :=
  let (d1, x) := rd d a in
  let y := f x in
  (wr d1 a y, match v with V1 => y | V2 => x end).

(** ExpectedHeader as used for replies (DummyHardware.cpp 183, 196, ...); the
    type comes from a decoded header, so the [None] case cannot occur. *)
Definition reply_header (v : version) (t : ttype) (wc id : N) : list N :=
  match expected_header v t wc id 0 with Some h => [h] | None => [] end.

(** IPbusInspector.cpp 92-177 with the handlers of DummyHardware.cpp 178-361.
    Result: device state, reply words, and whether the whole packet was
    processed.  Simplified: on a header that cannot be parsed or has a wrong
    info code, or on missing words, processing stops with the reply so far (the
    C++ may append one error header, DummyHardware.cpp 115-119). *)
Fixpoint target_loop (fuel : nat) (v : version) (d : D) (ws : list N)
  : D * list N * bool :=
  match fuel, ws with
  | O, _ => (d, [], false)
  | S fuel, [] => (d, [], false)
  | S fuel, h :: rest =>
      match extract_header v h with
      | None => (d, [], false)
      | Some x =>
          if negb (h_info x =? req_info v) then (d, [], false) else
          let id := h_id x in
          let wc := h_wc x in
          let finish (d : D) (reply : list N) (rest : list N) :=
            match rest with
            | [] => (d, reply, true)
            | _ => let '(d', r, ok) := target_loop fuel v d rest in
                   (d', reply ++ r, ok)
            end in
          match h_type x, rest with
          | BOT, rest => finish d (reply_header v BOT 0 id) rest
          | READ, a :: rest =>
              let (d, l) := dev_read d a (N.to_nat wc) true in
              finish d (reply_header v READ wc id ++ l) rest
          | NI_READ, a :: rest =>
              let (d, l) := dev_read d a (N.to_nat wc) false in
              finish d (reply_header v NI_READ wc id ++ l) rest
          | CONFIG_SPACE_READ, a :: rest =>
              let (d, l) := dev_cfg_read d a (N.to_nat wc) in
              finish d (reply_header v CONFIG_SPACE_READ wc id ++ l) rest
          | WRITE, a :: rest =>
              if Nat.ltb (length rest) (N.to_nat wc) then (d, [], false) else
              let d := dev_write d a (firstn (N.to_nat wc) rest) true in
              finish d (reply_header v WRITE (match v with V1 => 0 | V2 => wc end) id)
                     (skipn (N.to_nat wc) rest)
          | NI_WRITE, a :: rest =>
              if Nat.ltb (length rest) (N.to_nat wc) then (d, [], false) else
              let d := dev_write d a (firstn (N.to_nat wc) rest) false in
              finish d (reply_header v NI_WRITE (match v with V1 => 0 | V2 => wc end) id)
                     (skipn (N.to_nat wc) rest)
          | RMW_SUM, a :: x :: rest =>
              let (d, y) := dev_rmw v d a (fun old => add32 old x) in
              finish d (reply_header v RMW_SUM 1 id ++ [y]) rest
          | RMW_BITS, a :: m :: o :: rest =>
              let (d, y) := dev_rmw v d a (fun old => rmw_bits_word old m o) in
              finish d (reply_header v RMW_BITS 1 id ++ [y]) rest
          | _, _ => (d, [], false)
          end
      end
  end.

(** IPbusInspector.cpp 73-90 and DummyHardware.cpp 377-404: IPbus 2.0 packet
    header.  Only control packets with ID 0 (the only ones the client sends) are
    processed here; the header is echoed. *)
Definition target_ipbus (v : version) (d : D) (ws : list N) : D * list N * bool :=
  match v with
  | V1 => target_loop (length ws) V1 d ws
  | V2 => match ws with
          | p :: rest =>
              if (N.land p 0x0F =? 0) && (N.land (shr32 p 8) 0xFFFF =? 0) then
                let '(d', r, ok) := target_loop (length rest) V2 d rest in
                (d', p :: r, ok)
              else (d, [], false)
          | [] => (d, [], false)
          end
  end.

(** The ControlHub in front of the target, as far as the client sees it
    (ProtocolControlHub.cpp 165-176): it strips the two preamble words and
    prepends the three reply preamble words, with error code 0.  The chunk byte
    count is not checked by the client and is set to the size of the reply. *)
Definition target_packet (g : cfg) (d : D) (ws : list N) : D * list N * bool :=
  match g_hub g with
  | None => target_ipbus (g_ver g) d ws
  | Some (ip, port) =>
      match ws with
      | ip' :: w1 :: rest =>
          let '(d', r, ok) := target_ipbus (g_ver g) d rest in
          (d', 4 * N.of_nat (length r) + 8 :: ip' :: w1 mod 65536 :: r, ok)
      | _ => (d, [], false)
      end
  end.

End Target.
