(** Proof layer: the target and the system of [Target.v] and [System.v] with
    read-modify-writes as one operation [rm] of the device.  With a read followed
    by a write they are those of [Target.v] and [System.v]. *)
From Verif Require Import Word Bits Header ValMem Client Validate Target System.
From Coq Require Import NArith List Bool.
Import ListNotations.
Open Scope N_scope.

Section Rm.
Variable D : Type.
Variable rd : D -> N -> D * N.
Variable wr : D -> N -> N -> D.
Variable cf : D -> N -> D * N.
Variable rm : version -> D -> N -> (N -> N) -> D * N.

(** [Target.target_loop]. *)
Fixpoint loop_rm (fuel : nat) (v : version) (d : D) (ws : list N)
  : D * list N * bool :=
  match fuel, ws with
  | O, _ => (d, [], false)
  | S fuel, [] => (d, [], false)
  | S fuel, h :: rest =>
      match extract_header v h with
      | None => (d, [], false)
      | Some x =>
          if negb (h_info x =? req_info v) then (d, [], false) else
          let id := h_id x in
          let wc := h_wc x in
          let finish (d : D) (reply : list N) (rest : list N) :=
            match rest with
            | [] => (d, reply, true)
            | _ => let '(d', r, ok) := loop_rm fuel v d rest in
                   (d', reply ++ r, ok)
            end in
          match h_type x, rest with
          | BOT, rest => finish d (reply_header v BOT 0 id) rest
          | READ, a :: rest =>
              let (d, l) := dev_read D rd d a (N.to_nat wc) true in
              finish d (reply_header v READ wc id ++ l) rest
          | NI_READ, a :: rest =>
              let (d, l) := dev_read D rd d a (N.to_nat wc) false in
              finish d (reply_header v NI_READ wc id ++ l) rest
          | CONFIG_SPACE_READ, a :: rest =>
              let (d, l) := dev_cfg_read D cf d a (N.to_nat wc) in
              finish d (reply_header v CONFIG_SPACE_READ wc id ++ l) rest
          | WRITE, a :: rest =>
              if Nat.ltb (length rest) (N.to_nat wc) then (d, [], false) else
              let d := dev_write D wr d a (firstn (N.to_nat wc) rest) true in
              finish d (reply_header v WRITE (match v with V1 => 0 | V2 => wc end) id)
                     (skipn (N.to_nat wc) rest)
          | NI_WRITE, a :: rest =>
              if Nat.ltb (length rest) (N.to_nat wc) then (d, [], false) else
              let d := dev_write D wr d a (firstn (N.to_nat wc) rest) false in
              finish d (reply_header v NI_WRITE (match v with V1 => 0 | V2 => wc end) id)
                     (skipn (N.to_nat wc) rest)
          | RMW_SUM, a :: x :: rest =>
              let (d, y) := rm v d a (fun old => add32 old x) in
              finish d (reply_header v RMW_SUM 1 id ++ [y]) rest
          | RMW_BITS, a :: m :: o :: rest =>
              let (d, y) := rm v d a (fun old => rmw_bits_word old m o) in
              finish d (reply_header v RMW_BITS 1 id ++ [y]) rest
          | _, _ => (d, [], false)
          end
      end
  end.

(** [Target.target_ipbus]. *)
Definition ipbus_rm (v : version) (d : D) (ws : list N) : D * list N * bool :=
  match v with
  | V1 => loop_rm (length ws) V1 d ws
  | V2 => match ws with
          | p :: rest =>
              if (N.land p 0x0F =? 0) && (N.land (shr32 p 8) 0xFFFF =? 0) then
                let '(d', r, ok) := loop_rm (length rest) V2 d rest in
                (d', p :: r, ok)
              else (d, [], false)
          | [] => (d, [], false)
          end
  end.

Variable g : cfg.

(** [Target.target_packet]. *)
Definition packet_rm (d : D) (ws : list N) : D * list N * bool :=
  match g_hub g with
  | None => ipbus_rm (g_ver g) d ws
  | Some (ip, port) =>
      match ws with
      | ip' :: w1 :: rest =>
          let '(d', r, ok) := ipbus_rm (g_ver g) d rest in
          (d', 4 * N.of_nat (length r) + 8 :: ip' :: w1 mod 65536 :: r, ok)
      | _ => (d, [], false)
      end
  end.

(** [System.step]. *)
Definition step_rm (y : sys D) (l : label) : option (sys D) :=
  match l with
  | LOp o =>
      (* ClientInterface.cpp 408-490; blocked while dispatch() holds the mutex *)
      if y_wait D y then None else
      match run_op g (y_c D y) o with
      | Ok s _ => Some (mkSys D s (y_rep D y) (y_dev D y) false (y_bad D y))
      | Exc s _ => Some (mkSys D s (y_rep D y) (y_dev D y) false (y_bad D y))
      | Bad => Some (mkSys D (y_c D y) (y_rep D y) (y_dev D y) false true)
      end
  | LDispatch =>
      (* ClientInterface.cpp 143-173: Flush is entered only when there was a
         current buffer *)
      if y_wait D y then None else
      match s_cur (y_c D y) with
      | None => Some y
      | Some _ =>
          match dispatch_send g (y_c D y) with
          | Ok s _ => Some (mkSys D s (y_rep D y) (y_dev D y) true (y_bad D y))
          | Exc s _ => Some (mkSys D s (y_rep D y) (y_dev D y) false (y_bad D y))
          | Bad => Some (mkSys D (y_c D y) (y_rep D y) (y_dev D y) false true)
          end
      end
  | LReturn =>
      (* Flush returns when nothing is in flight, e.g. ProtocolUDP.cpp 444-453 *)
      if y_wait D y then
        match s_out (y_c D y), y_rep D y with
        | [], [] => Some (mkSys D (y_c D y) [] (y_dev D y) false (y_bad D y))
        | _, _ => None
        end
      else None
  | LTarget =>
      match s_out (y_c D y) with
      | [] => None
      | b :: q =>
          let '(d, r, ok) := packet_rm (y_dev D y) (b_send b) in
          Some (mkSys D (set_out (y_c D y) q) (y_rep D y ++ [(b, r)]) d (y_wait D y)
                      (y_bad D y || negb ok))
      end
  | LReply =>
      match y_rep D y with
      | [] => None
      | (b, r) :: q =>
          match receive_packet g (s_heap (y_c D y)) b r with
          | (h, VOk) =>
              Some (mkSys D (set_heap (y_c D y) h) q (y_dev D y) (y_wait D y) (y_bad D y))
          | (h, _) =>
              Some (mkSys D (set_heap (y_c D y) h) q (y_dev D y) (y_wait D y) true)
          end
      end
  end.

(** [System.run]. *)
Fixpoint run_rm (y : sys D) (ls : list label) : option (sys D) :=
  match ls with
  | [] => Some y
  | l :: t => match step_rm y l with Some y' => run_rm y' t | None => None end
  end.

End Rm.

Lemma loop_real D rd wr cf : loop_rm D rd wr cf (dev_rmw D rd wr) = target_loop D rd wr cf.
Proof. reflexivity. Qed.

Lemma packet_real D rd wr cf g d ws :
  packet_rm D rd wr cf (dev_rmw D rd wr) g d ws = target_packet D rd wr cf g d ws.
Proof. reflexivity. Qed.

Lemma step_real D rd wr cf g y l :
  step_rm D rd wr cf (dev_rmw D rd wr) g y l = step D rd wr cf g y l.
Proof. destruct l; reflexivity. Qed.

Lemma run_real D rd wr cf g ls : forall y,
  run_rm D rd wr cf (dev_rmw D rd wr) g y ls = run D rd wr cf g y ls.
Proof.
  induction ls as [|l t IH]; intros y; [reflexivity|]. cbn [run_rm run].
  rewrite step_real. destruct (step D rd wr cf g y l); [apply IH|reflexivity].
Qed.
