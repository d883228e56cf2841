(** What is said about [Hub.v]: the requests forwarded, the packets carried out and
    the answers given in an execution, and which executions are considered. *)
From Coq Require Import NArith List Bool PeanoNat.
From Verif Require Import Hub.
Import ListNotations.
Open Scope N_scope.

(** Carrying out packets one after the other: the replies and the final state. *)
Fixpoint carried {D} (exec : D -> bytes -> D * bytes) (d : D) (bs : list bytes) : D * list bytes :=
  match bs with
  | [] => (d, [])
  | b :: t => let (d1, r) := exec d b in let (d2, rs) := carried exec d1 t in (d2, r :: rs)
  end.

(** The requests the device client has forwarded, in order. *)
Definition sent (tr : list ev) : list flight := flat_map (fun e => match e with EHub (VSend f) => [f] | _ => [] end) tr.
(** The packets the target has carried out, with their replies. *)
Definition execs (tr : list ev) : list (bytes * bytes) := flat_map (fun e => match e with EExec b r => [(b, r)] | _ => [] end) tr.
(** The replies given to transaction managers without an error. *)
Definition answers (tr : list ev) : list (pid * bytes) :=
  flat_map (fun e => match e with EHub (VResp p c r) => if c =? 0 then [(p, r)] else [] | _ => [] end) tr.

(** A control packet of IPbus 2.0 in one of the byte orders: its header is
    0x20????f0. *)
Definition control (e : endness) (p : bytes) : bool :=
  Nat.leb 4 (length p) &&
  match e with
  | Big => (nth 0 p 0 =? 0x20) && (nth 3 p 0 =? 0xF0)
  | Little => (nth 3 p 0 =? 0x20) && (nth 0 p 0 =? 0xF0)
  end.
(** A packet of IPbus 1.3, in one of the byte orders: it begins with a byte-order
    transaction: version 1, second lowest byte 0, type 31, information code 0. *)
Definition old_packet (p : bytes) : bool :=
  let old a c d := (a / 16 =? 1) && (c =? 0) && (d / 8 =? 31) && (d mod 4 =? 0) in
  Nat.leb 4 (length p) && (old (nth 0 p 0) (nth 2 p 0) (nth 3 p 0) || old (nth 3 p 0) (nth 1 p 0) (nth 0 p 0)).
(** A request is not of IPbus 1.3, and if it is a control packet it has the byte
    order of the target. *)
Definition fits (hack : bool) (r : req) : Prop :=
  old_packet (q_pkt r) = false /\ control (if hack then Little else Big) (q_pkt r) = false.

(** No datagram arrives later than [lag] requests after it was sent, or comes from
    an earlier device client; every datagram from the target was sent by it. *)
Definition timely {D} (hack : bool) (lag : nat) (w : world D) (l : label) : Prop :=
  match l with
  | LCast r => fits hack r
  | LUp i _ => forall g, nth_error (w_up _ w) i = Some g -> g_sock g = w_sock _ w /\ (w_sent _ w <= g_born g + lag)%nat
  | LDown i _ => forall g, nth_error (w_down _ w) i = Some g -> (w_sent _ w <= g_born g + lag)%nat
  | LNoise _ | LRestart => False
  | _ => True
  end.

(** [P] holds before every step of an execution. *)
Fixpoint along {D} (step : world D -> label -> option (world D * list ev)) (P : world D -> label -> Prop) (w : world D) (ls : list label) : Prop :=
  match ls with
  | [] => True
  | l :: t => P w l /\ match step w l with Some (w1, _) => along step P w1 t | None => True end
  end.

(** A state a target can have: the replies kept are of the last packets, or of
    packets without identifier. *)
Definition dev_ok {D} (depth : nat) (v : dev D) : Prop :=
  v_last _ v < 65536 /\ length (v_hist _ v) = depth /\
  forall i id r, nth_error (rev (v_hist _ v)) i = Some (id, r) -> id = 0 \/ v_last _ v <> 0 /\ exists j, (j <= i)%nat /\ id = dec_ids (v_last _ v) j.

(** A new device client: no request forwarded, no datagram to or from its socket. *)
Definition fresh {D} (hack : bool) (depth : nat) (w : world D) : Prop :=
  h_mode (w_hub _ w) = MIdle /\ h_fl (w_hub _ w) = [] /\ Forall (fits hack) (h_box (w_hub _ w)) /\ w_sent _ w = 0%nat /\
  Forall (fun g => g_sock g <> w_sock _ w) (w_up _ w) /\ Forall (fun g => g_sock g <> w_sock _ w) (w_down _ w) /\
  dev_ok depth (w_dev _ w).

(** The greatest number of packets in flight. *)
Definition window (depth absmax : nat) : nat := Nat.max 1 (Nat.min depth absmax).

(** The requests of the transaction managers. *)
Definition asked (ls : list label) : list req := flat_map (fun l => match l with LCast r => [r] | _ => [] end) ls.
(** A control packet of IPbus 2.0. *)
Definition is_ctl (r : req) : bool := control Big (q_pkt r) || control Little (q_pkt r).
(** Who has been told about a request, or has sent it to a process that has
    stopped, in order. *)
Definition ended (tr : list ev) : list pid := flat_map (fun e => match e with EHub (VResp p _ _) => [p] | ELost r => [q_pid r] | _ => [] end) tr.
(** Whose requests are in the device client. *)
Definition waiting (h : hub) : list pid := match h_mode h with MSetup r _ _ => [q_pid r] | _ => [] end ++ fl_pids h ++ map q_pid (h_box h).
(** The process does not end by a failed match. *)
Definition no_crash (tr : list ev) : Prop := ~ In (EHub VCrash) tr.
(** Nothing is in flight before the first status reply and after the end. *)
Definition settled (h : hub) : Prop :=
  match h_mode h with MIdle | MSetup _ _ _ => h_fl h = [] | MDead => h_fl h = [] /\ h_box h = [] | _ => True end.
(** The device_client_response messages, in order. *)
Definition responses (tr : list ev) : list (pid * N * bytes) := flat_map (fun e => match e with EHub (VResp p c r) => [(p, c, r)] | _ => [] end) tr.
(** The requests to a process that has stopped. *)
Definition lost_reqs (tr : list ev) : list req := flat_map (fun e => match e with ELost r => [r] | _ => [] end) tr.
(** The error codes of a device client that stops because the target does not
    answer: ch_error_codes.hrl 17-26. *)
Definition error_code (c : N) : Prop := c = 1 \/ c = 3 \/ c = 4.
