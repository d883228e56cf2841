(** What the statistics of device clients ought to be, from what is seen of them. *)
From Coq Require Import NArith List Bool PeanoNat.
From Verif Require Import Hub Hub13 DevStats.
Import ListNotations.
Open Scope nat_scope.

(** What is seen: device client, what it took, datagrams sent, what else it did. *)
Definition seen := (nat * dlab * list bytes * list hev)%type.

(** The datagrams that the [i]-th device client has sent. *)
Definition sent_by (i : nat) (e : list seen) : list bytes :=
  flat_map (fun x => match x with (j, _, ps, _) => if Nat.eqb j i then ps else [] end) e.
(** All datagrams sent. *)
Definition all_sent (e : list seen) : list bytes := flat_map (fun x => match x with (_, _, ps, _) => ps end) e.

(** A datagram was used: because of it something was sent or somebody answered. *)
Definition used (l : dlab) (ps : list bytes) (vs : list hev) : bool :=
  match l with
  | DIn _ => negb (Nat.eqb (length ps) 0) || existsb (fun v => match v with VResp _ _ _ => true | _ => false end) vs
  | _ => false
  end.
Definition used_by (i : nat) (e : list seen) : nat :=
  length (filter (fun x => match x with (j, l, ps, vs) => Nat.eqb j i && used l ps vs end) e).

(** Timeouts, and datagrams taken. *)
Definition timeouts (i : nat) (e : list seen) : nat :=
  length (filter (fun x => match x with (j, DTime, _, _) => Nat.eqb j i | _ => false end) e).
Definition taken (i : nat) (e : list seen) : nat :=
  length (filter (fun x => match x with (j, DIn _, _, _) => Nat.eqb j i | _ => false end) e).

(** In the recovery from a timeout, and before the target has told its state in it. *)
Definition recovering (p : proc) : bool := match p with P20 h => match h_mode h with MStat _ _ | MWait _ _ => true | _ => false end | P13 _ => false end.
Definition asking (p : proc) : bool := match p with P20 h => match h_mode h with MStat 0 _ => true | _ => false end | P13 _ => false end.
Definition is20 (p : proc) : bool := match p with P20 _ => true | P13 _ => false end.
Definition b2n (b : bool) : nat := if b then 1 else 0.

(** The counters [t] of a device client that now is [p]. *)
Record true_counters (t : table) (p : proc) (i : nat) (e : list seen) : Prop := mkTrue {
  tc_sent : t CSent = length (sent_by i e);
  tc_rcvd : used_by i e <= t CRcvd <= used_by i e + b2n (over p);
  tc_recovered : t CRecovered + b2n (recovering p) <= t CNormal <= t CRecovered + b2n (recovering p) + b2n (over p);
  tc_lost : t CLostReq + t CLostResp + b2n (asking p) <= t CNormal <= t CLostReq + t CLostResp + b2n (asking p) + b2n (over p);
  tc_time : is20 p = true -> t CNormal + t CResend + t CStatus <= timeouts i e <= t CNormal + t CResend + t CStatus + b2n (over p) }.

(** New device clients. *)
Definition fresh (l : slab) : Prop := match l with SSpawn p => p = new20 \/ p = new13 | _ => True end.
