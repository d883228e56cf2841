(** The statistics of the ControlHub's device clients: the counters each keeps of its
    datagrams and timeouts, and the statistics process that reports them.

    Sources: /repo/controlhub/src/ch_stats.erl lines 41-49, 146-207, 378-412 and 438-541;
    the calls of ch_stats in /repo/controlhub/src/ch_device_client.erl 160, 343, 355, 370,
    379, 419-459 and 727-769.

    Simplifications: those of [Hub.v] and [Hub13.v], whose functions say what a device
    client does; start times and addresses of the rows are left out; the statistics
    process is not stopped. *)
From Coq Require Import NArith List Bool PeanoNat.
From Verif Require Import Hub Hub13.
Import ListNotations.
Open Scope nat_scope.

(** The keys of a device_client_stats table: udp_sent, udp_rcvd, {udp_timeout,normal},
    {udp_lost,request}, {udp_lost,response}, {udp_timeout,recovered},
    {udp_timeout,resend}, {udp_timeout,status}.  ch_stats.erl 482-492. *)
Inductive ctr := CSent | CRcvd | CNormal | CLostReq | CLostResp | CRecovered | CResend | CStatus.
Definition ctr_eqb (a b : ctr) : bool :=
  match a, b with
  | CSent, CSent | CRcvd, CRcvd | CNormal, CNormal | CLostReq, CLostReq | CLostResp, CLostResp
  | CRecovered, CRecovered | CResend, CResend | CStatus, CStatus => true
  | _, _ => false
  end.

(** The counters of a table; ets:update_counter by 1 for each element of a list, and by
    those of another table (ch_stats.erl 386-395). *)
Definition table := ctr -> nat.
Definition empty_table : table := fun _ => 0.
Definition bump (t : table) (l : list ctr) : table := fun c => t c + length (filter (ctr_eqb c) l).
Definition add_table (a b : table) : table := fun c => a c + b c.

(** ** What a device client counts *)

(** In send_request, ch_device_client.erl 343. *)
Definition send_ctrs (r : req) : list ctr := match parse_ctl (q_pkt r) with Some _ => [CSent] | None => [] end.

(** In forward_reply, line 370. *)
Definition forward_ctrs (h : hub) (p : bytes) : list ctr :=
  match h_fl h with
  | [] => []
  | f :: _ => if Nat.ltb (length p) 4 then [] else if same (hdr p) (f_hdr f) then [CRcvd] else []
  end.

(** With [take]: lines 732, 738 and 343. *)
Definition take_ctrs (h : hub) : list ctr :=
  match h_box h with
  | [] => []
  | r :: _ =>
      match h_mode h with
      | MIdle => match first_version (q_pkt r) with None => [] | Some _ => [CSent] end
      | MLoop => send_ctrs r
      | _ => []
      end
  end.

(** With [recv]: lines 754 (before the reply is parsed), 343, 424, 432, 440, 455, 370. *)
Definition recv_ctrs (h : hub) (p : bytes) : list ctr :=
  match h_mode h with
  | MLoop => forward_ctrs h p
  | MSetup r _ _ => CRcvd :: match parse_status p with SOk _ _ => send_ctrs r | _ => [] end
  | MStat k _ =>
      CRcvd ::
      match parse_status p with
      | SOk _ next =>
          (if Nat.eqb k 0
           then [if N.eqb next (dec_ids (h_next h) (length (h_fl h))) then CLostReq else CLostResp]
           else []) ++ map (fun _ => CSent) (h_fl h)
      | _ => []
      end
  | MWait _ _ => CRecovered :: forward_ctrs h p
  | MIdle | MDead => []
  end.

(** With [expire]: lines 419, 732, 738, 768. *)
Definition expire_ctrs (h : hub) : list ctr :=
  match h_mode h with
  | MIdle | MDead => []
  | MLoop =>
      match h_fl h with
      | [] => if Nat.ltb 0 (h_max h) then [] else [CNormal; CSent]
      | _ => [CNormal; CSent]
      end
  | MSetup _ v2 togo => CStatus :: if Nat.leb togo 1 then [] else if v2 then [CSent] else []
  | MStat _ togo => CStatus :: if Nat.leb togo 1 then [] else [CSent]
  | MWait k _ => if Nat.eqb (k + 1) 5 then [] else [CResend; CSent]
  end.

(** The same for an IPbus 1.3 target: lines 355, 379, 732, 738, 751, 768;
    recover_from_timeout (395-414) counts nothing. *)
Definition send_ctrs13 (r : req) : list ctr := if ctl13 (q_pkt r) then [CSent] else [].
Definition forward_ctrs13 (h : hub13) : list ctr := match k_fl h with Some _ => [CRcvd] | None => [] end.
Definition take_ctrs13 (h : hub13) : list ctr :=
  match k_box h with
  | [] => []
  | r :: _ =>
      match k_mode h with
      | KIdle => match first_version (q_pkt r) with None => [] | Some _ => [CSent] end
      | KLoop => send_ctrs13 r
      | _ => []
      end
  end.
Definition recv_ctrs13 (h : hub13) : list ctr :=
  match k_mode h with
  | KLoop | KWait _ => forward_ctrs13 h
  | KSetup r _ _ => CRcvd :: send_ctrs13 r
  | KIdle | KDead => []
  end.
Definition expire_ctrs13 (h : hub13) : list ctr :=
  match k_mode h with
  | KSetup _ v2 togo => CStatus :: if Nat.leb togo 1 then [] else if v2 then [CSent] else []
  | _ => []
  end.

(** ** Device clients *)

(** A device client, of a target of either version (the process finds out by the reply
    to its status request; here it is fixed). *)
Inductive proc := P20 (h : hub) | P13 (h : hub13).

(** What a device client does next: a request comes to its mailbox, it takes one, a
    timeout, it takes a datagram.  ch_device_client.erl 247-333. *)
Inductive dlab := DCast (r : req) | DTake | DTime | DIn (p : bytes).

(** Its end, datagrams sent, what else it has done, what it has counted. *)
Definition dout := (proc * list bytes * list hev * list ctr)%type.
Definition out20 (o : option outcome) (c : list ctr) : option dout :=
  match o with Some (h, ps, vs) => Some (P20 h, ps, vs, c) | None => None end.
Definition out13' (o : option out13) (c : list ctr) : option dout :=
  match o with Some (h, ps, vs) => Some (P13 h, ps, vs, c) | None => None end.
Definition pstep (absmax : nat) (p : proc) (l : dlab) : option dout :=
  match p, l with
  | P20 h, DCast r => Some (P20 (mkHub (h_mode h) (h_next h) (h_fl h) (h_max h) (h_box h ++ [r])), [], [], [])
  | P20 h, DTake => out20 (take h) (take_ctrs h)
  | P20 h, DTime => out20 (expire h) (expire_ctrs h)
  | P20 h, DIn b => out20 (recv absmax h b) (recv_ctrs h b)
  | P13 h, DCast r => Some (P13 (mkH13 (k_mode h) (k_fl h) (k_box h ++ [r])), [], [], [])
  | P13 h, DTake => out13' (take13 h) (take_ctrs13 h)
  | P13 h, DTime => out13' (expire13 h) (expire_ctrs13 h)
  | P13 h, DIn b => out13' (recv13 h b) (recv_ctrs13 h)
  end.

(** The process is over: ch_device_client.erl 229-233, 322-332, or an exception. *)
Definition over (p : proc) : bool :=
  match p with
  | P20 h => match h_mode h with MDead => true | _ => false end
  | P13 h => match k_mode h with KDead => true | _ => false end
  end.

(** How far new_device_client_table has come, ch_stats.erl 153-160: the table is made, it
    has an heir, ch_stats is told; the process has ended. *)
Inductive phase := FMade | FHeir | FTold | FEnd.

(** A device client and its table, which exists until its owner ends without an heir or
    ch_stats deletes it (line 397). *)
Record cli := mkCli { c_phase : phase; c_proc : proc; c_tab : option table }.

(** ** The statistics process *)

(** {new_device_client_table, Pid, T} and {'ETS-TRANSFER', T, Pid, no_data}, ch_stats.erl
    378, 382. *)
Inductive smsg := SNew (i : nat) | STransfer (i : nat).

(** The device clients ever made, the mailbox of ch_stats, current_udp_stats_tables (as
    numbers of device clients) and previous_udp_stats_table, lines 41-49. *)
Record dsys := mkD { d_cl : list cli; d_box : list smsg; d_cur : list nat; d_old : table }.

(** A device client after a step of it (Erlang process state, ch_device_client.erl 146-160). *)
Definition put_cli (l : list cli) (i : nat) (c : cli) : list cli := firstn i l ++ c :: skipn (S i) l.

(** lists:keydelete(Pid, 1, ...), line 396. *)
Fixpoint keydelete (i : nat) (l : list nat) : list nat :=
  match l with
  | [] => []
  | j :: r => if Nat.eqb j i then r else j :: keydelete i r
  end.

(** What happens: a device client is made (init, ch_device_client.erl 146-160), goes on in new_device_client_table,
    does something, ends (by itself, or by an exit signal at any time); ch_stats takes a
    message. *)
Inductive slab := SSpawn (p : proc) | SOn (i : nat) | SDo (i : nat) (l : dlab) | SEnds (i : nat) | SKilled (i : nat) | STake.

(** The end of a process: its table goes to its heir, or with it. *)
Definition ends (s : dsys) (i : nat) (c : cli) : dsys :=
  match c_phase c with
  | FMade => mkD (put_cli (d_cl s) i (mkCli FEnd (c_proc c) None)) (d_box s) (d_cur s) (d_old s)
  | _ => mkD (put_cli (d_cl s) i (mkCli FEnd (c_proc c) (c_tab c))) (d_box s ++ [STransfer i]) (d_cur s) (d_old s)
  end.

(** One step.  What is seen: the device client, what it took, what it has sent and done. *)
Definition sstep (absmax : nat) (s : dsys) (l : slab) : option (dsys * list (nat * dlab * list bytes * list hev)) :=
  match l with
  | SSpawn p => Some (mkD (d_cl s ++ [mkCli FMade p (Some empty_table)]) (d_box s) (d_cur s) (d_old s), [])
  | SOn i =>
      match nth_error (d_cl s) i with
      | Some (mkCli FMade p t) => Some (mkD (put_cli (d_cl s) i (mkCli FHeir p t)) (d_box s) (d_cur s) (d_old s), [])
      | Some (mkCli FHeir p t) => Some (mkD (put_cli (d_cl s) i (mkCli FTold p t)) (d_box s ++ [SNew i]) (d_cur s) (d_old s), [])
      | _ => None
      end
  | SDo i l =>
      match nth_error (d_cl s) i with
      | Some (mkCli FTold p (Some t)) =>
          if over p then None
          else match pstep absmax p l with
               | Some (p', ps, vs, cs) =>
                   Some (mkD (put_cli (d_cl s) i (mkCli FTold p' (Some (bump t cs)))) (d_box s) (d_cur s) (d_old s), [(i, l, ps, vs)])
               | None => None
               end
      | _ => None
      end
  | SEnds i =>
      match nth_error (d_cl s) i with
      | Some c => match c_phase c with FTold => if over (c_proc c) then Some (ends s i c, []) else None | _ => None end
      | None => None
      end
  | SKilled i =>
      match nth_error (d_cl s) i with
      | Some c => match c_phase c with FEnd => None | _ => Some (ends s i c, []) end
      | None => None
      end
  | STake =>
      match d_box s with
      | [] => None
      | SNew i :: r => Some (mkD (d_cl s) r (i :: d_cur s) (d_old s), [])
      | STransfer i :: r =>
          match nth_error (d_cl s) i with
          | Some (mkCli f p (Some t)) =>
              Some (mkD (put_cli (d_cl s) i (mkCli f p None)) r (keydelete i (d_cur s)) (add_table (d_old s) t), [])
          | _ => None
          end
      end
  end.

(** Any number of steps: the processes' loops, ch_device_client.erl 187-245, ch_stats.erl
    370-400. *)
Fixpoint srun (absmax : nat) (s : dsys) (ls : list slab) : option (dsys * list (nat * dlab * list bytes * list hev)) :=
  match ls with
  | [] => Some (s, [])
  | l :: t =>
      match sstep absmax s l with
      | Some (s1, e1) => match srun absmax s1 t with Some (s2, e2) => Some (s2, e1 ++ e2) | None => None end
      | None => None
      end
  end.

(** init, ch_stats.erl 298-303. *)
Definition stats_start : dsys := mkD [] [] [] empty_table.
(** A new device client, by the version found, ch_device_client.erl 146-160, 418-433. *)
Definition new20 : proc := P20 (mkHub MIdle 0 [] 0 []).
Definition new13 : proc := P13 (mkH13 KIdle None []).

(** report_to_string about device clients, ch_stats.erl 451-452 and 512-541: a row for
    each current table, then the old ones.  None: a table that does not exist is looked up. *)
Fixpoint rows (cl : list cli) (cur : list nat) : option (list (nat * table)) :=
  match cur with
  | [] => Some []
  | i :: r =>
      match nth_error cl i with
      | Some (mkCli _ _ (Some t)) => match rows cl r with Some l => Some ((i, t) :: l) | None => None end
      | _ => None
      end
  end.
Definition report (s : dsys) : option (list (nat * table) * table) :=
  match rows (d_cl s) (d_cur s) with Some l => Some (l, d_old s) | None => None end.
