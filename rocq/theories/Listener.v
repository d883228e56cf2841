(** The ControlHub's TCP listener, the lives of its transaction managers, and the
    statistics about clients.

    Sources: /repo/controlhub/src/ch_tcp_listener.erl 85-184,
    ch_transaction_manager.erl 59-229, ch_stats.erl 41-49, 90-139 and 298-514.

    Simplifications (all of the model):
    - mailboxes keep the order of sending, also of different senders;
    - the listener and the statistics process do not fail, and the listening socket
      is not closed;
    - the process that owns the socket (tcp_proc_loop) passes every message on at once:
      the messages a manager receives are any sequence; that it fails in sending is a
      label. *)
From Coq Require Import NArith ZArith List Bool PeanoNat.
From Verif Require Import Hub Manager.
Import ListNotations.

(** The counters of a transaction_manager_stats table: requests_in,
    requests_malformed, responses_sent.  ch_stats.erl 465-470. *)
Record counters := mkC { c_in : nat; c_bad : nat; c_sent : nat }.
Definition zero_counters : counters := mkC 0 0 0.

(** ets:update_counter for each of the three, ch_stats.erl 401-405. *)
Definition add_counters (a b : counters) : counters :=
  mkC (c_in a + c_in b) (c_bad a + c_bad b) (c_sent a + c_sent b).

(** Where a transaction manager is, ch_transaction_manager.erl 68-108: in
    gen_tcp:accept (line 72), after it with a socket (line 73) or an error (lines 99,
    103), after telling the listener (line 74), after telling the statistics
    (line 75), in its loop, ended normally, ended by an exception or an exit signal. *)
Inductive place :=
| PAccept | PGot | PErr | PTold | PCounted | PLoop (m : man) | PEnd | PCrash.

(** The process that owns the socket, lines 118-164: waiting for start, in its loop,
    ended normally, ended by an exception. *)
Inductive owner := OWait | ORun | OEnd | OCrash.

(** A transaction manager with the process for its socket (spawned in line 71) and its
    statistics table, which exists until it is deleted in ch_stats.erl 407. *)
Record client := mkCl { cl_place : place; cl_owner : owner; cl_tab : option counters }.

(** Messages to the statistics process: ch_stats.erl 90, 94, 138, 382. *)
Inductive smsg := SConnected | SDisconnected | STable (i : nat) | STransfer (i : nat).

(** The part of #state about clients, ch_stats.erl 41-49; the current tables as
    numbers of managers. *)
Record stats := mkSt { st_active : Z; st_max : Z; st_all : Z; st_old : counters; st_cur : list nat }.

(** Everything: the managers in the order in which they were spawned, the messages
    connection_accept_completed to the listener, those to the statistics process, its
    state. *)
Record srv := mkSrv { v_cl : list client; v_lbox : nat; v_sbox : list smsg; v_st : stats }.

(** What happens, for the outside: gen_tcp:accept returned a socket or an error;
    inet:peername failed; a chunk came, the requests in it that were cast to a device
    client, and the chunks of replies sent because of it; the same for a response of
    a device client; the connection was closed; the manager crashed. *)
Inductive sev :=
| EAccepted (i : nat) | EAcceptError (i : nat) | ENoPeer (i : nat)
| EChunk (i : nat) (p : bytes) (cast : list (target * bytes)) (out : list (list response))
| EReply (i : nat) (out : list (list response))
| EClosed (i : nat) | ECrashed (i : nat).

Section Listener.
(** ch_device_client_registry:get_pid, as in Manager.v. *)
Variable allow : target -> bool.

(** unpack_and_enqueue ends with its second or third clause, lines 245-252: rest too
    short.  [fuel]: Not in the code; the length of the binary is enough. *)
Fixpoint cut_short (fuel : nat) (p : bytes) : bool :=
  match fuel with
  | O => true
  | S fuel =>
      match p with
      | _ :: _ :: _ :: _ :: _ :: _ :: g :: h :: t =>
          let len := (4 * N.to_nat (g * 256 + h))%nat in
          if Nat.leb len (length t)
          then match skipn len t with [] => false | tl => cut_short fuel tl end
          else true
      | _ => true
      end
  end.

(** The statistics of a chunk, ch_transaction_manager.erl 173-191, 247 and 251. *)
Definition count_chunk (c : counters) (p : bytes) : counters :=
  if Nat.eqb (length p mod 4) 0 then
    match snd (unpack allow (S (length p)) p None 0) with
    | UError _ => c
    | UDone _ n => mkC (c_in c + n) (c_bad c + if cut_short (S (length p)) p then 1 else 0) (c_sent c)
    end
  else mkC (c_in c) (S (c_bad c)) (c_sent c).

(** The statistics of a response, line 199. *)
Definition count_reply (c : counters) (out : list (list response)) : counters :=
  mkC (c_in c) (c_bad c) (c_sent c + length (concat out)).

(** The managers with the [i]-th one changed.  Not in the code. *)
Definition put_client (cl : list client) (i : nat) (c : client) : list client :=
  firstn i cl ++ c :: skipn (S i) cl.

(** lists:keydelete, used in ch_stats.erl 406. *)
Fixpoint keydelete (i : nat) (l : list nat) : list nat :=
  match l with
  | [] => []
  | j :: r => if Nat.eqb j i then r else j :: keydelete i r
  end.

(** handle_cast and handle_info of the statistics process, ch_stats.erl 338-354 and
    378-412, for the managers [cl]: the managers (a table may be deleted) and the
    state.  A table that is gone: the process would fail, line 383. *)
Definition on_stats (cl : list client) (s : stats) (m : smsg) : option (list client * stats) :=
  match m with
  | SConnected =>
      let a := (st_active s + 1)%Z in
      Some (cl, mkSt a (if (st_max s <? a)%Z then a else st_max s) (st_all s + 1)%Z (st_old s) (st_cur s))
  | SDisconnected => Some (cl, mkSt (st_active s - 1)%Z (st_max s) (st_all s) (st_old s) (st_cur s))
  | STable i => Some (cl, mkSt (st_active s) (st_max s) (st_all s) (st_old s) (i :: st_cur s))
  | STransfer i =>
      match nth_error cl i with
      | Some (mkCl p o (Some c)) =>
          Some (put_client cl i (mkCl p o None),
                mkSt (st_active s) (st_max s) (st_all s) (add_counters (st_old s) c)
                     (keydelete i (st_cur s)))
      | _ => None
      end
  end.

(** Labels.  [LAccept]: gen_tcp:accept returns a socket or an error.  [LTell]: the next
    message of a manager before its loop, or its end after an accept error.  [LPeer]:
    inet:peername, and what follows up to the loop.  [LEvent]: the loop takes a chunk
    or a response.  [LLookupFails]: the call of get_pid for the first request of a chunk
    fails (line 261; Registry.v).  [LClosed]: it takes tcp_closed or tcp_error.  [LOwnerFails]: the
    owner of the socket fails in sending (lines 130-152).  [LKilled]: its exit signal
    reaches the manager.  [LOwnerEnds]: the owner takes the exit message of the
    manager (line 153).  [LSpawn]: the listener takes a message.  [LStats]: the
    statistics process does. *)
Inductive slabel :=
| LAccept (i : nat) (ok : bool) | LTell (i : nat) | LPeer (i : nat) (ok : bool)
| LEvent (i : nat) (e : mevent) | LLookupFails (i : nat) | LClosed (i : nat)
| LOwnerFails (i : nat) | LKilled (i : nat) | LOwnerEnds (i : nat)
| LSpawn | LStats.

(** One step; [None]: not possible.  ch_tcp_listener.erl 128-129, 149-152, 182-184;
    ch_transaction_manager.erl 68-229. *)
Definition sstep (v : srv) (l : slabel) : option (srv * list sev) :=
  match l with
  | LSpawn =>
      match v_lbox v with
      | S n => Some (mkSrv (v_cl v ++ [mkCl PAccept OWait None]) n (v_sbox v) (v_st v), [])
      | O => None
      end
  | LStats =>
      match v_sbox v with
      | m :: r =>
          match on_stats (v_cl v) (v_st v) m with
          | Some (cl, s) => Some (mkSrv cl (v_lbox v) r s, [])
          | None => None
          end
      | [] => None
      end
  | LAccept i ok =>
      match nth_error (v_cl v) i with
      | Some (mkCl PAccept o c) =>
          Some (mkSrv (put_client (v_cl v) i (mkCl (if ok then PGot else PErr) o c)) (v_lbox v) (v_sbox v) (v_st v),
                [if ok then EAccepted i else EAcceptError i])
      | _ => None
      end
  | LTell i =>
      match nth_error (v_cl v) i with
      | Some (mkCl PGot o c) => Some (mkSrv (put_client (v_cl v) i (mkCl PTold o c)) (S (v_lbox v)) (v_sbox v) (v_st v), [])
      | Some (mkCl PErr o c) => Some (mkSrv (put_client (v_cl v) i (mkCl PEnd o c)) (S (v_lbox v)) (v_sbox v) (v_st v), [])
      | Some (mkCl PTold o c) =>
          Some (mkSrv (put_client (v_cl v) i (mkCl PCounted o c)) (v_lbox v) (v_sbox v ++ [SConnected]) (v_st v), [])
      | _ => None
      end
  | LPeer i ok =>
      match nth_error (v_cl v) i with
      | Some (mkCl PCounted o c) =>
          if ok
          then Some (mkSrv (put_client (v_cl v) i (mkCl (PLoop man0) ORun (Some zero_counters))) (v_lbox v)
                           (v_sbox v ++ [STable i]) (v_st v), [])
          else Some (mkSrv (put_client (v_cl v) i (mkCl PEnd o c)) (v_lbox v) (v_sbox v ++ [SDisconnected]) (v_st v), [ENoPeer i])
      | _ => None
      end
  | LEvent i e =>
      match nth_error (v_cl v) i with
      | Some (mkCl (PLoop m) o (Some c)) =>
          let '(m', cs, out) := man_step allow m e in
          let c' := match e with MChunk p => count_chunk c p | MResp _ => count_reply c out end in
          let ev := match e with MChunk p => EChunk i p cs out | MResp _ => EReply i out end in
          if m_dead m'
          then Some (mkSrv (put_client (v_cl v) i (mkCl PCrash o (Some c'))) (v_lbox v) (v_sbox v ++ [STransfer i]) (v_st v),
                     [ev; ECrashed i])
          else Some (mkSrv (put_client (v_cl v) i (mkCl (PLoop m') o (Some c'))) (v_lbox v) (v_sbox v) (v_st v), [ev])
      | _ => None
      end
  | LLookupFails i =>
      match nth_error (v_cl v) i with
      | Some (mkCl (PLoop m) o c) =>
          Some (mkSrv (put_client (v_cl v) i (mkCl PCrash o c)) (v_lbox v) (v_sbox v ++ [STransfer i]) (v_st v), [ECrashed i])
      | _ => None
      end
  | LClosed i =>
      match nth_error (v_cl v) i with
      | Some (mkCl (PLoop m) o c) =>
          Some (mkSrv (put_client (v_cl v) i (mkCl PEnd o c)) (v_lbox v) (v_sbox v ++ [SDisconnected; STransfer i]) (v_st v),
                [EClosed i])
      | _ => None
      end
  | LOwnerFails i =>
      match nth_error (v_cl v) i with
      | Some (mkCl p ORun c) => Some (mkSrv (put_client (v_cl v) i (mkCl p OCrash c)) (v_lbox v) (v_sbox v) (v_st v), [])
      | _ => None
      end
  | LKilled i =>
      match nth_error (v_cl v) i with
      | Some (mkCl (PLoop m) OCrash c) =>
          Some (mkSrv (put_client (v_cl v) i (mkCl PCrash OCrash c)) (v_lbox v) (v_sbox v ++ [STransfer i]) (v_st v),
                [ECrashed i])
      | _ => None
      end
  | LOwnerEnds i =>
      match nth_error (v_cl v) i with
      | Some (mkCl PEnd ORun c) => Some (mkSrv (put_client (v_cl v) i (mkCl PEnd OEnd c)) (v_lbox v) (v_sbox v) (v_st v), [])
      | Some (mkCl PCrash ORun c) => Some (mkSrv (put_client (v_cl v) i (mkCl PCrash OEnd c)) (v_lbox v) (v_sbox v) (v_st v), [])
      | _ => None
      end
  end.

(** Executions.  Not in the code: a sequence of steps. *)
Fixpoint srun (v : srv) (ls : list slabel) : option (srv * list sev) :=
  match ls with
  | [] => Some (v, [])
  | l :: t =>
      match sstep v l with
      | Some (v', e) => match srun v' t with Some (v'', e') => Some (v'', e ++ e') | None => None end
      | None => None
      end
  end.
End Listener.

(** After the starts in ch_sup.erl 42-48: the statistics process is empty
    (ch_stats.erl 298-303), the listener has spawned a manager
    (ch_tcp_listener.erl 91). *)
Definition start : srv :=
  mkSrv [mkCl PAccept OWait None] 0 [] (mkSt 0 0 0 zero_counters []).

(** report_to_string about clients, ch_stats.erl 440-450: all-time connections, active
    connections and their peak, a row for each client, the row of old clients.  [None]
    for a row: the table does not exist, the process would fail (line 497). *)
Record report := mkRep { rp_all : Z; rp_active : Z; rp_peak : Z; rp_rows : list (nat * option counters); rp_old : counters }.
Definition report_of (v : srv) : report :=
  let s := v_st v in
  mkRep (st_all s) (st_active s) (st_max s)
        (map (fun i => (i, match nth_error (v_cl v) i with Some c => cl_tab c | None => None end)) (st_cur s))
        (st_old s).
