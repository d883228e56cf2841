(** Several threads using one client object.

    Sources: /repo/uhal/uhal/src/common/ClientInterface.cpp lines 143-180
    (dispatch) and 408-490 (the other calls), ProtocolIPbusCore.cpp lines 127-139:
    every one of them begins with
    [std::lock_guard<std::mutex> lLock ( mUserSideMutex )] and holds it until it
    returns.

    Simplified: between the acquisition of the mutex and the return, the part of
    the call that changes mCurrentBuffers is one step (two such parts can only
    overlap if two threads are inside at once, which is what the mutex is for);
    the wait in Flush, the return and the release of the mutex are separate
    steps; the network proceeds at any moment. *)
From Verif Require Import Word Bits Header ValMem Client Validate Target System.
From Coq Require Import NArith List Bool.
Import ListNotations.
Open Scope N_scope.

(** What a thread does next: a queueing call or dispatch().
    ClientInterface.cpp 143-180 and 408-490. *)
Inductive call := COp (o : op) | CDispatch.

(** Where a thread is: outside any call, inside with the mutex held, waiting in
    Flush, about to return.  ClientInterface.cpp 143-180 and 408-490. *)
Inductive phase := POut | PIn | PWait | PRet.

(** A thread: calls still to be made (the first one is the current one when the
    thread is inside), place, handles obtained so far, and a ghost: calls
    returned from.  Not in the code: the program of a thread. *)
Record thr := mkThr {
  t_prog : list call;
  t_phase : phase;
  t_hs : list nat;
  t_done : list call
}.

(** Events: a thread acquires mUserSideMutex, executes the body of its call,
    leaves Flush, returns; or the network makes a step.
    ClientInterface.cpp 143-180 and 408-490. *)
Inductive tlabel :=
| TLock (i : nat) | TBody (i : nat) | TFlushed (i : nat) | TUnlock (i : nat) | TNet (reply : bool).

Section Threads.
Variable D : Type.
Variable rd : D -> N -> D * N.
Variable wr : D -> N -> N -> D.
Variable cf : D -> N -> D * N.
Variable g : cfg.

(** The shared client and device, mUserSideMutex, the threads, and a ghost: the
    queueing calls in the order their bodies were executed, with the thread and
    the handle returned (none if the call raised an exception).  ClientInterface.hpp 394-408. *)
Record tst := mkTst {
  ts_sys : sys D;
  ts_mutex : option nat;
  ts_thr : list thr;
  ts_log : list (nat * op * option nat)
}.

(** Replace thread [i].  Not in the code. *)
Definition set_thr (l : list thr) (i : nat) (t : thr) : list thr :=
  upd l i (fun _ => t).

(** Body of a queueing call, whatever the other threads are doing.  ClientInterface.cpp 408-490. *)
Definition body_op (y : sys D) (o : op) : sys D * option nat :=
  match run_op g (y_c D y) o with
  | Ok s c => (mkSys D s (y_rep D y) (y_dev D y) (y_wait D y) (y_bad D y), Some c)
  | Exc s _ => (mkSys D s (y_rep D y) (y_dev D y) (y_wait D y) (y_bad D y), None)
  | Bad => (mkSys D (y_c D y) (y_rep D y) (y_dev D y) (y_wait D y) true, None)
  end.

(** Body of dispatch() up to Flush (ClientInterface.cpp 165-172); the second
    component tells whether Flush is entered. *)
Definition body_dispatch (y : sys D) : sys D * bool :=
  match s_cur (y_c D y) with
  | None => (y, false)
  | Some _ =>
      match dispatch_send g (y_c D y) with
      | Ok s _ => (mkSys D s (y_rep D y) (y_dev D y) true (y_bad D y), true)
      | Exc s _ => (mkSys D s (y_rep D y) (y_dev D y) false (y_bad D y), false)
      | Bad => (mkSys D (y_c D y) (y_rep D y) (y_dev D y) false true, false)
      end
  end.

(** One event; [None] when it is not enabled.  ClientInterface.cpp 143-180 and 408-490. *)
Definition tstep (s : tst) (l : tlabel) : option tst :=
  match l with
  | TLock i =>
      match ts_mutex s, nth_error (ts_thr s) i with
      | None, Some (mkThr (c :: p) POut hs dn) =>
          Some (mkTst (ts_sys s) (Some i) (set_thr (ts_thr s) i (mkThr (c :: p) PIn hs dn)) (ts_log s))
      | _, _ => None
      end
  | TBody i =>
      match nth_error (ts_thr s) i with
      | Some (mkThr (COp o :: p) PIn hs dn) =>
          let (y, r) := body_op (ts_sys s) o in
          Some (mkTst y (ts_mutex s)
                  (set_thr (ts_thr s) i (mkThr (COp o :: p) PRet
                     (match r with Some h => hs ++ [h] | None => hs end) dn))
                  (ts_log s ++ [(i, o, r)]))
      | Some (mkThr (CDispatch :: p) PIn hs dn) =>
          let (y, w) := body_dispatch (ts_sys s) in
          Some (mkTst y (ts_mutex s)
                  (set_thr (ts_thr s) i (mkThr (CDispatch :: p) (if w then PWait else PRet) hs dn))
                  (ts_log s))
      | _ => None
      end
  | TFlushed i =>
      match nth_error (ts_thr s) i with
      | Some (mkThr (CDispatch :: p) PWait hs dn) =>
          match s_out (y_c D (ts_sys s)), y_rep D (ts_sys s) with
          | [], [] =>
              let y := ts_sys s in
              Some (mkTst (mkSys D (y_c D y) [] (y_dev D y) false (y_bad D y)) (ts_mutex s)
                      (set_thr (ts_thr s) i (mkThr (CDispatch :: p) PRet hs dn)) (ts_log s))
          | _, _ => None
          end
      | _ => None
      end
  | TUnlock i =>
      match nth_error (ts_thr s) i with
      | Some (mkThr (c :: p) PRet hs dn) =>
          Some (mkTst (ts_sys s) None (set_thr (ts_thr s) i (mkThr p POut hs (dn ++ [c]))) (ts_log s))
      | _ => None
      end
  | TNet reply =>
      match step D rd wr cf g (ts_sys s) (if reply then LReply else LTarget) with
      | Some y => Some (mkTst y (ts_mutex s) (ts_thr s) (ts_log s))
      | None => None
      end
  end.

(** Executions.  Not in the code: a sequence of events. *)
Fixpoint trun (s : tst) (ls : list tlabel) : option tst :=
  match ls with
  | [] => Some s
  | l :: t => match tstep s l with Some s' => trun s' t | None => None end
  end.

(** Threads with the given programs, a fresh client, a device.  ClientInterface.cpp 50-60. *)
Definition init_tst (d : D) (ps : list (list call)) : tst :=
  mkTst (init_sys D d) None (map (fun p => mkThr p POut [] []) ps) [].
End Threads.

(** The queueing calls of a program.  Not in the code. *)
Fixpoint ops_of (p : list call) : list op :=
  match p with
  | [] => []
  | COp o :: t => o :: ops_of t
  | CDispatch :: t => ops_of t
  end.
