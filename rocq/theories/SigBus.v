(** SigBusGuard (/repo/uhal/uhal/include/uhal/SigBusGuard.hpp 50-84,
    /repo/uhal/uhal/src/common/SigBusGuard.cpp 41-149): any number of threads
    of one process that construct a guard, run accesses under it and destroy
    it, in any interleaving, with bus errors.

    The operating system is the part POSIX describes: the action of SIGBUS
    belongs to the process, the set of blocked signals to the thread; a SIGBUS
    that a thread's own access raises kills the process if that thread blocks
    SIGBUS, and runs the action otherwise; siglongjmp to a sigsetjmp whose
    function has returned, or that another thread made, is undefined.

    Simplified: one step is one system call (or one call of protect up to its
    access), so other threads move between any two of them; a second guard in
    a thread that already has one (a deadlock on sMutex) is not an execution;
    the text of log messages is left out. *)
From Coq Require Import NArith List Bool.
Import ListNotations.
Set Implicit Arguments.

Definition tid := nat.      (* Not in the code: a thread. *)
Definition signal := N.     (* Not in the code: a signal number. *)
Definition mask := signal -> bool.   (* sigset_t: true for a blocked signal. *)

(** Linux signal numbers (asm-generic/signal.h), used in SigBusGuard.cpp 65-68. *)
Definition SIGINT : signal := 2%N.   (* SigBusGuard.cpp 67. *)
Definition SIGBUS : signal := 7%N.   (* SigBusGuard.cpp 68. *)
Definition SIGKILL : signal := 9%N.  (* SigBusGuard.cpp 65. *)
Definition SIGTERM : signal := 15%N. (* Blocked by sigfillset, SigBusGuard.cpp 64. *)
Definition SIGSTOP : signal := 19%N. (* SigBusGuard.cpp 66. *)

(** What the process does on SIGBUS: uHAL's handler (SigBusGuard.cpp 54), or
    something the program set up, by a number. *)
Inductive action := Uhal | Other (n : nat).

(** SigBusGuard.cpp 63-68: all signals, less four. *)
Definition guard_mask : mask :=
  fun s => negb (N.eqb s SIGKILL || N.eqb s SIGSTOP || N.eqb s SIGINT || N.eqb s SIGBUS).

(** SigBusGuard.cpp 121-132, blockSIGBUS: SIG_BLOCK adds to the mask. *)
Definition block_sigbus (m : mask) : mask := fun s => (N.eqb s SIGBUS || m s)%bool.

(** Where a thread is. *)
Inductive pc :=
| Idle            (* no guard *)
| C1              (* constructor, sMutex taken: SigBusGuard.cpp 48 *)
| C2              (* after sigaction: 56 *)
| C3              (* after pthread_sigmask: 69 *)
| Body            (* guard constructed, outside protect *)
| Access (k : nat) (* in aAccess of the k-th call of protect: 114-115 *)
| D1              (* destructor, after sigaction: 86 *)
| D2.             (* destructor, after pthread_sigmask: 92 *)

(** A thread: where it is, its signal mask, and the members of its guard
    (SigBusGuard.hpp 71-74). *)
Record thread := mkThread {
  t_pc : pc;
  t_mask : mask;
  t_act : action;      (* mOriginalAction *)
  t_saved : mask       (* mOriginalMask *)
}.

(** What a caller sees. *)
Inductive event :=
| ENotRegistered (t : tid)   (* SignalHandlerNotRegistered, SigBusGuard.cpp 57-59 *)
| EMaskFailure (t : tid)     (* SignalMaskingFailure, 71-73 *)
| ENotBlocked (t : tid)      (* SignalNotBlocked, 76-78 *)
| EGuard (t : tid)           (* the constructor returned *)
| EReturn (t : tid)          (* protect returned, 118 *)
| EBus (t : tid)             (* protect threw SigBusError, 110-112 *)
| EExc (t : tid)             (* protect let an exception of the access through *)
| EWarn (t : tid)            (* the warning of 139-142 *)
| EGone (t : tid)            (* the destructor returned *)
| EKilled (t : tid)          (* the process died: SIGBUS raised while blocked *)
| EOther (t : tid) (n : nat) (* an action of the program ran *)
| EUndefined (t : tid).      (* siglongjmp without a live target *)

(** The process. [p_env] is sEnv: thread, number of the call of protect that
    made it, and the mask it saved (sigsetjmp(sEnv,1), SigBusGuard.cpp 107). *)
Record proc := mkProc {
  p_action : action;
  p_lock : option tid;                      (* sMutex, 43 *)
  p_prot : bool;                            (* sProtected, 45 *)
  p_env : option (tid * nat * mask);        (* sEnv, 44 *)
  p_calls : nat;                            (* not in the code: number of calls of protect *)
  p_threads : tid -> thread;
  p_dead : bool                             (* not in the code: killed, or undefined *)
}.

(** Not in the code: change one thread. *)
Definition set_thread (f : tid -> thread) (t : tid) (x : thread) : tid -> thread :=
  fun u => if Nat.eqb u t then x else f u.

(** Not in the code: the process with one thread changed. *)
Definition with_thread (p : proc) (t : tid) (x : thread) : proc :=
  mkProc (p_action p) (p_lock p) (p_prot p) (p_env p) (p_calls p)
         (set_thread (p_threads p) t x) (p_dead p).

(** Not in the code: a thread moved to another place. *)
Definition at_pc (x : thread) (c : pc) : thread := mkThread c (t_mask x) (t_act x) (t_saved x).

(** The lock_guard member is destroyed: at the end of the destructor, and when
    the constructor's body throws (SigBusGuard.hpp 71; the body of the
    destructor is not run in that case). *)
Definition leave (p : proc) (t : tid) (x : thread) : proc :=
  mkProc (p_action p) None (p_prot p) (p_env p) (p_calls p)
         (set_thread (p_threads p) t (at_pc x Idle)) (p_dead p).

(** Not in the code: the process is gone. *)
Definition die (p : proc) : proc :=
  mkProc (p_action p) (p_lock p) (p_prot p) (p_env p) (p_calls p) (p_threads p) true.

(** Steps; [ok] says whether the system call succeeds. *)
Inductive label :=
| LBlock (t : tid)             (* blockSIGBUS, by a thread without a guard *)
| LLock (t : tid)              (* constructor: mLockGuard(sMutex) *)
| LAction (t : tid) (ok : bool)   (* constructor: sigaction *)
| LMask (t : tid) (ok : bool)     (* constructor: pthread_sigmask *)
| LCheck (t : tid)             (* constructor: sigismember *)
| LProtect (t : tid)           (* protect, up to the access *)
| LDone (t : tid)              (* the access ends *)
| LThrow (t : tid)             (* the access throws a C++ exception *)
| LFault (t : tid)             (* the thread's own code raises SIGBUS *)
| LRestore (t : tid) (ok : bool)  (* destructor: sigaction *)
| LUnmask (t : tid) (ok : bool)   (* destructor: pthread_sigmask *)
| LUnlock (t : tid).           (* destructor: ~mLockGuard *)

(** SigBusGuard.cpp 135-147, handle, run by thread [t]; the jump lands at
    SigBusGuard.cpp 107 with the saved mask and goes on with 109-112. *)
Definition handle (p : proc) (t : tid) : proc * list event :=
  let warn := if p_prot p then [] else [EWarn t] in
  match p_env p with
  | Some (u, k, m) =>
      let x := p_threads p t in
      match t_pc x with
      | Access j =>
          if (Nat.eqb u t && Nat.eqb j k)%bool
          then (mkProc (p_action p) (p_lock p) false (p_env p) (p_calls p)
                       (set_thread (p_threads p) t
                          (mkThread Body m (t_act x) (t_saved x)))
                       (p_dead p), warn ++ [EBus t])
          else (die p, warn ++ [EUndefined t])
      | _ => (die p, warn ++ [EUndefined t])
      end
  | None => (die p, warn ++ [EUndefined t])
  end.

(** POSIX: SIGBUS raised by an access of thread [t]. *)
Definition fault (p : proc) (t : tid) : proc * list event :=
  if t_mask (p_threads p t) SIGBUS then (die p, [EKilled t])
  else match p_action p with
       | Uhal => handle p t
       | Other n => (die p, [EOther t n])
       end.

(** One step: None if the thread is not at that place. *)
Definition step (p : proc) (l : label) : option (proc * list event) :=
  if p_dead p then None else
  match l with
  | LBlock t =>                                   (* SigBusGuard.cpp 121-132 *)
      let x := p_threads p t in
      match t_pc x with
      | Idle => Some (with_thread p t
                        (mkThread Idle (block_sigbus (t_mask x)) (t_act x) (t_saved x)), [])
      | _ => None
      end
  | LLock t =>                                    (* 48 *)
      let x := p_threads p t in
      match t_pc x, p_lock p with
      | Idle, None =>
          Some (mkProc (p_action p) (Some t) (p_prot p) (p_env p) (p_calls p)
                       (set_thread (p_threads p) t (at_pc x C1)) false, [])
      | _, _ => None
      end
  | LAction t ok =>                               (* 52-60 *)
      let x := p_threads p t in
      match t_pc x with
      | C1 =>
          if ok then
            Some (mkProc Uhal (p_lock p) (p_prot p) (p_env p) (p_calls p)
                    (set_thread (p_threads p) t
                       (mkThread C2 (t_mask x) (p_action p) (t_saved x))) false, [])
          else Some (leave p t x, [ENotRegistered t])
      | _ => None
      end
  | LMask t ok =>                                 (* 62-74 *)
      let x := p_threads p t in
      match t_pc x with
      | C2 =>
          if ok then
            Some (with_thread p t (mkThread C3 guard_mask (t_act x) (t_mask x)), [])
          else Some (leave p t x, [EMaskFailure t])
      | _ => None
      end
  | LCheck t =>                                   (* 75-80 *)
      let x := p_threads p t in
      match t_pc x with
      | C3 =>
          if t_saved x SIGBUS
          then Some (with_thread p t (at_pc x Body), [EGuard t])
          else Some (leave p t x, [ENotBlocked t])
      | _ => None
      end
  | LProtect t =>                                 (* 98-107 *)
      let x := p_threads p t in
      match t_pc x with
      | Body =>
          Some (mkProc (p_action p) (p_lock p) true
                  (Some (t, p_calls p, t_mask x)) (S (p_calls p))
                  (set_thread (p_threads p) t (at_pc x (Access (p_calls p)))) false, [])
      | _ => None
      end
  | LDone t =>                                    (* 114-118 *)
      let x := p_threads p t in
      match t_pc x with
      | Access _ =>
          Some (mkProc (p_action p) (p_lock p) false (p_env p) (p_calls p)
                  (set_thread (p_threads p) t (at_pc x Body)) false, [EReturn t])
      | _ => None
      end
  | LThrow t =>                                   (* 115: 117 is not reached *)
      let x := p_threads p t in
      match t_pc x with
      | Access _ => Some (with_thread p t (at_pc x Body), [EExc t])
      | _ => None
      end
  | LFault t => Some (fault p t)
  | LRestore t ok =>                              (* 85-89 *)
      let x := p_threads p t in
      match t_pc x with
      | Body =>
          Some (mkProc (if ok then t_act x else p_action p) (p_lock p) (p_prot p)
                  (p_env p) (p_calls p)
                  (set_thread (p_threads p) t (at_pc x D1)) false, [])
      | _ => None
      end
  | LUnmask t ok =>                               (* 91-94 *)
      let x := p_threads p t in
      match t_pc x with
      | D1 => Some (with_thread p t
                      (mkThread D2 (if ok then t_saved x else t_mask x) (t_act x) (t_saved x)), [])
      | _ => None
      end
  | LUnlock t =>                                  (* ~lock_guard *)
      let x := p_threads p t in
      match t_pc x with
      | D2 => Some (leave p t x, [EGone t])
      | _ => None
      end
  end.

(** Not in the code: an execution, and what was seen in it. *)
Fixpoint run (p : proc) (tr : list label) : option (proc * list event) :=
  match tr with
  | [] => Some (p, [])
  | l :: tr' =>
      match step p l with
      | Some (p', e) =>
          match run p' tr' with
          | Some (p'', es) => Some (p'', e ++ es)
          | None => None
          end
      | None => None
      end
  end.

(** A process in which no guard exists: the program's action for SIGBUS, and
    the signal mask of each thread. *)
Definition start (a : action) (m : tid -> mask) : proc :=
  mkProc a None false None 0 (fun t => mkThread Idle (m t) (Other 0) (fun _ => false)) false.
