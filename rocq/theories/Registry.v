(** The ControlHub's registry of device clients: which process the transaction
    managers send the requests for a target to, when device clients are made and
    what happens when they stop, with any number of managers and targets.

    Sources: /repo/controlhub/src/ch_device_client_registry.erl 66-224,
    ch_transaction_manager.erl 255-268 (the callers), ch_device_client.erl 83-84,
    148-184 (start of a device client), 236, 268, 332 (its end).

    Simplifications:
    - what a device client does between its start and its end is in [Hub.v]; here
      it can end at any time (idle for too long, an error, a crash);
    - the two ETS tables are changed in one step of the registry; the managers
      only read the first of them;
    - stop/0 and get_index (lines 52, 147), statistics and logging are left out;
      so is the five-second limit of gen_server:call. *)
From Coq Require Import NArith List Bool PeanoNat.
From Verif Require Import Hub Manager.
Import ListNotations.

(** Process id of a device client.  Not in the code: numbers in order of start. *)
Definition dpid := nat.

(** Messages to the registry: {register, ..} of a manager, line 137; 'EXIT' of a
    linked process, line 174. *)
Inductive rmsg := RRegister (p : pid) (t : target) | RExit (d : dpid).

(** Where a manager is in enqueue_request (ch_transaction_manager.erl 255-268):
    between chunks; in gen_server:call; with the pid of a device client; ended by
    an exception (case clause of line 262 for {error, ..}). *)
Inductive mstate := QIdle | QCall (t : target) | QHas (t : target) (d : dpid) | QCrashed.

(** device_client_index and its reverse (lines 15-28), the mailbox of the registry,
    the managers, the device clients that run, the next process id. *)
Record reg := mkReg {
  g_index : target -> option dpid;
  g_rindex : dpid -> option target;
  g_box : list rmsg;
  g_man : pid -> mstate;
  g_alive : dpid -> bool;
  g_next : dpid
}.

(** What is seen.  Not in the code. *)
Inductive rev :=
| VBorn (d : dpid) (t : target)            (* ch_device_client:start_link *)
| VDied (d : dpid)                         (* a device client stops *)
| VGot (p : pid) (t : target) (d : dpid)   (* get_pid returns {ok, Pid} *)
| VBlocked (p : pid) (t : target)          (* get_pid returns blocked *)
| VFailed (p : pid) (t : target)           (* get_pid returns {error, ..} *)
| VCast (p : pid) (t : target) (d : dpid)  (* a request gets to a device client *)
| VLost (p : pid) (t : target) (d : dpid). (* a request is sent to a process that has stopped *)

(** What can happen. [ok]: gen_udp:open succeeds in init/1 of the device client. *)
Inductive rlabel :=
| GLookup (p : pid) (t : target)
| GServe (ok : bool)
| GCast (p : pid)
| GDone (p : pid)
| GDie (d : dpid).

(** Values of functions changed at one place.  Not in the code. *)
Definition set_target (f : target -> option dpid) (t : target) (x : option dpid) :=
  fun u => if same_target u t then x else f u.
Definition set_nat {A} (f : nat -> A) (n : nat) (x : A) := fun m => if Nat.eqb m n then x else f m.

Section Registry.
(** ch_config:get_device_access_status and device_allowlist_mode, lines 71-82. *)
Variable allowed : target -> bool.
Variable permissive : bool.

(** get_pid, lines 66-86: the ETS table is read by the calling process. *)
Definition lookup (g : reg) (p : pid) (t : target) : reg * list rev :=
  match g_index g t with
  | Some d =>
      (mkReg (g_index g) (g_rindex g) (g_box g) (set_nat (g_man g) p (QHas t d)) (g_alive g) (g_next g),
       [VGot p t d])
  | None =>
      if allowed t || permissive then
        (mkReg (g_index g) (g_rindex g) (g_box g ++ [RRegister p t]) (set_nat (g_man g) p (QCall t))
               (g_alive g) (g_next g), [])
      else (g, [VBlocked p t])
  end.

(** create_and_register_device_client, lines 214-224. *)
Definition create (g : reg) (rest : list rmsg) (p : pid) (t : target) (ok : bool) : reg * list rev :=
  if ok then
    let d := g_next g in
    (mkReg (set_target (g_index g) t (Some d)) (set_nat (g_rindex g) d (Some t)) rest
           (set_nat (g_man g) p (QHas t d)) (set_nat (g_alive g) d true) (S d),
     [VBorn d t; VGot p t d])
  else
    (mkReg (g_index g) (g_rindex g) rest (set_nat (g_man g) p QCrashed) (g_alive g) (g_next g),
     [VFailed p t]).

(** handle_call({register, ..}), lines 137-147. *)
Definition on_register (g : reg) (rest : list rmsg) (p : pid) (t : target) (ok : bool) : reg * list rev :=
  match g_index g t with
  | Some d =>
      (mkReg (g_index g) (g_rindex g) rest (set_nat (g_man g) p (QHas t d)) (g_alive g) (g_next g),
       [VGot p t d])
  | None => create g rest p t ok
  end.

(** handle_info({'EXIT', ..}), lines 174-183. *)
Definition on_exit (g : reg) (rest : list rmsg) (d : dpid) : reg * list rev :=
  match g_rindex g d with
  | Some t =>
      (mkReg (set_target (g_index g) t None) (set_nat (g_rindex g) d None) rest
             (g_man g) (g_alive g) (g_next g), [])
  | None => (mkReg (g_index g) (g_rindex g) rest (g_man g) (g_alive g) (g_next g), [])
  end.

(** One step; None: it cannot happen now.  The registry takes its messages in the
    order of their arrival.  gen_server:cast to a process that has stopped does
    nothing (ch_transaction_manager.erl 258). *)
Definition rstep (g : reg) (l : rlabel) : option (reg * list rev) :=
  match l with
  | GLookup p t => match g_man g p with QIdle => Some (lookup g p t) | _ => None end
  | GServe ok =>
      match g_box g with
      | [] => None
      | RRegister p t :: rest => Some (on_register g rest p t ok)
      | RExit d :: rest => Some (on_exit g rest d)
      end
  | GCast p =>
      match g_man g p with
      | QHas t d => Some (g, [if g_alive g d then VCast p t d else VLost p t d])
      | _ => None
      end
  | GDone p =>
      match g_man g p with
      | QHas _ _ => Some (mkReg (g_index g) (g_rindex g) (g_box g) (set_nat (g_man g) p QIdle)
                                (g_alive g) (g_next g), [])
      | _ => None
      end
  | GDie d =>
      if g_alive g d then
        Some (mkReg (g_index g) (g_rindex g) (g_box g ++ [RExit d]) (g_man g)
                    (set_nat (g_alive g) d false) (g_next g), [VDied d])
      else None
  end.

(** An execution.  Not in the code. *)
Fixpoint rrun (g : reg) (ls : list rlabel) : option (reg * list rev) :=
  match ls with
  | [] => Some (g, [])
  | l :: r =>
      match rstep g l with
      | None => None
      | Some (g1, e1) => match rrun g1 r with None => None | Some (g2, e2) => Some (g2, e1 ++ e2) end
      end
  end.
End Registry.

(** The registry starts with empty tables, lines 115-128. *)
Definition reg0 : reg :=
  mkReg (fun _ => None) (fun _ => None) [] (fun _ => QIdle) (fun _ => false) 0%nat.
