(** Clients of the library on one board, through PCIe or mmap: the clients
    ([Client.v], [Validate.v]), the page ring they share ([Ring.v]), and an IPbus 2.0
    target ([Target.v]), with the words in the pages.

    Sources: those of the files named;
    /repo/uhal/uhal/src/common/ProtocolPCIe.cpp lines 385-407 and 510-658,
    ProtocolMmap.cpp 330-352 and 433-559, ClientInterface.cpp 143-180 and 280-335.

    Simplifications:
    - a page is a list of words, the number of words in front of a packet and the
      address of a page are left out ([Pages.v] has them);
    - a call that fills several packets hands them over one after the other when the
      call has filled all of them (in the code: each when it is full);
    - a client that meets an error is marked bad, and its exception handler is not
      modelled here ([Ring.v] has it). *)
From Coq Require Import NArith List Bool PeanoNat.
From Verif Require Import Word Bits Header ValMem Client Validate Target System.
From Verif Require Ring.
Import ListNotations.
Open Scope N_scope.

Section Board.
Variable D : Type.
Variable rd : D -> N -> D * N.
Variable wr : D -> N -> N -> D.
Variable cf : D -> N -> D * N.
(** The ring and the clients.  ProtocolPCIe.cpp 315-376, ProtocolMmap.cpp 283-321. *)
Variable r : Ring.rcfg.
Variable g : nat -> cfg.

(** A client: its state ([s_out]: packets not handed to implementDispatch yet),
    whether dispatch() is waiting, whether there was an error, the packet in
    implementDispatch, and mReplyQueue.  ClientInterface.hpp 394-408,
    ProtocolPCIe.hpp 183-205. *)
Record bclient := mkBc { bc_st : st; bc_wait : bool; bc_bad : bool; bc_hand : option buf; bc_queue : list buf }.
(** The clients, the ring, the pages for requests and for replies, the device.
    ProtocolPCIe.cpp 443-498. *)
Record board := mkBoard { bo_c : nat -> bclient; bo_ring : Ring.sys; bo_req : N -> list N; bo_rep : N -> list N; bo_dev : D }.

(** What happens: a call of the user of client [p], the beginning of dispatch(), its
    end, a step of [Ring.v].  ClientInterface.cpp 143-180 and 408-490. *)
Inductive blabel := BOp (p : nat) (o : op) | BDispatch (p : nat) | BReturn (p : nat) | BRing (l : Ring.rlab).

(** A client changes; and the ring with it.  Not in the code. *)
Definition with_bc (B : board) (p : nat) (c : bclient) : board :=
  mkBoard (Ring.upd (bo_c B) p c) (bo_ring B) (bo_req B) (bo_rep B) (bo_dev B).
Definition with_ring (B : board) (y : Ring.sys) : board :=
  mkBoard (bo_c B) y (bo_req B) (bo_rep B) (bo_dev B).

(** The client is not inside the library, but for dispatch().  Not in the code: the
    mutex of ClientInterface.cpp 145, 410. *)
Definition outside (B : board) (p : nat) : bool :=
  match Ring.c_pc (Ring.y_cl (bo_ring B) p), s_out (bc_st (bo_c B p)) with Ring.PIdle, [] => true | _, _ => false end.

(** What a step of the ring does with packets and pages.  ProtocolPCIe.cpp 385-394
    (LDispatch), ClientInterface.cpp 164-170 (LFlush: the last packet has been
    handed over), ProtocolPCIe.cpp 526-538 (LWrite), 606-640 (LRead), hardware (LPub;
    compare uhal/tests/src/common/PCIeDummyHardware.cpp 118-178). *)
Definition ring_step (B : board) (l : Ring.rlab) (y' : Ring.sys) : option board :=
  let y := bo_ring B in
  match l with
  | Ring.LFail _ => None
  | Ring.LDispatch p _ =>
      let c := bo_c B p in
      match s_out (bc_st c) with
      | b :: q => Some (with_ring (with_bc B p (mkBc (set_out (bc_st c) q) (bc_wait c) (bc_bad c) (Some b) (bc_queue c))) y')
      | [] => None
      end
  | Ring.LFlush p =>
      if bc_wait (bo_c B p) && outside B p then Some (with_ring B y') else None
  | Ring.LWrite p =>
      let c := bo_c B p in
      match bc_hand c with
      | Some b =>
          Some (mkBoard (Ring.upd (bo_c B) p (mkBc (bc_st c) (bc_wait c) (bc_bad c) None (bc_queue c ++ [b]))) y'
                  (Ring.updN (bo_req B) (Ring.c_idx (Ring.y_cl y p)) (b_send b)) (bo_rep B) (bo_dev B))
      | None => None
      end
  | Ring.LRead p =>
      let c := bo_c B p in
      match bc_queue c with
      | b :: q =>
          let (h, v) := receive_packet (g p) (s_heap (bc_st c)) b (bo_rep B (Ring.page_to_read r (Ring.y_cl y p))) in
          let bad := match v with VOk => bc_bad c | _ => true end in
          Some (with_ring (with_bc B p (mkBc (set_heap (bc_st c) h) (bc_wait c) bad (bc_hand c) q)) y')
      | [] => None
      end
  | Ring.LPub =>
      let pg := (Ring.h_pub (Ring.y_hw y) + Ring.r_off r) mod Ring.r_pages r in
      let '(d, w, _) := target_ipbus D rd wr cf V2 (bo_dev B) (bo_req B pg) in
      Some (mkBoard (bo_c B) y' (bo_req B) (Ring.updN (bo_rep B) pg w) d)
  | _ => Some (with_ring B y')
  end.

(** One step.  ClientInterface.cpp 143-180, 280-335 and 408-490. *)
Definition bstep (B : board) (l : blabel) : option board :=
  match l with
  | BOp p o =>
      let c := bo_c B p in
      if bc_wait c || negb (outside B p) then None else
      match run_op (g p) (bc_st c) o with
      | Ok s _ | Exc s _ => Some (with_bc B p (mkBc s false (bc_bad c) (bc_hand c) (bc_queue c)))
      | Bad => Some (with_bc B p (mkBc (bc_st c) false true (bc_hand c) (bc_queue c)))
      end
  | BDispatch p =>
      let c := bo_c B p in
      if bc_wait c || negb (outside B p) then None else
      match s_cur (bc_st c) with
      | None => Some B
      | Some _ =>
          match dispatch_send (g p) (bc_st c) with
          | Ok s _ => Some (with_bc B p (mkBc s true (bc_bad c) (bc_hand c) (bc_queue c)))
          | Exc s _ => Some (with_bc B p (mkBc s false (bc_bad c) (bc_hand c) (bc_queue c)))
          | Bad => Some (with_bc B p (mkBc (bc_st c) false true (bc_hand c) (bc_queue c)))
          end
      end
  | BReturn p =>
      let c := bo_c B p in
      if bc_wait c && outside B p then
        match bc_queue c with
        | [] => Some (with_bc B p (mkBc (bc_st c) false (bc_bad c) (bc_hand c) []))
        | _ => None
        end
      else None
  | BRing l =>
      match Ring.rstep r (bo_ring B) l with
      | Some y' => ring_step B l y'
      | None => None
      end
  end.

(** Executions.  Not in the code: a sequence of steps. *)
Fixpoint brun (B : board) (ls : list blabel) : option board :=
  match ls with
  | [] => Some B
  | l :: t => match bstep B l with Some B' => brun B' t | None => None end
  end.

(** New clients; pages with anything in them.  ClientInterface.cpp 50-60,
    ProtocolPCIe.cpp 315-376. *)
Definition init_board (y : Ring.sys) (req rep : N -> list N) (d : D) : board :=
  mkBoard (fun _ => mkBc init_st false false None []) y req rep d.
End Board.
