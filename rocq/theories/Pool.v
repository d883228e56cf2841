(** The Buffers objects themselves, at the level of bytes and counters, and the
    pool they are recycled through.

    Sources: /repo/uhal/uhal/src/common/Buffers.cpp lines 42-128,
    /repo/uhal/uhal/include/uhal/TemplateDefinitions/Buffers.hxx lines 42-77,
    /repo/uhal/uhal/src/common/ClientInterface.cpp lines 143-202 and 220-376,
    /repo/uhal/uhal/src/common/ProtocolControlHub.cpp lines 203-211,
    /repo/uhal/uhal/src/common/ProtocolUDP.cpp lines 358-405 and 458-493. *)
From Verif Require Import Word Bits Header ValMem Client.
From Coq Require Import NArith List Bool.
Import ListNotations.
Open Scope N_scope.

(** Members of class Buffers: mSendCounter, mSendBuffer (bytes), mReplyCounter,
    mReplyBuffer, and the three deques of handles (as one list).  Buffers.hpp 164-178. *)
Record bobj := mkBobj {
  o_sctr : N;
  o_mem : list N;
  o_rctr : N;
  o_reply : list dest;
  o_vals : list nat
}.

(** Buffers::Buffers, Buffers.cpp 42-47: a zeroed array of [max] bytes. *)
Definition o_new (max : N) : bobj := mkBobj 0 (repeat 0 (N.to_nat max)) 0 [] [].

(** Buffers::clear, Buffers.cpp 120-128: the byte array is not cleared. *)
Definition o_clear (o : bobj) : bobj := mkBobj 0 (o_mem o) 0 [] [].

(** memcpy of [bs] to position [p] of an array.  Buffers.hxx 43-61 and Buffers.cpp 66-72. *)
Definition memcpy (mem : list N) (p : nat) (bs : list N) : list N :=
  firstn p mem ++ bs ++ skipn (p + length bs) mem.

(** Bytes of a uint32_t in memory, little-endian host. *)
Definition le4 (w : N) : list N :=
  [w mod 256; (w / 256) mod 256; (w / 65536) mod 256; (w / 16777216) mod 256].

(** Calls made on a Buffers object between clear() and the dispatch: send of a
    uint32_t or of an array of them, receive, add, and the in-place update of the
    ControlHub word count (two bytes at offset 6). *)
Inductive meth :=
| MSend (ws : list N)
| MRecv (d : dest)
| MAdd (c : nat)
| MCount.

(** Effect of one call on the object; [None]: memcpy past the end of the array.
    Buffers.cpp 66-94, Buffers.hxx 42-77, ProtocolControlHub.cpp 209-210. *)
Definition o_call (o : bobj) (m : meth) : option bobj :=
  match m with
  | MSend ws =>
      let bs := flat_map le4 ws in
      if N.of_nat (length (o_mem o)) <? o_sctr o + N.of_nat (length bs) then None
      else Some (mkBobj (o_sctr o + N.of_nat (length bs))
                        (memcpy (o_mem o) (N.to_nat (o_sctr o)) bs)
                        (o_rctr o) (o_reply o) (o_vals o))
  | MRecv d =>
      Some (mkBobj (o_sctr o) (o_mem o) (o_rctr o + 4 * dest_words d)
                   (o_reply o ++ [d]) (o_vals o))
  | MAdd c =>
      Some (mkBobj (o_sctr o) (o_mem o) (o_rctr o) (o_reply o) (o_vals o ++ [c]))
  | MCount =>
      if N.of_nat (length (o_mem o)) <? 8 then None
      else
        let n := swap16 (((o_sctr o - 8) / 4) mod 65536) in
        Some (mkBobj (o_sctr o) (memcpy (o_mem o) 6 [n mod 256; n / 256])
                     (o_rctr o) (o_reply o) (o_vals o))
  end.

(** A sequence of calls.  Not in the code: a sequence of calls. *)
Fixpoint o_calls (o : bobj) (ms : list meth) : option bobj :=
  match ms with
  | [] => Some o
  | m :: t => match o_call o m with Some o' => o_calls o' t | None => None end
  end.

(** What leaves the object: the bytes up to sendCounter() that the transport
    sends, the reply list, replyCounter(), and the handles to validate.
    Buffers.cpp 55-63 and 96-118. *)
Definition content (o : bobj) : list N * list dest * N * list nat :=
  (firstn (N.to_nat (o_sctr o)) (o_mem o), o_reply o, o_rctr o, o_vals o).

(** The objects ever created (by identity), mBuffers, mCurrentBuffers, the
    buffers in the hands of the transport (oldest first), whether an exception
    is stored, and ghosts: the calls made on the current and on the dispatched
    buffers since each was taken from the pool.  ClientInterface.hpp 400-408. *)
Record pool := mkPool {
  l_objs : list bobj;
  l_free : list nat;
  l_cur : option nat;
  l_out : list nat;
  l_fail : bool;
  l_gcur : list meth;
  l_gout : list (list meth)
}.

(** Events: updateCurrentBuffers with no current buffer, a call on the current
    buffer, its dispatch, a reply validated, a reply refused, another failure,
    the exception handler.  ClientInterface.cpp 143-202 and 220-376. *)
Inductive pevent := PTake | PCall (m : meth) | PSend | PDone | PRefused | PLost | PHandler.

(** One event; [None]: not enabled, or memory overrun in [PCall].
    Simplified: dispatchExceptionHandler returns everything to the pool and then
    deletes the pool (ProtocolUDP.cpp 483-492, ClientInterface.cpp 363-377), here
    in one event; the objects are never destroyed, only forgotten. *)
Definition pstep (max : N) (s : pool) (e : pevent) : option pool :=
  match e with
  | PTake =>
      (* ClientInterface.cpp 339-360 *)
      match l_cur s with
      | Some _ => None
      | None =>
          let n := length (l_objs s) in
          let (objs, free) :=
            match l_free s with
            | [] => (l_objs s ++ repeat (o_new max) 10, seq n 10)
            | f => (l_objs s, f)
            end in
          match free with
          | [] => None
          | i :: rest =>
              Some (mkPool (upd objs i o_clear) rest (Some i) (l_out s) (l_fail s) [] (l_gout s))
          end
      end
  | PCall m =>
      match l_cur s with
      | None => None
      | Some i =>
          match nth_error (l_objs s) i with
          | None => None
          | Some o =>
              match o_call o m with
              | None => None
              | Some o' => Some (mkPool (upd (l_objs s) i (fun _ => o')) (l_free s) (l_cur s) (l_out s)
                                        (l_fail s) (l_gcur s ++ [m]) (l_gout s))
              end
          end
      end
  | PSend =>
      (* implementDispatch throws when a failure is stored, ProtocolUDP.cpp 123-126 *)
      match l_cur s, l_fail s with
      | Some i, false => Some (mkPool (l_objs s) (l_free s) None (l_out s ++ [i]) false [] (l_gout s ++ [l_gcur s]))
      | _, _ => None
      end
  | PDone =>
      (* ClientInterface.cpp 187-202: returned to the pool after validation *)
      match l_out s, l_fail s with
      | i :: q, false => Some (mkPool (l_objs s) (l_free s ++ [i]) (l_cur s) q false (l_gcur s) (tl (l_gout s)))
      | _, _ => None
      end
  | PRefused =>
      (* the same function: returned to the pool, but mReplyBuffers keeps it too *)
      match l_out s, l_fail s with
      | i :: q, false => Some (mkPool (l_objs s) (l_free s ++ [i]) (l_cur s) (i :: q) true (l_gcur s) (l_gout s))
      | _, _ => None
      end
  | PLost =>
      match l_out s with
      | [] => None
      | _ => Some (mkPool (l_objs s) (l_free s) (l_cur s) (l_out s) true (l_gcur s) (l_gout s))
      end
  | PHandler => Some (mkPool (l_objs s) [] None [] false [] [])
  end.

(** Executions.  Not in the code: a sequence of events. *)
Fixpoint prun (max : N) (s : pool) (es : list pevent) : option pool :=
  match es with
  | [] => Some s
  | e :: t => match pstep max s e with Some s' => prun max s' t | None => None end
  end.

(** A new client: no buffers at all.  ClientInterface.cpp 50-60. *)
Definition init_pool : pool := mkPool [] [] None [] false [] [].
