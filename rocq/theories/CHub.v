(** The whole ControlHub for one target: the clients' connections, each with its
    transaction manager ([Manager.v]), the messages between the managers and the
    device client, the device client, the network and the target ([Hub.v]).

    Sources: those of [Manager.v] and [Hub.v]; gen_server:cast in
    ch_transaction_manager.erl 258 and the messages of ch_device_client.erl 322-332,
    340-393, 481-488.

    Simplifications: the messages between two processes arrive in order, those of
    different processes in any order; a connection stays open. *)
From Coq Require Import NArith List Bool PeanoNat.
From Verif Require Import Hub Manager ManSpec.
Import ListNotations.
Open Scope N_scope.

Section Whole.
Variable D : Type.
Variable exec : D -> bytes -> D * bytes.
Variable hack : bool.
Variable depth absmax : nat.
Variable t : target.
Variable allow : target -> bool.

(** Everything: device client, network and target; the managers; the requests each
    manager has cast that are not in the mailbox of the device client yet; the
    messages of the device client each manager has not taken yet. *)
Record whole := mkWh { c_hub : world D; c_man : pid -> man; c_out : pid -> list bytes; c_in : pid -> list (N * bytes) }.

(** What happens: a chunk of the client of manager [p] arrives; a request gets into
    the mailbox of the device client; a manager takes a message; something in
    [Hub.v].  ch_transaction_manager.erl 173-211 and 255-262. *)
Inductive wlabel := WChunk (p : pid) (reqs : list bytes) | WSend (p : pid) | WRead (p : pid) | WHub (l : label).

(** What is seen: a step of [Hub.v]; what happens to manager [p], and the chunks it
    sends to its client.  Not in the code. *)
Inductive wev := XHub (l : label) (e : list ev) | XMan (p : pid) (e : tevent) (out : list (list response)).

(** The messages get to their managers.  ch_device_client.erl 322-332, 340-393,
    481-488. *)
Definition deliver (f : pid -> list (N * bytes)) (e : list ev) : pid -> list (N * bytes) :=
  fun p => f p ++ flat_map (fun v => match v with EHub (VResp q c d) => if Nat.eqb q p then [(c, d)] else [] | _ => [] end) e.
(** Value of a function changed at one place.  Not in the code. *)
Definition put {A} (f : pid -> A) (p : pid) (x : A) : pid -> A := fun q => if Nat.eqb q p then x else f q.

(** The message of code 5 has the tuple of the address in it, ch_device_client.erl
    763. *)
Definition message (c : N) (d : bytes) : response := mkR (if c =? E_MALFORMED then None else Some t) c d.

(** One step.  The requests of a chunk that are for another target (of which there
    are none in the chunks considered) go to another device client.
    ch_transaction_manager.erl 173-211 and 255-262. *)
Definition wstep (W : whole) (l : wlabel) : option (whole * list wev) :=
  match l with
  | WChunk p reqs =>
      let '(m, cs, out) := man_step allow (c_man W p) (MChunk (chunk t reqs)) in
      Some (mkWh (c_hub W) (put (c_man W) p m)
                 (put (c_out W) p (c_out W p ++ map snd (filter (fun x => same_target (fst x) t) cs))) (c_in W),
            [XMan p (TChunk reqs) out])
  | WSend p =>
      match c_out W p with
      | [] => None
      | q :: rest =>
          match step D exec hack depth absmax (c_hub W) (LCast (mkReq p q)) with
          | Some (w, e) => Some (mkWh w (c_man W) (put (c_out W) p rest) (deliver (c_in W) e), [XHub (LCast (mkReq p q)) e])
          | None => None
          end
      end
  | WRead p =>
      match c_in W p with
      | [] => None
      | (c, d) :: rest =>
          let '(m, cs, out) := man_step allow (c_man W p) (MResp (message c d)) in
          Some (mkWh (c_hub W) (put (c_man W) p m) (c_out W) (put (c_in W) p rest), [XMan p (TResp c d) out])
      end
  | WHub l =>
      match l with
      | LCast _ => None
      | _ => match step D exec hack depth absmax (c_hub W) l with
             | Some (w, e) => Some (mkWh w (c_man W) (c_out W) (deliver (c_in W) e), [XHub l e])
             | None => None
             end
      end
  end.

(** An execution.  Not in the code. *)
Fixpoint wrun (W : whole) (ls : list wlabel) : option (whole * list wev) :=
  match ls with
  | [] => Some (W, [])
  | l :: r =>
      match wstep W l with
      | None => None
      | Some (W1, e1) => match wrun W1 r with None => None | Some (W2, e2) => Some (W2, e1 ++ e2) end
      end
  end.
End Whole.
