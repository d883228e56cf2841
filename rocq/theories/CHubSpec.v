(** What is said about [CHub.v]. *)
From Coq Require Import NArith List Bool PeanoNat.
From Verif Require Import Hub HubSpec Manager ManSpec CHub.
Import ListNotations.
Open Scope N_scope.

(** What happens in [Hub.v], and what is seen of it. *)
Definition hub_labels (tr : list wev) : list label := flat_map (fun x => match x with XHub l _ => [l] | _ => [] end) tr.
Definition hub_events (tr : list wev) : list ev := flat_map (fun x => match x with XHub _ e => e | _ => [] end) tr.
(** What happens to manager [p], and the chunks its client gets. *)
Definition events_of (p : pid) (tr : list wev) : list tevent := flat_map (fun x => match x with XMan q e _ => if Nat.eqb q p then [e] else [] | _ => [] end) tr.
Definition sent_to (p : pid) (tr : list wev) : list (list response) := flat_map (fun x => match x with XMan q _ o => if Nat.eqb q p then o else [] | _ => [] end) tr.
(** The chunks client [p] has sent. *)
Definition chunks_by (p : pid) (ls : list wlabel) : list (list bytes) := flat_map (fun l => match l with WChunk q reqs => if Nat.eqb q p then [reqs] else [] | _ => [] end) ls.
(** The requests a manager has cast that have reached the device client. *)
Definition cast_by (p : pid) (rs : list req) : list bytes := map q_pkt (filter (fun r => Nat.eqb (q_pid r) p) rs).
(** Those of a list that belong to [p]. *)
Definition mine {A} (p : pid) (l : list (pid * A)) : list A := map snd (filter (fun x => Nat.eqb (fst x) p) l).

(** The chunks are chunks of control packets in the byte order of the target. *)
Definition good_label (hack : bool) (l : wlabel) : Prop :=
  match l with
  | WChunk p reqs => good_chunk reqs /\ Forall (fun q => control (if hack then Big else Little) q = true) reqs
  | _ => True
  end.
(** The network is not too late; nothing comes from others; the device client is not
    replaced. *)
Definition prompt {D} (hack : bool) (lag : nat) (w : world D) (l : label) : Prop := match l with LCast _ => True | _ => timely hack lag w l end.

(** The beginning: nothing in the mailboxes. *)
Definition begun {D} (hack : bool) (depth : nat) (W : whole D) : Prop :=
  fresh hack depth (c_hub _ W) /\ h_box (w_hub _ (c_hub _ W)) = [] /\ forall p, c_man _ W p = man0 /\ c_out _ W p = [] /\ c_in _ W p = [].

(** The responses to requests: the reply of the target, with the header of the
    request; an error. *)
Definition reply_to (t : target) (x : req * bytes) : pid * response := (q_pid (fst x), mkR (Some t) 0 (hdr (q_pkt (fst x)) ++ snd x)).
Definition error_to (t : target) (c : N) (r : req) : pid * response := (q_pid r, mkR (Some t) c []).
