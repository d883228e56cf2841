(** What is said about [Describe.v]. *)
From Coq Require Import NArith List Bool String Sorted.
From Verif Require Import NodeTree NodeProofs Prop_Node.
From Verif Require Describe.
Import ListNotations.
Open Scope N_scope.

(** The addresses of a node. *)
Definition covers (a : attrs) (x : N) : Prop :=
  match a_mode a with
  | HIERARCHICAL => False
  | INCREMENTAL => a_addr a <= x < a_addr a + a_size a
  | SINGLE | NON_INCREMENTAL => x = a_addr a
  end.

(** No block reaches the last address there is. *)
Definition blocks_inside (t : node) : Prop := forall p n, get t p = Some n ->
  a_mode (n_at n) = INCREMENTAL -> a_addr (n_at n) + a_size (n_at n) < 2 ^ 32.

(** [ms]: the nodes that have address [x], in depth-first order. *)
Definition at_address (t : node) (x : N) (ms : list (list nat)) : Prop :=
  StronglySorted before ms /\ forall p, In p ms <-> exists n, get t p = Some n /\ covers (n_at n) x.

(** The ids from the root to a node, with dots between them; the root may be without
    an id. *)
Definition full_name (t : node) (p : list nat) : string :=
  join ((if String.eqb (a_id (n_at t)) "" then [] else [a_id (n_at t)]) ++ ids_along t p).

(** The same, starting below the node at [anc]; starting with the root if that is
    the root. *)
Definition name_below (t : node) (anc p : list nat) : string :=
  match anc with
  | [] => full_name t p
  | _ => join (skipn (List.length anc) (ids_along t p))
  end.

(** [q] is above [p]; [anc] is above all nodes of [ms], and everything else that is,
    is above [anc]. *)
Definition above (q p : list nat) : Prop := exists r, r <> [] /\ p = q ++ r.
Definition closest (anc : list nat) (ms : list (list nat)) : Prop :=
  (forall p, In p ms -> above anc p) /\
  (forall q, (forall p, In p ms -> above q p) -> q <> anc -> above q anc).

(** The text for several nodes: their number if there are more than [most] (0: no
    limit), otherwise their names. *)
Definition in_quotes (s : string) : string := ("""" ++ s ++ """")%string.
Definition text (t : node) (most : nat) (ms : list (list nat)) (anc : list nat) : string :=
  match most with
  | S _ => if Nat.ltb most (List.length ms)
           then (Describe.decimal (List.length ms) ++ " nodes " ++
                 match anc with [] => "" | _ => "under " ++ in_quotes (full_name t anc) ++ " " end ++ "match")%string
           else ("nodes " ++ String.concat ", " (map (fun p => in_quotes (name_below t anc p)) ms) ++
                 match anc with [] => "" | _ => " under " ++ in_quotes (full_name t anc) end)%string
  | O => ("nodes " ++ String.concat ", " (map (fun p => in_quotes (name_below t anc p)) ms) ++
          match anc with [] => "" | _ => " under " ++ in_quotes (full_name t anc) end)%string
  end.
