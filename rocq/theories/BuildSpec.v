(** What an address table means: specification of the tree built from it,
    written without the functions of the builder. *)
From Coq Require Import NArith List Bool String Ascii Permutation Sorted.
From Verif Require Import NodeTree Builder Prop_Attr.
Import ListNotations.
Open Scope N_scope.

(** The naming rule. *)
Definition legal_id (s : string) : Prop :=
  s <> EmptyString /\ (forall a b, s <> (a ++ "." ++ b)%string) /\
  (forall r, s <> (" " ++ r)%string) /\ (forall r, s <> (r ++ " ")%string).

(** The attributes an element may have. *)
Definition known_names : list string :=
  ["id"; "address"; "parameters"; "fwinfo"; "permission"; "mode"; "size"; "tags"; "description"; "class"; "module"; "mask"]%string.

(** [n] is the number written in an attribute, with at most ten digits, or [d]
    when it is absent. *)
Definition number_or (x : xml) (name : string) (n d : N) : Prop :=
  match attribute x name with
  | Some s => (exists k, denotes s n k /\ (k <= 10)%nat) /\ n < 2 ^ 32
  | None => n = d
  end.

(** [v] is a text to which the element adds. *)
Definition text_added (old new v : string) : Prop :=
  (new = EmptyString -> v = old) /\ (old = EmptyString -> v = new) /\
  (new <> EmptyString -> old <> EmptyString -> v = (old ++ "[" ++ new ++ "]")%string).

(** The text of an attribute, empty when absent. *)
Definition text_of (x : xml) (name s : string) : Prop :=
  attribute x name = Some s \/ (attribute x name = None /\ s = EmptyString).

(** [v] is [x] if there is one and else [y]. *)
Definition first_of {A} (x y v : option A) : Prop := (x <> None -> v = x) /\ (x = None -> v = y).

Section Spec.
Variable parse_pars : string -> list (string * string).
Variable parse_fw : string -> option (string * list (string * string)).
Variable files : string -> string -> option (string * xml).

(** The attributes that all kinds of elements can have.  [a0]: what the element
    adds to, the top node of a module or the default node. *)
Record common (path : string) (req : bool) (x : xml) (a0 a : attrs) : Prop := {
  co_known : forall s, In s (map fst (x_ats x)) -> In s known_names;
  co_id : match attribute x "id" with
          | Some s => legal_id s /\ a_id a = s
          | None => req = false /\ a_id a = a_id a0
          end;
  co_addr : exists n, number_or x "address" n 0 /\ a_paddr a = N.lor (a_paddr a0) n;
  co_class : text_of x "class" (a_class a);
  co_tags : exists s, text_of x "tags" s /\ text_added (a_tags a0) s (a_tags a);
  co_desc : exists s, text_of x "description" s /\ text_added (a_desc a0) s (a_desc a);
  co_module : a_module a = path;
  co_pars : exists s, text_of x "parameters" s /\
            forall k, first_of (if String.eqb s "" then None else assoc k (parse_pars s)) (assoc k (a_pars a0)) (assoc k (a_pars a));
  co_fw : exists s, text_of x "fwinfo" s /\
          exists l, ((s = EmptyString /\ l = []) \/
                    (exists t ps, s <> EmptyString /\ parse_fw s = Some (t, ps) /\ l = ("type"%string, t) :: ps)) /\
          forall k, first_of (assoc k (a_fw a0)) (assoc k l) (assoc k (a_fw a))
}.

(** The permission words. *)
Definition permission (x : xml) (a : attrs) : Prop :=
  match attribute x "permission" with
  | None => a_r a = true /\ a_w a = true
  | Some s =>
      (In s ["r"; "read"]%string /\ a_r a = true /\ a_w a = false) \/
      (In s ["w"; "write"]%string /\ a_r a = false /\ a_w a = true) \/
      (In s ["rw"; "wr"; "readwrite"; "writeread"]%string /\ a_r a = true /\ a_w a = true)
  end.

(** Every one of these nodes has a mask. *)
Definition masked (ch : list node) : Prop := Forall (fun c => a_mask (n_at c) <> NOMASK) ch.

(** The mode words and the size.  Without a mode the node is hierarchical, or
    single if all its children [ch] are masked (C39_nodes says when it is which). *)
Definition mode_size (x : xml) (a : attrs) (ch : list node) : Prop :=
  match attribute x "mode" with
  | None => (a_mode a = HIERARCHICAL \/ (a_mode a = SINGLE /\ masked ch)) /\ a_size a = 1
  | Some s =>
      (s = "single"%string /\ a_mode a = SINGLE /\ a_size a = 1) \/
      (In s ["block"; "incremental"; "inc"]%string /\ a_mode a = INCREMENTAL /\
       attribute x "size" <> None /\ number_or x "size" (a_size a) 0) \/
      (In s ["port"; "non-incremental"; "non-inc"]%string /\ a_mode a = NON_INCREMENTAL /\
       number_or x "size" (a_size a) 1 /\ x_ch x = [])
  end.

(** Which kind of element it is: the attributes it has not. *)
Definition has_none (x : xml) (l : list string) : Prop := Forall (fun s => attribute x s = None) l.

(** The tree is the one the element describes: its attributes say what the nodes'
    attributes are, and the children are those of the element in some order; a
    module is replaced by the tree described by its file.  Absolute addresses are
    not mentioned. *)
Inductive describes : string -> bool -> xml -> node -> Prop :=
| d_plain path req x t ch :
    has_none x ["mask"; "module"]%string ->
    common path req x default_attrs (n_at t) -> a_mask (n_at t) = NOMASK ->
    permission x (n_at t) -> mode_size x (n_at t) (n_ch t) ->
    Forall2 (describes path true) (x_ch x) ch -> Permutation ch (n_ch t) ->
    describes path req x t
| d_mask path req x t :
    attribute x "mask" <> None -> has_none x ["module"; "class"; "mode"; "size"]%string ->
    common path req x default_attrs (n_at t) -> number_or x "mask" (a_mask (n_at t)) NOMASK ->
    permission x (n_at t) -> mode_size x (n_at t) (n_ch t) ->
    x_ch x = [] -> n_ch t = [] ->
    describes path req x t
| d_module path req x t expr path' x' a0 m0 :
    attribute x "module" = Some expr -> has_none x ["mask"; "mode"; "size"; "permission"]%string ->
    files path expr = Some (path', x') ->
    describes path' false x' (Node a0 m0 (n_ch t)) ->
    common path req x a0 (n_at t) ->
    a_mask (n_at t) = a_mask a0 -> a_r (n_at t) = a_r a0 -> a_w (n_at t) = a_w a0 ->
    a_mode (n_at t) = a_mode a0 -> a_size (n_at t) = a_size a0 ->
    describes path req x t.
End Spec.

(** Every node of a tree. *)
Definition every (P : node -> Prop) (t : node) : Prop := forall p n, get t p = Some n -> P n.

(** Sum of the relative addresses of the node at [p] and the nodes above it. *)
Fixpoint sum_above (t : node) (p : list nat) : N :=
  a_paddr (n_at t) +
  match p with
  | [] => 0
  | i :: q => match nth_error (n_ch t) i with Some c => sum_above c q | None => 0 end
  end.

(** Order of the children. *)
Definition by_address (c d : node) : Prop := a_addr (n_at c) <= a_addr (n_at d).

(** What std::sort guarantees. *)
Definition sort_ok (sort : list node -> list node) : Prop :=
  forall l, Permutation (sort l) l /\ StronglySorted by_address (sort l).
