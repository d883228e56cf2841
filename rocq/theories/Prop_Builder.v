(** C34-C37, C39, and C33 for built trees: the tree made from an address table. *)
From Coq Require Import NArith ZArith List Bool String Ascii Permutation Sorted Lia PeanoNat ZifyBool ZifyNat ZifyN.
From Verif Require Import Word NodeTree NodeProofs Prop_Node Rules Attr Prop_Attr Builder BuildSpec BuilderProofs.
Import ListNotations.
Open Scope N_scope.
Ltac Zify.zify_post_hook ::= Z.div_mod_to_equations.

(** ** Specification *)

(** [y] is [x] or one of the elements below it, not looking into modules. *)
Inductive inside (y : xml) : xml -> Prop :=
| in_self : inside y y
| in_child x c : attribute x "module" = None -> In c (x_ch x) -> inside y c -> inside y x.

(** Element [y] of file [q] is reached from element [x] of file [path] through
    child elements and modules. *)
Inductive reached (files : string -> string -> option (string * xml)) (q : string) (y : xml) : string -> xml -> Prop :=
| re_self : reached files q y q y
| re_child path x c : In c (x_ch x) -> reached files q y path c -> reached files q y path x
| re_module path x expr path' x' : attribute x "module" = Some expr -> files path expr = Some (path', x') ->
    reached files q y path' x' -> reached files q y path x.

Section Claims.
Variable parse_pars : string -> list (string * string).
Variable parse_fw : string -> option (string * list (string * string)).
Variable files : string -> string -> option (string * xml).
Variable sort : list node -> list node.
Variable is_class : string -> bool.
Hypothesis SORT : sort_ok sort.
Notation describes := (describes parse_pars parse_fw files).
Notation get_node_tree := (get_node_tree parse_pars parse_fw files sort is_class).

(** C34.  The address of every node is the sum of the relative addresses on the
    way to it, modulo 2^32, and those are the ones of the address table. *)
Theorem C34_addresses : forall fuel path expr t, get_node_tree fuel path expr = BOk t ->
  (forall p n, get t p = Some n -> a_addr (n_at n) = sum_above t p mod 2 ^ 32) /\
  exists path' x, files path expr = Some (path', x) /\ describes path' false x t.
Proof.
  intros fuel path expr t E. destruct (get_node_tree_ok _ _ _ _ _ SORT _ _ _ _ E) as (_ & _ & SE & D). split; [|exact D].
  intros p n G. destruct (settled_get _ _ _ _ SE G) as (X & _). exact X.
Qed.

(** C35.  The tree is the one described, where [describes] has the children of
    each element in some order; and that order is by address. *)
Theorem C35_children : forall fuel path expr t, get_node_tree fuel path expr = BOk t ->
  (exists path' x, files path expr = Some (path', x) /\ describes path' false x t) /\
  every (fun n => StronglySorted by_address (n_ch n)) t.
Proof.
  intros fuel path expr t E. destruct (get_node_tree_ok _ _ _ _ _ SORT _ _ _ _ E) as (_ & _ & SE & D). split; [exact D|].
  intros p n G. destruct (settled_get _ _ _ _ SE G) as (_ & b & X). inversion X; subst. assumption.
Qed.

Lemma describes_inside y x : inside y x -> forall path req t, describes path req x t ->
  exists p n r, get t p = Some n /\ describes path r y n /\ ((p = [] /\ y = x /\ r = req) \/ (p <> [] /\ r = true)).
Proof.
  induction 1 as [|x c NM IC IN IH]; intros path req t D.
  - exists [], t, req. split; [reflexivity|]. split; [exact D|]. auto.
  - inversion D as [? ? ? ? ch N C M PE MS F PM|? ? ? ? N1 N C M PE MS X T|? ? ? ? e p' x' a0 m0 A]; subst.
    + assert (exists d, In d ch /\ describes path true c d) as (d & ID & DD).
      { clear - F IC. induction F as [|a b l l' H F IHF]; [contradiction|]. destruct IC as [->|IC]; [exists b; cbn; auto|].
        destruct (IHF IC) as (d & I & K). exists d. cbn. auto. }
      apply (Permutation_in _ PM) in ID. destruct (In_nth_error _ _ ID) as (i & NT).
      destruct (IH _ _ _ DD) as (p & n & r & G & DN & P). exists (i :: p), n, r.
      cbn [get]. rewrite NT. split; [exact G|]. split; [exact DN|]. right. split; [discriminate|]. tauto.
    + rewrite X in IC. contradiction.
    + congruence.
Qed.

Lemma describes_node path req x t : describes path req x t -> forall p n, get t p = Some n ->
  exists q r y, reached files q y path x /\ describes q r y n /\ ((p = [] /\ r = req /\ y = x /\ q = path) \/ (p <> [] /\ r = true)).
Proof.
  revert path req x t. apply (describes_ind2 parse_pars parse_fw files (fun path req x t => forall p n, get t p = Some n ->
    exists q r y, reached files q y path x /\ describes q r y n /\ ((p = [] /\ r = req /\ y = x /\ q = path) \/ (p <> [] /\ r = true)))).
  - intros path req x t ch N C M PE MS F PM p n G. destruct p as [|i p]; cbn [get] in G.
    + injection G as <-. exists path, req, x. split; [constructor|]. split; [|auto].
      apply (d_plain _ _ _ path req x t ch); auto. clear - F. induction F as [|a b l l' (H & _) F IH]; constructor; auto.
    + destruct (nth_error (n_ch t) i) as [c|] eqn:NT; [|discriminate]. apply nth_error_In in NT.
      apply (Permutation_in _ (Permutation_sym PM)) in NT. destruct (Forall2_in _ _ _ _ F NT) as (y & IY & _ & K).
      destruct (K p n G) as (q & r & z & RE & D & P). exists q, r, z. split; [eapply re_child; eassumption|]. split; [exact D|]. right. split; [discriminate|tauto].
  - intros path req x t N1 N C M PE MS X T p n G. destruct p as [|i p]; cbn [get] in G.
    + injection G as <-. exists path, req, x. split; [constructor|]. split; [|auto]. apply d_mask; auto.
    + rewrite T in G. destruct i; discriminate.
  - intros path req x t expr path' x' a0 m0 A N FI D IH C E1 E2 E3 E4 E5 p n G. destruct p as [|i p].
    + cbn [get] in G. injection G as <-. exists path, req, x. split; [constructor|]. split; [|auto]. eapply d_module; eassumption.
    + destruct (IH (i :: p) n G) as (q & r & z & RE & DZ & P). exists q, r, z. split; [eapply re_module; eassumption|]. split; [exact DZ|]. right. split; [discriminate|]. destruct P as [(P & _)|(_ & P)]; [discriminate|exact P].
Qed.

(** C35, element by element: each element of the file has a node that it
    describes, and each node is described by an element of the file or of a module. *)
Theorem C35_elements : forall fuel path expr t, get_node_tree fuel path expr = BOk t ->
  exists path' x, files path expr = Some (path', x) /\
  (forall y, inside y x -> exists p n r, get t p = Some n /\ describes path' r y n) /\
  (forall p n, get t p = Some n -> exists q r y, reached files q y path' x /\ describes q r y n).
Proof.
  intros fuel path expr t E. destruct (get_node_tree_ok _ _ _ _ _ SORT _ _ _ _ E) as (_ & _ & _ & path' & x & FI & D).
  exists path', x. split; [exact FI|]. split.
  - intros y I. destruct (describes_inside _ _ I _ _ _ D) as (p & n & r & G & DN & _). exists p, n, r. auto.
  - intros p n G. destruct (describes_node _ _ _ _ D _ _ G) as (q & r & y & RE & DN & _). exists q, r, y. auto.
Qed.

(** C36, the part that holds: the bound is checked on the relative address, so a
    block whose ancestors' relative addresses add up to zero ends inside the
    address space. *)
Theorem C36_blocks_partial : forall fuel path expr t, get_node_tree fuel path expr = BOk t ->
  forall p n, get t p = Some n -> a_mode (n_at n) = INCREMENTAL -> 1 <= a_size (n_at n) ->
  a_size (n_at n) < 2 ^ 32 /\ a_paddr (n_at n) + a_size (n_at n) <= 2 ^ 32 /\
  (sum_above t p = a_paddr (n_at n) -> a_addr (n_at n) + a_size (n_at n) <= 2 ^ 32).
Proof.
  intros fuel path expr t E p n G M Z. destruct (get_node_tree_ok _ _ _ _ _ SORT _ _ _ _ E) as (_ & _ & SE & path' & x & FI & D).
  destruct (settled_get _ _ _ _ SE G) as (X & b & SN). inversion SN as [? a m ch EA SS I Hh F]; subst. cbn [n_at] in *. specialize (I M).
  assert (SZ : a_size a < 2 ^ 32).
  { destruct (describes_node _ _ _ _ D _ _ G) as (q & r & y & _ & DN & _). clear - DN. remember (Node a m ch) as n eqn:EN.
    assert (K : a_size (n_at n) < 2 ^ 32); [|subst; exact K]. clear EN.
    revert q r y n DN. apply (describes_ind2 parse_pars parse_fw files (fun q r y n => a_size (n_at n) < 2 ^ 32)).
    - intros path req x t ch' _ _ _ _ MS _ _. unfold mode_size, number_or in MS. destruct (attribute x "mode"); destruct (attribute x "size"); intuition lia.
    - intros path req x t _ _ _ _ _ MS _ _. unfold mode_size, number_or in MS. destruct (attribute x "mode"); destruct (attribute x "size"); intuition lia.
    - intros path req x t expr path' x' a0 m0 _ _ _ _ K _ _ _ _ _ ->. exact K. }
  unfold sub32, W32 in I.
  assert (Q : (a_size a + (2 ^ 32 - 1 mod 2 ^ 32)) mod 2 ^ 32 = a_size a - 1) by lia.
  change 4294967296 with (2 ^ 32) in I. rewrite Q in I.
  split; [exact SZ|]. split; [lia|]. intros SU. rewrite X, SU, N.add_0_l.
  assert (a_paddr a mod 2 ^ 32 = a_paddr a) by (apply N.mod_small; lia). lia.
Qed.

(** C37.  Ids are legal, except that the top node may have none; in particular no
    table in which an element has another id is accepted. *)
Theorem C37_ids : forall fuel path expr t, get_node_tree fuel path expr = BOk t ->
  (forall p n, get t p = Some n -> p <> [] -> legal_id (a_id (n_at n))) /\
  (a_id (n_at t) = EmptyString \/ legal_id (a_id (n_at t))).
Proof.
  intros fuel path expr t E. destruct (get_node_tree_ok _ _ _ _ _ SORT _ _ _ _ E) as (_ & _ & _ & path' & x & FI & D). split.
  - intros p n G NE. destruct (describes_node _ _ _ _ D _ _ G) as (q & r & y & _ & DN & [(P & _)|(_ & ->)]); [congruence|].
    eapply describes_id. exact DN.
  - clear E FI. revert D. generalize false. revert path' x t.
    assert (K : forall path' b x t, describes path' b x t -> a_id (n_at t) = EmptyString \/ legal_id (a_id (n_at t))).
    { apply (describes_ind2 parse_pars parse_fw files (fun q r y n => a_id (n_at n) = EmptyString \/ legal_id (a_id (n_at n)))).
      - intros path0 req x t ch _ C _ _ _ _ _. assert (X := co_id _ _ _ _ _ _ _ C). destruct (attribute x "id"); destruct X as (X & Y); rewrite Y; auto.
      - intros path0 req x t _ _ C _ _ _ _ _. assert (X := co_id _ _ _ _ _ _ _ C). destruct (attribute x "id"); destruct X as (X & Y); rewrite Y; auto.
      - intros path0 req x t expr0 path' x' a0 m0 _ _ _ _ K C _ _ _ _ _. assert (X := co_id _ _ _ _ _ _ _ C). destruct (attribute x "id"); destruct X as (X & Y); rewrite Y; auto. }
    intros path' x t b D. eapply K. exact D.
Qed.

Theorem C37_refused : forall fuel path expr path' x y s, files path expr = Some (path', x) -> inside y x ->
  attribute y "id" = Some s -> ~ legal_id s -> forall t, get_node_tree fuel path expr <> BOk t.
Proof.
  intros fuel path expr path' x y s FI IN A NL t E. destruct (get_node_tree_ok _ _ _ _ _ SORT _ _ _ _ E) as (_ & _ & _ & p1 & x1 & FI1 & D).
  rewrite FI in FI1. injection FI1 as <- <-. destruct (describes_inside _ _ IN _ _ _ D) as (p & n & r & _ & DN & _).
  assert (exists a0, common parse_pars parse_fw path' r y a0 (n_at n)) as (a0 & C) by (inversion DN; subst; eauto).
  assert (X := co_id _ _ _ _ _ _ _ C). rewrite A in X. tauto.
Qed.

(** C39.  Modes, sizes and masks of the nodes, and the attributes of the elements. *)
Theorem C39_nodes : forall fuel path expr t, get_node_tree fuel path expr = BOk t ->
  every (fun n => (a_mode (n_at n) = SINGLE \/ a_mode (n_at n) = HIERARCHICAL -> a_size (n_at n) = 1) /\
                  (a_mask (n_at n) <> NOMASK -> a_mode (n_at n) = SINGLE /\ n_ch n = []) /\
                  (a_mode (n_at n) = NON_INCREMENTAL -> n_ch n = []) /\
                  (a_mode (n_at n) = HIERARCHICAL -> exists c, In c (n_ch n) /\ a_mask (n_at c) = NOMASK) /\
                  a_mask (n_at n) < 2 ^ 32 /\ a_size (n_at n) < 2 ^ 32) t.
Proof.
  intros fuel path expr t E p n G. destruct (get_node_tree_ok _ _ _ _ _ SORT _ _ _ _ E) as (_ & _ & SE & path' & x & FI & D).
  destruct (settled_get _ _ _ _ SE G) as (_ & b & SN). destruct (describes_node _ _ _ _ D _ _ G) as (q & r & y & _ & DN & _).
  assert (HI : a_mode (n_at n) = HIERARCHICAL -> exists c, In c (n_ch n) /\ a_mask (n_at c) = NOMASK) by (inversion SN; subst; assumption).
  assert (K : (a_mode (n_at n) = SINGLE \/ a_mode (n_at n) = HIERARCHICAL -> a_size (n_at n) = 1) /\
              (a_mask (n_at n) <> NOMASK -> (a_mode (n_at n) = SINGLE \/ a_mode (n_at n) = HIERARCHICAL) /\ n_ch n = []) /\
              (a_mode (n_at n) = NON_INCREMENTAL -> n_ch n = []) /\ a_mask (n_at n) < 2 ^ 32 /\ a_size (n_at n) < 2 ^ 32).
  { clear - DN. revert q r y n DN. apply (describes_ind2 parse_pars parse_fw files (fun q r y n =>
              (a_mode (n_at n) = SINGLE \/ a_mode (n_at n) = HIERARCHICAL -> a_size (n_at n) = 1) /\
              (a_mask (n_at n) <> NOMASK -> (a_mode (n_at n) = SINGLE \/ a_mode (n_at n) = HIERARCHICAL) /\ n_ch n = []) /\
              (a_mode (n_at n) = NON_INCREMENTAL -> n_ch n = []) /\ a_mask (n_at n) < 2 ^ 32 /\ a_size (n_at n) < 2 ^ 32)).
    - intros path req x t ch _ _ M _ MS F PM. split; [|split; [congruence|split; [|split; [rewrite M; reflexivity|]]]].
      + unfold mode_size in MS. destruct (attribute x "mode"); [|tauto]. destruct MS as [MS|[(_ & MS & _)|(_ & MS & _)]]; [tauto| |]; rewrite MS; intros [?|?]; discriminate.
      + intros H. unfold mode_size in MS. destruct (attribute x "mode"); [|rewrite H in MS; destruct MS as ([?|(? & _)] & _); discriminate].
        destruct MS as [(_ & MS & _)|[(_ & MS & _)|(_ & _ & _ & XC)]]; try congruence. rewrite XC in F. inversion F; subst. apply Permutation_nil in PM. exact PM.
      + unfold mode_size, number_or in MS. destruct (attribute x "mode"); destruct (attribute x "size"); intuition lia.
    - intros path req x t N1 N C M PE MS X T. assert (NM : attribute x "mode" = None).
      { unfold has_none in N. rewrite Forall_forall in N. apply N. cbn. auto. }
      unfold mode_size in MS. rewrite NM in MS. destruct MS as (MS & SZ). split; [auto|]. split; [intros _; split; [clear - MS; tauto|exact T]|]. split; [auto|]. split; [|rewrite SZ; reflexivity].
      unfold number_or in M. destruct (attribute x "mask"); [tauto|congruence].
    - intros path req x t expr path' x' a0 m0 A N FI D K C E1 E2 E3 E4 E5. cbn [n_at n_ch] in K. rewrite E1, E4, E5. exact K. }
  destruct K as (K1 & K2 & K3 & K4 & K5). split; [exact K1|]. split; [|auto].
  intros NM. destruct (K2 NM) as ([S|H] & C); [auto|]. exfalso. destruct (HI H) as (c & I & _). rewrite C in I. contradiction.
Qed.

(** The mode of the node of an element that says none: hierarchical just when one
    of its children has no mask, and single otherwise. *)
Theorem C39_modes : forall fuel path expr t, get_node_tree fuel path expr = BOk t ->
  exists path' x, files path expr = Some (path', x) /\
  (forall p n, get t p = Some n -> exists q r y, reached files q y path' x /\ describes q r y n /\
    (has_none y ["mode"; "module"]%string ->
     (a_mode (n_at n) = HIERARCHICAL /\ exists c, In c (n_ch n) /\ a_mask (n_at c) = NOMASK) \/
     (a_mode (n_at n) = SINGLE /\ forall c, In c (n_ch n) -> a_mask (n_at c) <> NOMASK))).
Proof.
  intros fuel path expr t E. destruct (get_node_tree_ok _ _ _ _ _ SORT _ _ _ _ E) as (_ & _ & SE & path' & x & FI & D).
  exists path', x. split; [exact FI|]. intros p n G. destruct (describes_node _ _ _ _ D _ _ G) as (q & r & y & RE & DN & _).
  exists q, r, y. split; [exact RE|]. split; [exact DN|]. intros HN. unfold has_none in HN. rewrite Forall_forall in HN.
  assert (NM : attribute y "mode" = None) by (apply HN; cbn; auto). assert (NO : attribute y "module" = None) by (apply HN; cbn; auto).
  destruct (settled_get _ _ _ _ SE G) as (_ & b & SN).
  assert (HI : a_mode (n_at n) = HIERARCHICAL -> exists c, In c (n_ch n) /\ a_mask (n_at c) = NOMASK) by (inversion SN; subst; assumption).
  assert (MS : mode_size y (n_at n) (n_ch n)) by (inversion DN; subst; [assumption|assumption|congruence]).
  unfold mode_size in MS. rewrite NM in MS. unfold masked in MS. rewrite Forall_forall in MS. destruct MS as ([H|(H & K)] & _); [left; auto|right; auto].
Qed.

(** The words and combinations allowed in an element of the file. *)
Theorem C39_elements : forall fuel path expr path' x y t, files path expr = Some (path', x) -> inside y x ->
  get_node_tree fuel path expr = BOk t ->
  (forall s, attribute y "permission" = Some s -> In s ["r"; "read"; "w"; "write"; "rw"; "wr"; "readwrite"; "writeread"]%string) /\
  (forall s, attribute y "mode" = Some s -> In s ["single"; "block"; "incremental"; "inc"; "port"; "non-incremental"; "non-inc"]%string /\
     attribute y "mask" = None /\ attribute y "module" = None) /\
  (forall s, attribute y "mode" = Some s -> In s ["block"; "incremental"; "inc"]%string -> attribute y "size" <> None) /\
  (attribute y "mask" <> None -> attribute y "module" = None /\ attribute y "size" = None /\ x_ch y = []) /\
  (forall s, attribute y "mode" = Some s -> In s ["port"; "non-incremental"; "non-inc"]%string -> x_ch y = []).
Proof.
  intros fuel path expr path' x y t FI IN E. destruct (get_node_tree_ok _ _ _ _ _ SORT _ _ _ _ E) as (_ & _ & _ & p1 & x1 & FI1 & D).
  rewrite FI in FI1. injection FI1 as <- <-. destruct (describes_inside _ _ IN _ _ _ D) as (p & n & r & _ & DN & _). clear - DN.
  assert (PW : permission y (n_at n) -> forall s, attribute y "permission" = Some s -> In s ["r"; "read"; "w"; "write"; "rw"; "wr"; "readwrite"; "writeread"]%string).
  { unfold permission. intros H s A. rewrite A in H. cbn [In] in *. tauto. }
  inversion DN as [? ? ? ? ch N C M PE MS F PM|? ? ? ? N1 N C M PE MS X T|? ? ? ? e p' x' a0 m0 A N]; subst; unfold has_none in N; rewrite Forall_forall in N.
  - assert (N1 : attribute y "mask" = None) by (apply N; cbn; auto). assert (N2 : attribute y "module" = None) by (apply N; cbn; auto).
    unfold mode_size in MS. split; [auto|]. split; [|split; [|split; [congruence|]]].
    + intros s A. rewrite A in MS. split; [|auto]. cbn [In] in *. destruct MS as [(-> & _)|[(I & _)|(I & _)]]; tauto.
    + intros s A I. rewrite A in MS. destruct MS as [(-> & _)|[(_ & _ & Z & _)|(J & _)]]; [|exact Z|].
      * cbn in I. intuition discriminate.
      * cbn [In] in *. exfalso. destruct I as [<-|[<-|[<-|[]]]]; intuition discriminate.
    + intros s A I. rewrite A in MS. destruct MS as [(-> & _)|[(J & _)|(_ & _ & _ & Z)]]; [| |exact Z].
      * cbn in I. intuition discriminate.
      * cbn [In] in *. exfalso. destruct I as [<-|[<-|[<-|[]]]]; intuition discriminate.
  - assert (NM : attribute y "mode" = None) by (apply N; cbn; auto). split; [auto|].
    split; [congruence|]. split; [congruence|]. split; [|congruence]. intros _. split; [apply N; cbn; auto|]. split; [apply N; cbn; auto|exact X].
  - assert (NM : attribute y "mode" = None) by (apply N; cbn; auto). assert (NK : attribute y "mask" = None) by (apply N; cbn; auto). assert (NP : attribute y "permission" = None) by (apply N; cbn; auto).
    split; [congruence|]. split; [congruence|]. split; [congruence|]. split; congruence.
Qed.

(** The hypotheses of the theorems about lookup, paths and iteration (C29-C32)
    hold of every tree handed out; ids of siblings are the user's business. *)
Theorem C31_built_trees : forall fuel path expr t, get_node_tree fuel path expr = BOk t -> wf t /\ linked_below t.
Proof. intros fuel path expr t E. destruct (get_node_tree_ok _ _ _ _ _ SORT _ _ _ _ E) as (A & B & _). auto. Qed.

(** ** Copies of built trees (C33) *)

Lemma number_same_map ch : children_map (map (fun c => with_attrs (clone c) (fun b => set_linked b true)) ch) = children_map ch.
Proof.
  unfold children_map. generalize (@nil (string * nat)). induction ch as [|c r IH]; intros m; [reflexivity|].
  cbn [map fold_left with_attrs n_at]. rewrite clone_at. cbn [a_id a_ptr set_linked]. apply IH.
Qed.

(** The map of every node is the one its children give in their present order. *)
Inductive canonical : node -> Prop :=
| canon a ch : Forall canonical ch -> canonical (Node a (children_map ch) ch).

Lemma canonical_with t f : canonical t -> canonical (with_attrs t f).
Proof. intros H. inversion H; subst. constructor. assumption. Qed.

Lemma clone_canonical : forall t, canonical (clone t).
Proof.
  apply (node_ind2 (fun t => canonical (clone t))). intros a m ch F.
  assert (CH := clone_ch (Node a m ch)). assert (CM := clone_map (Node a m ch)). destruct (clone (Node a m ch)) as [a' m' ch']. cbn [n_map n_ch] in *. subst m'.
  constructor. subst ch'. rewrite Forall_forall in *. intros c I. apply in_map_iff in I. destruct I as (d & <- & I). apply canonical_with. auto.
Qed.

Lemma canonical_walk : forall l t, canonical t -> walk (clone t) l = walk t l.
Proof.
  induction l as [|k l IH]; intros t C; [reflexivity|]. inversion C as [a ch F]; subst.
  assert (CH := clone_ch (Node a (children_map ch) ch)). assert (CM := clone_map (Node a (children_map ch) ch)).
  destruct (clone (Node a (children_map ch) ch)) as [a' m' ch'] eqn:CL. cbn [n_map n_ch] in *. subst m' ch'. rewrite number_same_map.
  cbn [walk n_map n_ch]. destruct (assoc k (children_map ch)) as [x|]; [|reflexivity].
  assert (IX : child_ix x (map (fun c => with_attrs (clone c) (fun b => set_linked b true)) ch) = child_ix x ch).
  { clear. induction ch as [|c r IH]; [reflexivity|]. cbn [map child_ix with_attrs n_at]. rewrite clone_at. cbn [a_ptr set_linked]. rewrite IH. reflexivity. }
  rewrite IX. destruct (child_ix x ch) as [i|]; [|reflexivity]. rewrite nth_error_map. destruct (nth_error ch i) as [c|] eqn:NT; [|reflexivity].
  cbn [option_map]. rewrite walk_with_attrs. rewrite Forall_forall in F. rewrite (IH c (F c (nth_error_In _ _ NT))). reflexivity.
Qed.

(** C33 for the trees handed out by the builder, also with repeated ids: a copy,
    and a copy of a copy, has the same nodes and lookup results. *)
Theorem C33_built_copies : forall fuel path expr t k, get_node_tree fuel path expr = BOk t ->
  let u := Nat.iter k clone t in
  (forall p, match get t p, get u p with
             | Some n, Some n' => same_attrs (n_at n) (n_at n')
             | None, None => True
             | _, _ => False
             end) /\
  (forall s, get_node u s = get_node t s) /\ (forall s, has_node u s = has_node t s) /\ wf u /\ linked_below u.
Proof.
  intros fuel path expr t k E. assert (C : canonical t).
  { destruct fuel as [|f]; cbn [Builder.get_node_tree] in E; [discriminate|]. destruct (files path expr) as [(q, x)|]; [|discriminate].
    apply bind_ok in E. destruct E as (t1 & _ & E). injection E as <-. apply clone_canonical. }
  destruct (C31_built_trees _ _ _ _ E) as (W & L). clear E. cbn zeta.
  assert (K : canonical (Nat.iter k clone t) /\ wf (Nat.iter k clone t) /\ linked_below (Nat.iter k clone t) /\
     (forall l, walk (Nat.iter k clone t) l = walk t l) /\
     (forall p, match get t p, get (Nat.iter k clone t) p with
             | Some n, Some n' => same_attrs (n_at n) (n_at n') | None, None => True | _, _ => False end)).
  { induction k as [|k IH]; cbn [Nat.iter nat_rect].
    - split; [exact C|]. split; [exact W|]. split; [exact L|]. split; [reflexivity|]. intros p. destruct (get t p); [reflexivity|exact I].
    - change (nat_rect (fun _ : nat => node) t (fun _ : nat => clone) k) with (Nat.iter k clone t). set (u := Nat.iter k clone t) in *.
      destruct IH as (I1 & I2 & I3 & I4 & I5). destruct (clone_wf u I2) as (W2 & L2). split; [apply clone_canonical|]. split; [exact W2|]. split; [exact L2|]. split.
      + intros l. rewrite canonical_walk by exact I1. apply I4.
      + intros p. specialize (I5 p). assert (X := clone_get p u). destruct (get t p), (get u p), (get (clone u) p); try contradiction; trivial.
        unfold same_attrs in *. destruct X as (X & _). congruence. }
  destruct K as (_ & K2 & K3 & K4 & K5).
  assert (GN : forall s, get_node (Nat.iter k clone t) s = get_node t s).
  { intros s. destruct s as [|c r]; [reflexivity|]. rewrite !get_node_walk by discriminate. apply K4. }
  split; [exact K5|]. split; [exact GN|]. split; [|auto].
  intros s. assert (X := GN s). unfold has_node, get_node in *.
  destruct (Nat.eqb (String.length s) 0); [reflexivity|]. rewrite !has_loop_get, X. reflexivity.
Qed.
End Claims.

(** ** Examples *)

(** An insertion sort in the place of std::sort. *)
Fixpoint insert_node (c : node) (l : list node) : list node :=
  match l with
  | [] => [c]
  | d :: r => if a_addr (n_at c) <=? a_addr (n_at d) then c :: d :: r else d :: insert_node c r
  end.
Definition sort_nodes (l : list node) : list node := fold_right insert_node [] l.

Lemma insert_node_ok c l : Permutation (insert_node c l) (c :: l) /\ (StronglySorted by_address l -> StronglySorted by_address (insert_node c l)).
Proof.
  induction l as [|d r (P & SS)]; cbn [insert_node].
  - split; [apply Permutation_refl|]. intros _. repeat constructor.
  - destruct (N.leb_spec (a_addr (n_at c)) (a_addr (n_at d))) as [L|L].
    + split; [apply Permutation_refl|]. intros H. constructor; [exact H|]. inversion H as [|? ? H1 H2]; subst. constructor; [exact L|].
      eapply Forall_impl; [|exact H2]. intros e Q. unfold by_address in *. lia.
    + split.
      * eapply Permutation_trans; [apply perm_skip; exact P|apply perm_swap].
      * intros H. inversion H as [|? ? H1 H2]; subst. constructor; [auto|].
        apply (Permutation_Forall (Permutation_sym P)). constructor; [unfold by_address; lia|exact H2].
Qed.

Lemma sort_nodes_ok : sort_ok sort_nodes.
Proof.
  intros l. induction l as [|c l (P & SS)]; cbn [sort_nodes fold_right]; [split; constructor|].
  destruct (insert_node_ok c (sort_nodes l)) as (Q & R). split; [|apply R; exact SS].
  eapply Permutation_trans; [exact Q|]. apply perm_skip. exact P.
Qed.

(** A table with a module, a block, a port, and a register with fields. *)
Definition ex_top : xml :=
 (Xml [("id", "TOP")]
    [Xml [("id", "sub"); ("address", "0x1000"); ("module", "file://sub.xml"); ("tags", "outer")] [];
     Xml [("id", "mem"); ("address", "0x100"); ("mode", "block"); ("size", "16"); ("permission", "rw")] [];
     Xml [("id", "fifo"); ("address", "0x80"); ("mode", "port"); ("permission", "w")] [];
     Xml [("id", "reg"); ("address", "4")]
       [Xml [("id", "lo"); ("mask", "0x0F")] []; Xml [("id", "hi"); ("mask", "0xF0"); ("permission", "r")] []]])%string.
Definition ex_subfile : xml :=
 (Xml [("tags", "inner")]
    [Xml [("id", "b"); ("address", "8")] []; Xml [("id", "a"); ("address", "0x2")] []])%string.
Definition ex_files (path expr : string) : option (string * xml) :=
  if String.eqb expr "file://top.xml" then Some ("top.xml"%string, ex_top)
  else if String.eqb expr "file://sub.xml" then Some ("sub.xml"%string, ex_subfile) else None.
Definition ex_build (files : string -> string -> option (string * xml)) (expr : string) : bres node :=
  get_node_tree (fun _ => []) (fun s => Some (s, [])) files sort_nodes (fun _ => false) 3 EmptyString expr.

Definition shows (r : bres node) (path : string) : option (N * N * mode * N * string) :=
  match r with
  | BOk t => match get_node t path with
             | Found p => match get t p with Some n => Some (a_addr (n_at n), a_mask (n_at n), a_mode (n_at n), a_size (n_at n), a_tags (n_at n)) | None => None end
             | _ => None
             end
  | _ => None
  end.

Example builder_case :
  sort_ok sort_nodes /\
  (exists t, ex_build ex_files "file://top.xml" = BOk t /\
   map (fun c => a_id (n_at c)) (n_ch t) = ["reg"; "fifo"; "mem"; "sub"]%string /\
   (exists n, get t [2%nat] = Some n /\ a_mode (n_at n) = INCREMENTAL /\ 1 <= a_size (n_at n))) /\
  shows (ex_build ex_files "file://top.xml") "sub.b" = Some (0x1008, NOMASK, SINGLE, 1, EmptyString) /\
  shows (ex_build ex_files "file://top.xml") "sub" = Some (0x1000, NOMASK, HIERARCHICAL, 1, "inner[outer]"%string) /\
  shows (ex_build ex_files "file://top.xml") "mem" = Some (0x100, NOMASK, INCREMENTAL, 16, EmptyString) /\
  shows (ex_build ex_files "file://top.xml") "fifo" = Some (0x80, NOMASK, NON_INCREMENTAL, 1, EmptyString) /\
  shows (ex_build ex_files "file://top.xml") "reg.hi" = Some (4, 0xF0, SINGLE, 1, EmptyString) /\
  shows (ex_build ex_files "file://top.xml") "reg" = Some (4, NOMASK, SINGLE, 1, EmptyString).
Proof.
  split; [apply sort_nodes_ok|]. split; [|vm_compute; repeat split].
  destruct (ex_build ex_files "file://top.xml") as [t| |] eqn:E; [|vm_compute in E; discriminate|vm_compute in E; discriminate].
  exists t. split; [reflexivity|]. vm_compute in E. injection E as <-. split; [reflexivity|].
  eexists. split; [reflexivity|]. split; [reflexivity|]. cbn. lia.
Qed.

(** A file with one element below the top one. *)
Definition one_child (ats : list (string * string)) (path expr : string) : option (string * xml) :=
  Some ("f.xml"%string, Xml [("id", "TOP")]%string [Xml ats []]).

(** What the refusals of C37 and C39 look like. *)
Example refusal_case :
  (forall r, inside (Xml [("id", "a.b")]%string []) (Xml r [Xml [("id", "a.b")]%string []]) \/ assoc "module"%string r <> None) /\
  ~ legal_id "a.b" /\ ~ legal_id "" /\ ~ legal_id " a" /\ ~ legal_id "a " /\ legal_id "a b" /\
  ex_build (one_child [("id", "a.b")]%string) "x" = BExc NodeAttributeIncorrectValue /\
  ex_build (one_child [("id", "a ")]%string) "x" = BExc NodeAttributeIncorrectValue /\
  ex_build (one_child [("address", "1")]%string) "x" = BExc (Parser_exc NoRulesPassed) /\
  ex_build (one_child []) "x" = BExc (Parser_exc LengthError) /\
  ex_build (one_child [("id", "a"); ("mode", "block")]%string) "x" = BExc IncrementalNodeRequiresSizeAttribute /\
  ex_build (one_child [("id", "a"); ("mode", "blok")]%string) "x" = BExc NodeAttributeIncorrectValue /\
  ex_build (one_child [("id", "a"); ("permission", "x")]%string) "x" = BExc NodeAttributeIncorrectValue /\
  ex_build (one_child [("id", "a"); ("mask", "1"); ("mode", "single")]%string) "x" = BExc (Parser_exc NoRulesPassed) /\
  ex_build (one_child [("id", "a"); ("colour", "red")]%string) "x" = BExc (Parser_exc UnknownAttribute) /\
  ex_build (one_child [("id", "a"); ("address", "0xFFFFFFF0"); ("mode", "block"); ("size", "17")]%string) "x" = BExc ArraySizeExceedsRegisterBound /\
  shows (ex_build (one_child [("id", "a"); ("address", "0xFFFFFFF0"); ("mode", "block"); ("size", "16")]%string) "x") "a" = Some (0xFFFFFFF0, NOMASK, INCREMENTAL, 16, EmptyString).
Proof.
  split.
  { intros r. destruct (assoc "module"%string r) eqn:A; [right; discriminate|left]. eapply in_child; [exact A|left; reflexivity|constructor]. }
  split; [intros (_ & H & _); exact (H "a"%string "b"%string eq_refl)|].
  split; [intros (H & _); exact (H eq_refl)|].
  split; [intros (_ & _ & H & _); exact (H "a"%string eq_refl)|].
  split; [intros (_ & _ & _ & H); exact (H "a"%string eq_refl)|].
  split; [|vm_compute; repeat split].
  split; [discriminate|]. split; [intros [|? [|? [|? [|]]]] b; discriminate|]. split; [intros r; discriminate|]. intros [|? [|? [|? [|]]]]; discriminate.
Qed.

(** Files that include each other: no amount of fuel is enough. *)
Example cyclic_modules : forall fuel, get_node_tree (fun _ => []) (fun s => Some (s, [])) (fun _ _ => Some ("f.xml"%string, Xml [("module", "file://f.xml")]%string []))
  sort_nodes (fun _ => false) fuel EmptyString "file://f.xml" = BFuel.
Proof.
  assert (P : forall l, parse (match top_parser with Some p => p | None => empty_parser end) ["module"%string] = Run l -> l = 2%nat) by (intros l; vm_compute; congruence).
  assert (K : forall fuel path expr, get_node_tree (fun _ => []) (fun s => Some (s, [])) (fun _ _ => Some ("f.xml"%string, Xml [("module", "file://f.xml")]%string []))
    sort_nodes (fun _ => false) fuel path expr = BFuel); [|intros; apply K].
  induction fuel as [|f IH]; intros path expr; [reflexivity|]. cbn [get_node_tree]. unfold build. cbn [element].
  destruct top_parser as [p|] eqn:T; [|vm_compute in T; discriminate].
  assert (R : parse p ["module"%string] = Run 2) by (vm_compute in T; injection T as <-; vm_compute; reflexivity).
  cbn [x_ats map fst]. rewrite R, IH. reflexivity.
Qed.

(** Refuted: the address of the block includes its ancestors' addresses, the check
    does not.  A block of 256 words at 0xFFFFFFF0 is accepted. *)
Definition late_block (path expr : string) : option (string * xml) :=
  Some ("f.xml"%string,
        Xml [("id", "TOP")] [Xml [("id", "p"); ("address", "0xFFFFFFF0")] [Xml [("id", "mem"); ("mode", "block"); ("size", "256")] []]])%string.
Theorem C36_refuted : exists files t n, sort_ok sort_nodes /\
  get_node_tree (fun _ => []) (fun s => Some (s, [])) files sort_nodes (fun _ => false) 1 EmptyString "x" = BOk t /\
  get t [0; 0]%nat = Some n /\ a_mode (n_at n) = INCREMENTAL /\ a_addr (n_at n) = 0xFFFFFFF0 /\ a_size (n_at n) = 256 /\
  2 ^ 32 < a_addr (n_at n) + a_size (n_at n).
Proof.
  exists late_block. eexists. eexists. split; [apply sort_nodes_ok|]. split; [vm_compute; reflexivity|]. split; [reflexivity|].
  split; [reflexivity|]. split; [reflexivity|]. split; [reflexivity|]. vm_compute. reflexivity.
Qed.

(** Two children with the same id: accepted, and the one with the lower address
    is found, also in copies. *)
Example C33_duplicates :
  shows (ex_build (fun _ _ => Some ("f.xml"%string, Xml [("id", "TOP")] [Xml [("id", "a"); ("address", "4")] []; Xml [("id", "a"); ("address", "0")] []])%string) "x") "a"
  = Some (0, NOMASK, SINGLE, 1, EmptyString).
Proof. vm_compute. reflexivity. Qed.

(** An id of the top node becomes part of the paths of the nodes, which then do
    not lead back to them from the top. *)
Example top_id_in_path :
  match ex_build ex_files "file://top.xml" with
  | BOk t => get_path t [0; 1]%nat = Some "TOP.reg.hi"%string /\ get_node t "TOP.reg.hi" = NotFound /\ relative_path t [] [0; 1]%nat = Some "reg.hi"%string
  | _ => False
  end.
Proof. vm_compute. repeat split. Qed.

Print Assumptions C34_addresses.
Print Assumptions C35_children.
Print Assumptions C35_elements.
Print Assumptions C36_blocks_partial.
Print Assumptions C36_refuted.
Print Assumptions C37_ids.
Print Assumptions C39_modes.
Print Assumptions C37_refused.
Print Assumptions C39_nodes.
Print Assumptions C39_elements.
Print Assumptions C31_built_trees.
Print Assumptions C33_built_copies.
