(** C117: the classes of the objects in a tree of nodes, and getNode<T>. *)
From Coq Require Import NArith List Bool String Ascii Permutation Sorted Lia PeanoNat.
From Verif Require Import Word NodeTree NodeProofs Prop_Node Rules Attr Builder BuildSpec BuilderProofs Prop_Builder Kinds KindsSpec KindsProofs.
Import ListNotations.
Open Scope N_scope.

Section Claims.
Variable kind : Type.
Variable plain : kind.
Variable copied : kind -> kind.
Variable parse_pars : string -> list (string * string).
Variable parse_fw : string -> option (string * list (string * string)).
Variable files : string -> string -> option (string * xml).
Variable sort : list node -> list node.
Variable t_sort : list (tnode kind) -> list (tnode kind).
Variable known : list (string * kind).
Variable is_a : kind -> kind -> bool.
Notation strip := (strip kind).
Notation t_kind := (t_kind kind).
Notation t_get := (t_get kind).
Notation t_clone := (t_clone kind copied).
Notation t_tree := (t_tree kind plain copied parse_pars parse_fw files t_sort known).
Notation get_as := (get_as kind is_a).
Notation get_node_tree := (get_node_tree parse_pars parse_fw files sort (is_known kind known)).
Notation describes := (describes parse_pars parse_fw files).
Notation given := (given kind plain files known).
Notation wanted := (wanted kind plain files known).
Notation unknown := (unknown kind known).
Notation names_class := (names_class kind known).

(** std::sort does not look at the classes and loses no node. *)
Hypothesis SORT : sort_ok sort.
Hypothesis SAME : forall l, map strip (t_sort l) = sort (map strip l).
Hypothesis PERM : forall l, Permutation (t_sort l) l.

(** Without the classes, the outcome is that of Builder.v: what is proved of those trees
    holds of these. *)
Theorem C117_same : forall fuel path expr,
  get_node_tree fuel path expr =
  match t_tree fuel path expr with BOk t => BOk (strip t) | BExc e => BExc e | BFuel => BFuel end.
Proof.
  intros fuel path expr. rewrite <- (strip_tree kind plain copied parse_pars parse_fw files sort t_sort known SAME).
  destruct (t_tree fuel path expr); reflexivity.
Qed.

(** The classes made with UHAL_REGISTER_DERIVED_NODE have their own clone(). *)
Hypothesis COPY_PLAIN : copied plain = plain.
Hypothesis COPY_KNOWN : forall s k, assoc s known = Some k -> copied k = k.

Lemma built : forall fuel path expr t, t_tree fuel path expr = BOk t ->
  wf (strip t) /\ exists path' x', files path expr = Some (path', x') /\ tdesc kind plain parse_pars parse_fw files known path' false x' t.
Proof. exact (t_tree_ok kind plain copied parse_pars parse_fw files sort t_sort known SORT SAME PERM COPY_PLAIN COPY_KNOWN). Qed.

(** Each element of the file has an object of the class it is given, and each object in
    the tree has the class given to the element that describes it. *)
Theorem C117_kinds : forall fuel path expr t, t_tree fuel path expr = BOk t ->
  exists path' x, files path expr = Some (path', x) /\
  (forall y, inside y x -> exists p n r, t_get t p = Some n /\ describes path' r y (strip n) /\ given path' y (t_kind n)) /\
  (forall p n, t_get t p = Some n -> exists q r y, reached files q y path' x /\ describes q r y (strip n) /\ given q y (t_kind n)).
Proof.
  intros fuel path expr t E. destruct (built _ _ _ _ E) as (_ & path' & x & FI & D). exists path', x. split; [exact FI|]. split.
  - intros y I. eapply tdesc_inside; eassumption.
  - intros p n G. eapply tdesc_node; eassumption.
Qed.

(** An element is given one class. *)
Theorem C117_one : forall path x k k', given path x k -> given path x k' -> k = k'.
Proof. intros path x k k' G G'. exact (given_one _ _ _ _ _ _ _ G _ G'). Qed.

(** getNode<T>: for an id that leads nowhere the exception of getNode; otherwise the node
    or BadNodeCast, as the class given to the element is a T or not. *)
Theorem C117_get : forall fuel path expr t, t_tree fuel path expr = BOk t -> forall id T,
  match get_node (strip t) id with
  | NotFound => get_as t id T = GNoBranch
  | Found p => exists n path' x q r y, t_get t p = Some n /\ files path expr = Some (path', x) /\
      reached files q y path' x /\ describes q r y (strip n) /\
      forall k, given q y k -> get_as t id T = if is_a k T then GNode p else GBadCast
  | Dangling => False
  end.
Proof.
  intros fuel path expr t E id T. destruct (built _ _ _ _ E) as (W & path' & x & FI & D).
  destruct (C29_has_node _ id W) as (b & _ & B1 & B2). destruct (get_node (strip t) id) as [p| |] eqn:G.
  - destruct b; [|discriminate (proj1 B2 eq_refl)].
    destruct (proj1 B1 eq_refl) as (p' & n' & X & GN). injection X as <-.
    rewrite strip_get in GN. destruct (t_get t p) as [n|] eqn:TG; [|discriminate].
    destruct (tdesc_node _ _ _ _ _ _ _ _ _ _ D _ _ TG) as (q & r & y & RE & DE & GI).
    exists n, path', x, q, r, y. repeat (split; [first [reflexivity|assumption]|]).
    intros k K. rewrite (C117_one _ _ _ _ K GI). unfold Kinds.get_as. rewrite G, TG. reflexivity.
  - unfold Kinds.get_as. rewrite G. reflexivity.
  - destruct b; [destruct (proj1 B1 eq_refl) as (? & ? & X & _); discriminate|discriminate (proj1 B2 eq_refl)].
Qed.

(** Copies of the tree, copies of copies and so on have objects of the same classes in
    the same places. *)
Theorem C117_copies : forall fuel path expr t j, t_tree fuel path expr = BOk t ->
  forall p, option_map t_kind (t_get (Nat.iter j t_clone t) p) = option_map t_kind (t_get t p).
Proof.
  intros fuel path expr t j E. destruct (built _ _ _ _ E) as (_ & path' & x & _ & D).
  assert (F : fx kind copied t) by (eapply tdesc_fx; eassumption). clear E D.
  assert (ONE : forall p u, fx kind copied u -> option_map t_kind (t_get (t_clone u) p) = option_map t_kind (t_get u p)).
  { assert (W : forall p u f, p <> [] -> t_get (t_with kind u f) p = t_get u p) by (intros [|i p] u f; [contradiction|reflexivity]).
    induction p as [|i p IH]; intros [a k m ch] FU; inversion FU as [? C FC]; subst; cbn [Kinds.t_clone Kinds.t_get Kinds.t_ch Kinds.t_kind option_map] in *.
    - rewrite C. reflexivity.
    - rewrite nth_error_map. destruct (nth_error ch i) as [c|] eqn:NT; [|reflexivity]. cbn [option_map].
      rewrite Forall_forall in FC. assert (FX := FC _ (nth_error_In _ _ NT)). rewrite <- (IH c FX).
      destruct p as [|i' p]; [reflexivity|]. rewrite W by discriminate. reflexivity. }
  assert (KEEP : forall u, fx kind copied u -> fx kind copied (t_clone u)).
  { apply (tnode_ind2 kind (fun u => fx kind copied u -> fx kind copied (t_clone u))). intros a k m ch FO FU. inversion FU as [? C FC]; subst.
    cbn [Kinds.t_kind Kinds.t_ch] in *. constructor; cbn [Kinds.t_clone Kinds.t_kind Kinds.t_ch]; [congruence|].
    apply Forall_forall. intros d I. apply in_map_iff in I. destruct I as (c & <- & I). rewrite Forall_forall in FO, FC.
    assert (X := FO c I (FC c I)). inversion X; subst. constructor; assumption. }
  assert (K : fx kind copied (Nat.iter j t_clone t) /\ forall p, option_map t_kind (t_get (Nat.iter j t_clone t) p) = option_map t_kind (t_get t p)).
  { induction j as [|j IH]; [auto|]. destruct IH as (F1 & IH). change (Nat.iter (S j) t_clone t) with (t_clone (Nat.iter j t_clone t)).
    split; [auto|]. intros p. rewrite ONE by exact F1. apply IH. }
  exact (proj2 K).
Qed.

Lemma names_cases x : (exists k, names_class x k) \/ unknown x \/ silent x.
Proof.
  unfold KindsSpec.names_class, KindsSpec.unknown, silent. destruct (attribute x "class") as [[|a c]|]; auto.
  destruct (assoc (String a c) known) as [k|] eqn:A; [left; exists k|right; left]; exists (String a c); repeat split; auto; discriminate.
Qed.

Lemma reached_trans q y p1 x1 p2 x2 : reached files q y p1 x1 -> reached files p1 x1 p2 x2 -> reached files q y p2 x2.
Proof. intros R. induction 1; [exact R|eapply re_child; eassumption|eapply re_module; eassumption]. Qed.

Lemma given_wanted q y k : given q y k ->
  (forall q' z, reached files q' z q y -> attribute z "module" <> None -> ~ unknown z) -> wanted q y k.
Proof.
  induction 1 as [q y k N|q y NO M|q y e q' z k NO M FI G IH]; intros H.
  - apply w_class. exact N.
  - destruct (names_cases y) as [(k & X)|[X|X]]; [destruct (NO _ X)|apply w_unknown; exact X|apply w_plain; assumption].
  - destruct (names_cases y) as [(k' & X)|[X|X]]; [destruct (NO _ X)| |].
    + destruct (H q y); [constructor|congruence|exact X].
    + eapply w_module; eauto. apply IH. intros q1 z1 R. apply (H q1). eapply re_module; eassumption.
Qed.

(** If no element that includes a module names an unknown class, every object has the
    class asked for. *)
Theorem C117_wanted_partial : forall fuel path expr t path' x, t_tree fuel path expr = BOk t -> files path expr = Some (path', x) ->
  (forall q y, reached files q y path' x -> attribute y "module" <> None -> ~ unknown y) ->
  forall p n, t_get t p = Some n -> exists q r y, reached files q y path' x /\ describes q r y (strip n) /\ wanted q y (t_kind n).
Proof.
  intros fuel path expr t path' x E FI H p n G. destruct (C117_kinds _ _ _ _ E) as (p1 & x1 & FI1 & _ & K).
  rewrite FI in FI1. injection FI1 as <- <-. destruct (K p n G) as (q & r & y & R & D & GI). exists q, r, y.
  split; [exact R|]. split; [exact D|]. apply given_wanted; [exact GI|]. intros q' z R'. apply (H q'). eapply reached_trans; eassumption.
Qed.

Lemma unknown_names x : unknown x -> forall k, ~ names_class x k.
Proof. intros (c & A & _ & N) k (c' & A' & _ & N'). congruence. Qed.

(** The object for an element that names an unknown class and includes a module whose top
    element names a known one has the latter class, not that of a plain Node. *)
Theorem C117_unknown_refuted : forall fuel path expr t path' x, t_tree fuel path expr = BOk t -> files path expr = Some (path', x) ->
  forall y e q z k, inside y x -> unknown y -> attribute y "module" = Some e -> files path' e = Some (q, z) ->
  names_class z k -> k <> plain ->
  exists p n r, t_get t p = Some n /\ describes path' r y (strip n) /\ wanted path' y plain /\ t_kind n = k /\ ~ wanted path' y (t_kind n).
Proof.
  intros fuel path expr t path' x E FI y e q z k IN U M FM NC NP. destruct (C117_kinds _ _ _ _ E) as (p1 & x1 & FI1 & H & _).
  rewrite FI in FI1. injection FI1 as <- <-. destruct (H y IN) as (p & n & r & G & D & K). exists p, n, r.
  assert (NO := unknown_names _ U).
  assert (EK : t_kind n = k) by (eapply C117_one; [exact K|]; eapply g_module; eauto; apply g_class; exact NC).
  split; [exact G|]. split; [exact D|]. split; [apply w_unknown; exact U|]. split; [exact EK|].
  rewrite EK. intros X. destruct U as (c & A & NE & _).
  inversion X as [? ? ? X1|? ? X1|? ? X1|? ? ? ? ? ? [X1|X1]]; subst; [exact (NO _ X1)|contradiction|contradiction|congruence|congruence].
Qed.

(** The class name of an object is not always that of its class: without a class attribute
    an object that got its class from a module has an empty class name. *)
Theorem C117_name_refuted : forall fuel path expr t path' x, t_tree fuel path expr = BOk t -> files path expr = Some (path', x) ->
  forall y e q z k, inside y x -> attribute y "class" = None -> attribute y "module" = Some e -> files path' e = Some (q, z) ->
  names_class z k ->
  exists p n r, t_get t p = Some n /\ describes path' r y (strip n) /\ t_kind n = k /\ a_class (n_at (strip n)) = EmptyString.
Proof.
  intros fuel path expr t path' x E FI y e q z k IN A M FM NC. destruct (C117_kinds _ _ _ _ E) as (p1 & x1 & FI1 & H & _).
  rewrite FI in FI1. injection FI1 as <- <-. destruct (H y IN) as (p & n & r & G & D & K). exists p, n, r.
  split; [exact G|]. split; [exact D|]. split.
  - eapply C117_one; [exact K|]. eapply g_module; eauto; [|apply g_class; exact NC]. intros k' (c & B & _). congruence.
  - assert (T : text_of y "class" (a_class (n_at (strip n)))) by (inversion D as [? ? ? ? ? _ C|? ? ? ? _ _ C|? ? ? ? ? ? ? ? ? _ _ _ _ C]; exact (co_class _ _ _ _ _ _ _ C)).
    destruct T as [T|(_ & T)]; [congruence|exact T].
Qed.
End Claims.

(** However often names are registered, the first registration of a name is the one used. *)
Theorem C117_registry : forall (K : Type) (calls : list (string * K)) name,
  assoc name (fold_left (fun m c => add K m (fst c) (snd c)) calls []) = first_added calls name.
Proof.
  intros K calls name.
  assert (G : forall m, assoc name (fold_left (fun m c => add K m (fst c) (snd c)) calls m) =
    match assoc name m with Some k => Some k | None => first_added calls name end).
  { induction calls as [|(s, k) r IH]; intros m; cbn [fold_left first_added fst snd]; [destruct (assoc name m); reflexivity|].
    rewrite IH. unfold add. destruct (assoc s m) as [k'|] eqn:A.
    - destruct (assoc name m) eqn:B; [reflexivity|]. destruct (String.eqb_spec name s) as [->|]; [congruence|reflexivity].
    - cbn [assoc]. destruct (String.eqb_spec name s) as [->|NE]; [rewrite A; reflexivity|reflexivity]. }
  rewrite G. reflexivity.
Qed.

(** ** Examples *)

(** Classes as numbers: 0 is Node, 1 and 2 are derived from it. *)
Definition ex_known : list (string * nat) := fold_left (fun m c => add nat m (fst c) (snd c)) [("Clock", 1); ("Link", 2); ("Clock", 2)]%string%nat [].
Definition ex_is_a (k T : nat) : bool := (Nat.eqb T 0 || Nat.eqb k T)%bool.

Example C117_registry_case : assoc "Clock"%string ex_known = Some 1%nat /\ assoc "Link"%string ex_known = Some 2%nat /\ assoc "Fan"%string ex_known = None.
Proof. vm_compute. auto. Qed.

(** The insertion sort of Prop_Builder.v on nodes with classes. *)
Fixpoint t_insert (c : tnode nat) (l : list (tnode nat)) : list (tnode nat) :=
  match l with
  | [] => [c]
  | d :: r => if a_addr (t_at nat c) <=? a_addr (t_at nat d) then c :: d :: r else d :: t_insert c r
  end.
Definition t_sorted (l : list (tnode nat)) : list (tnode nat) := fold_right t_insert [] l.

Lemma t_sorted_same l : map (strip nat) (t_sorted l) = sort_nodes (map (strip nat) l).
Proof.
  induction l as [|c l IH]; [reflexivity|]. cbn [t_sorted fold_right map sort_nodes]. fold (t_sorted l). fold (sort_nodes (map (strip nat) l)). rewrite <- IH.
  generalize (t_sorted l). intros r. induction r as [|d r IHr]; [reflexivity|]. cbn [t_insert map insert_node]. rewrite !strip_at.
  destruct (_ <=? _); [reflexivity|]. cbn [map]. rewrite IHr. reflexivity.
Qed.
Lemma t_sorted_perm l : Permutation (t_sorted l) l.
Proof.
  induction l as [|c l IH]; [constructor|]. cbn [t_sorted fold_right]. fold (t_sorted l).
  apply Permutation_trans with (c :: t_sorted l); [|apply perm_skip; exact IH]. clear IH.
  generalize (t_sorted l). intros r. induction r as [|d r IHr]; cbn [t_insert]; [apply Permutation_refl|].
  destruct (_ <=? _); [apply Permutation_refl|]. eapply Permutation_trans; [apply perm_skip; exact IHr|apply perm_swap].
Qed.

(** Elements with classes, one unknown, and modules whose top element is a Clock. *)
Definition ex_board : xml :=
 (Xml [("id", "TOP")]
    [Xml [("id", "link"); ("address", "0x40"); ("class", "Link")] [Xml [("id", "lo"); ("mask", "0xF")] []];
     Xml [("id", "clk"); ("address", "0x30"); ("module", "file://clk.xml")] [];
     Xml [("id", "odd"); ("address", "0x20"); ("module", "file://clk.xml"); ("class", "Fan")] [];
     Xml [("id", "both"); ("address", "0x10"); ("module", "file://clk.xml"); ("class", "Link")] [];
     Xml [("id", "fan"); ("address", "1"); ("class", "Fan")] []])%string.
Definition ex_clk : xml := (Xml [("class", "Clock")] [Xml [("id", "div"); ("address", "2"); ("class", "Link")] []])%string.
Definition ex_cfiles (path expr : string) : option (string * xml) :=
  if String.eqb expr "file://board.xml" then Some ("board.xml"%string, ex_board)
  else if String.eqb expr "file://clk.xml" then Some ("clk.xml"%string, ex_clk) else None.
Definition ex_t : bres (tnode nat) :=
  t_tree nat 0%nat (fun k => k) (fun _ => []) (fun s => Some (s, [])) ex_cfiles t_sorted ex_known 3 EmptyString "file://board.xml".
Definition asks (id : string) (T : nat) : option got :=
  match ex_t with BOk t => Some (get_as nat ex_is_a t id T) | _ => None end.

(** The hypotheses of the theorems above, and what they say of this table. *)
Example C117_case :
  sort_ok sort_nodes /\ (forall l, map (strip nat) (t_sorted l) = sort_nodes (map (strip nat) l)) /\ (forall l, Permutation (t_sorted l) l) /\
  (exists t, ex_t = BOk t /\ map (t_kind nat) (t_ch nat t) = [0; 2; 1; 1; 2]%nat /\
    map (fun c => a_class (t_at nat c)) (t_ch nat t) = ["Fan"; "Link"; "Fan"; ""; "Link"]%string /\
    option_map (t_kind nat) (t_get nat (Nat.iter 3 (t_clone nat (fun k => k)) t) [3; 0]%nat) = Some 2%nat) /\
  asks "link" 2 = Some (GNode [4]%nat) /\ asks "link" 1 = Some GBadCast /\ asks "link.lo" 0 = Some (GNode [4; 0]%nat) /\ asks "link.lo" 2 = Some GBadCast /\
  asks "clk.div" 2 = Some (GNode [3; 0]%nat) /\ asks "clk.mul" 2 = Some GNoBranch /\ asks "fan" 1 = Some GBadCast /\ asks "fan" 0 = Some (GNode [0]%nat).
Proof.
  split; [apply sort_nodes_ok|]. split; [apply t_sorted_same|]. split; [apply t_sorted_perm|]. split.
  - destruct ex_t as [t| |] eqn:E; [|vm_compute in E; discriminate|vm_compute in E; discriminate].
    exists t. split; [reflexivity|]. vm_compute in E. injection E as <-. vm_compute. auto.
  - vm_compute. repeat split.
Qed.

Example C117_one_case : given nat 0%nat ex_cfiles ex_known "board.xml" (Xml [("id", "clk"); ("module", "file://clk.xml")]%string []) 1%nat.
Proof.
  eapply g_module with (path' := "clk.xml"%string) (x' := ex_clk).
  - intros k (c & A & _). discriminate.
  - reflexivity.
  - reflexivity.
  - apply g_class. exists "Clock"%string. split; [reflexivity|]. split; [discriminate|reflexivity].
Qed.

(** The element "odd" meets the hypotheses of C117_unknown_refuted, "clk" those of
    C117_name_refuted; the classes and class names of their objects are in C117_case. *)
Example C117_refuted_case :
  (let y := nth 2 (x_ch ex_board) ex_clk in inside y ex_board /\ unknown nat ex_known y /\ attribute y "module" = Some "file://clk.xml"%string) /\
  (let y := nth 1 (x_ch ex_board) ex_clk in inside y ex_board /\ attribute y "class" = None /\ attribute y "module" = Some "file://clk.xml"%string) /\
  ex_cfiles "board.xml" "file://clk.xml" = Some ("clk.xml"%string, ex_clk) /\ names_class nat ex_known ex_clk 1%nat /\ 1%nat <> 0%nat.
Proof.
  cbv zeta. split; [|split; [|split; [reflexivity|split; [|discriminate]]]].
  - split; [|split; [|reflexivity]].
    + apply in_child with (nth 2 (x_ch ex_board) ex_clk); [reflexivity|cbn; auto|constructor].
    + exists "Fan"%string. split; [reflexivity|]. split; [discriminate|reflexivity].
  - split; [|split; reflexivity]. apply in_child with (nth 1 (x_ch ex_board) ex_clk); [reflexivity|cbn; auto|constructor].
  - exists "Clock"%string. split; [reflexivity|]. split; [discriminate|reflexivity].
Qed.

(** A file as C117_wanted_partial wants it: a module with a class, and an unknown class at
    an element without one. *)
Definition ex_good : xml :=
 (Xml [("id", "TOP")]
    [Xml [("id", "clk"); ("address", "0x30"); ("module", "file://clk.xml")] []; Xml [("id", "fan"); ("address", "1"); ("class", "Fan")] []])%string.
Definition ex_gfiles (path expr : string) : option (string * xml) :=
  if String.eqb expr "file://good.xml" then Some ("good.xml"%string, ex_good)
  else if String.eqb expr "file://clk.xml" then Some ("clk.xml"%string, ex_clk) else None.
Example C117_wanted_case :
  (forall q y, reached ex_gfiles q y "good.xml" ex_good -> attribute y "module" <> None -> ~ unknown nat ex_known y) /\
  (exists t, t_tree nat 0%nat (fun k => k) (fun _ => []) (fun s => Some (s, [])) ex_gfiles t_sorted ex_known 3 EmptyString "file://good.xml" = BOk t /\
   map (t_kind nat) (t_ch nat t) = [0; 1]%nat) /\
  wanted nat 0%nat ex_gfiles ex_known "good.xml" (nth 0 (x_ch ex_good) ex_clk) 1%nat.
Proof.
  split; [|split].
  - assert (K : forall q y p x, reached ex_gfiles q y p x -> (In x (ex_good :: x_ch ex_good) \/ In x (ex_clk :: x_ch ex_clk)) ->
      In y (ex_good :: x_ch ex_good) \/ In y (ex_clk :: x_ch ex_clk)).
    { intros q y p x. induction 1 as [|p x c IC R IH|p x e p' x' M FI R IH]; intros I; [exact I| |]; apply IH.
      - cbn in I. destruct I as [[<-|[<-|[<-|[]]]]|[<-|[<-|[]]]]; cbn in IC; try contradiction; [left|right]; right; exact IC.
      - unfold ex_gfiles in FI. destruct (String.eqb e "file://good.xml"); [injection FI as <- <-; left; left; reflexivity|].
        destruct (String.eqb e "file://clk.xml"); [injection FI as <- <-; right; left; reflexivity|discriminate]. }
    intros q y R M (c & A & _). assert (I := K _ _ _ _ R (or_introl (or_introl eq_refl))). cbn in I.
    destruct I as [[<-|[<-|[<-|[]]]]|[<-|[<-|[]]]]; cbn in M, A; try discriminate; apply M; reflexivity.
  - eexists. split; [vm_compute; reflexivity|reflexivity].
  - apply w_module with (expr := "file://clk.xml"%string) (path' := "clk.xml"%string) (x' := ex_clk); try reflexivity; [left; reflexivity|].
    apply w_class. exists "Clock"%string. split; [reflexivity|]. split; [discriminate|reflexivity].
Qed.

Print Assumptions C117_same.
Print Assumptions C117_kinds.
Print Assumptions C117_one.
Print Assumptions C117_get.
Print Assumptions C117_copies.
Print Assumptions C117_wanted_partial.
Print Assumptions C117_unknown_refuted.
Print Assumptions C117_name_refuted.
Print Assumptions C117_registry.
