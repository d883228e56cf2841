(** Lemmas for C117. *)
From Coq Require Import NArith List Bool String Ascii Permutation Lia PeanoNat.
From Verif Require Import Word NodeTree NodeProofs Rules Attr Builder BuildSpec BuilderProofs Prop_Builder Kinds KindsSpec.
Import ListNotations.
Open Scope N_scope.

Section Proofs.
Variable kind : Type.
Variable plain : kind.
Variable copied : kind -> kind.
Variable parse_pars : string -> list (string * string).
Variable parse_fw : string -> option (string * list (string * string)).
Variable files : string -> string -> option (string * xml).
Variable sort : list node -> list node.
Variable t_sort : list (tnode kind) -> list (tnode kind).
Variable known : list (string * kind).

Notation tnode := (tnode kind).
Notation strip := (strip kind).
Notation t_kind := (t_kind kind).
Notation t_ch := (t_ch kind).
Notation t_at := (t_at kind).
Notation t_map := (t_map kind).
Notation t_with := (t_with kind).
Notation t_clone := (t_clone kind copied).
Notation t_convert := (t_convert kind copied known).
Notation t_number := (t_number kind).
Notation t_element := (t_element kind plain copied parse_pars parse_fw known).
Notation t_calculate := (t_calculate kind t_sort).
Notation t_tree := (t_tree kind plain copied parse_pars parse_fw files t_sort known).
Definition is_known (s : string) : bool := match assoc s known with Some _ => true | None => false end.
Notation element := (element parse_pars parse_fw is_known).
Notation calculate := (calculate sort).
Notation get_node_tree := (get_node_tree parse_pars parse_fw files sort is_known).
Notation describes := (describes parse_pars parse_fw files).
Notation given := (given kind plain files known).

(** std::sort does not look at classes, and loses no node. *)
Hypothesis SORT : sort_ok sort.
Hypothesis SAME : forall l, map strip (t_sort l) = sort (map strip l).
Hypothesis PERM : forall l, Permutation (t_sort l) l.

Lemma tnode_ind2 (P : tnode -> Prop) : (forall a k m ch, Forall P ch -> P (TNode kind a k m ch)) -> forall t, P t.
Proof. intros H. fix IH 1. intros [a k m ch]. apply H. induction ch; constructor; auto. Qed.

(** ** Without the classes it is the builder of Builder.v *)
Definition bmap {A B} (f : A -> B) (r : bres A) : bres B := match r with BOk x => BOk (f x) | BExc e => BExc e | BFuel => BFuel end.

Lemma strip_at t : n_at (strip t) = t_at t. Proof. destruct t; reflexivity. Qed.
Lemma strip_map t : n_map (strip t) = t_map t. Proof. destruct t; reflexivity. Qed.
Lemma strip_ch t : n_ch (strip t) = map strip (t_ch t). Proof. destruct t; reflexivity. Qed.
Lemma strip_with t f : strip (t_with t f) = with_attrs (strip t) f.
Proof. destruct t; reflexivity. Qed.

Lemma strip_clone : forall t, strip (t_clone t) = clone (strip t).
Proof.
  apply tnode_ind2. intros a k m ch F. cbn [Kinds.t_clone Kinds.strip clone].
  assert (E : map strip (map (fun c => t_with (t_clone c) (fun b => set_linked b true)) ch) =
    map (fun c => match clone c with Node b m cs => Node (set_linked b true) m cs end) (map strip ch)).
  { rewrite !map_map. apply map_ext_Forall. eapply Forall_impl; [|exact F]. cbn beta. intros c E. rewrite strip_with, E. destruct (clone (strip c)); reflexivity. }
  rewrite E. reflexivity.
Qed.

Lemma strip_convert t : strip (t_convert t) = convert is_known (strip t).
Proof.
  unfold Kinds.t_convert, convert. rewrite strip_at. destruct (Nat.eqb _ 0); [reflexivity|]. unfold is_known.
  destruct (assoc _ known) as [k|]; [|reflexivity]. rewrite <- strip_clone. destruct (t_clone t); reflexivity.
Qed.

Lemma strip_number : forall l i, map strip (t_number i l) = number i (map strip l).
Proof. induction l as [|c l IH]; intros i; [reflexivity|]. cbn [Kinds.t_number map number]. rewrite strip_with, IH. reflexivity. Qed.

Lemma bmap_bind {A B C D} (f : A -> B) (g : C -> D) (r : bres A) (h : A -> bres C) (h' : B -> bres D) :
  (forall x, r = BOk x -> bmap g (h x) = h' (f x)) -> bmap g (bind r h) = bind (bmap f r) h'.
Proof. destruct r as [x| |]; cbn; auto. Qed.

Lemma mapM_strip {A} (f : A -> bres tnode) (g : A -> bres node) l : Forall (fun x => bmap strip (f x) = g x) l -> bmap (map strip) (mapM f l) = mapM g l.
Proof.
  induction 1 as [|x l E F IH]; [reflexivity|]. cbn [mapM]. fold (mapM f l). fold (mapM g l).
  rewrite <- E. destruct (f x); cbn [bind bmap]; [|reflexivity|reflexivity]. rewrite <- IH. destruct (mapM f l); reflexivity.
Qed.

Lemma mapM_map {A B C} (h : A -> B) (g : B -> bres C) l : mapM g (map h l) = mapM (fun x => g (h x)) l.
Proof. induction l as [|x l IH]; [reflexivity|]. cbn [map mapM]. fold (mapM g (map h l)). fold (mapM (fun x => g (h x)) l). rewrite IH. reflexivity. Qed.

Lemma t_element_eq load path req l xs : t_element load path req (Xml l xs) =
  match (if req then node_parser else top_parser) with
  | None => BExc (Parser_exc LengthError)
  | Some p =>
      match parse p (map fst l) with
      | Run O =>
          bind (plain_attrs parse_pars parse_fw path req (Xml l xs)) (fun a =>
              if mode_eqb (a_mode a) NON_INCREMENTAL then
                match xs with
                | [] => BOk (t_convert (TNode kind a plain [] []))
                | _ :: _ => BExc BlockAccessNodeCannotHaveChild
                end
              else
                bind (mapM (t_element load path true) xs) (fun cs =>
                let ch := t_number 0 cs in
                BOk (t_convert (TNode kind a plain (children_map (map strip ch)) ch))))
      | Run 1 => bind (mask_node parse_pars parse_fw path req (Xml l xs)) (fun n => BOk (TNode kind (n_at n) plain [] []))
      | Run _ =>
          bind (load path (attr_str (Xml l xs) "module")) (fun t =>
          bind (module_attrs parse_pars parse_fw path req (Xml l xs) (t_at t)) (fun a =>
          BOk (t_convert (TNode kind a (t_kind t) (t_map t) (t_ch t)))))
      | e => BExc (Parser_exc e)
      end
  end.
Proof. reflexivity. Qed.
Lemma element_eq load path req l xs : element load path req (Xml l xs) =
  match (if req then node_parser else top_parser) with
  | None => BExc (Parser_exc LengthError)
  | Some p =>
      match parse p (map fst l) with
      | Run O =>
          bind (plain_attrs parse_pars parse_fw path req (Xml l xs)) (fun a =>
              if mode_eqb (a_mode a) NON_INCREMENTAL then
                match xs with
                | [] => BOk (convert is_known (Node a [] []))
                | _ :: _ => BExc BlockAccessNodeCannotHaveChild
                end
              else
                bind (mapM (element load path true) xs) (fun cs =>
                let ch := number 0 cs in
                BOk (convert is_known (Node a (children_map ch) ch))))
      | Run 1 => mask_node parse_pars parse_fw path req (Xml l xs)
      | Run _ =>
          bind (load path (attr_str (Xml l xs) "module")) (fun t =>
          bind (module_attrs parse_pars parse_fw path req (Xml l xs) (n_at t)) (fun a =>
          BOk (convert is_known (Node a (n_map t) (n_ch t)))))
      | e => BExc (Parser_exc e)
      end
  end.
Proof. reflexivity. Qed.

Lemma mask_node_bare path req x n : mask_node parse_pars parse_fw path req x = BOk n -> n = Node (n_at n) [] [].
Proof.
  unfold mask_node. destruct (x_ch x); [|discriminate]. intros E. repeat (apply bind_ok in E; destruct E as (? & _ & E)). injection E as <-. reflexivity.
Qed.

Lemma strip_module t_load load path req x : bmap strip (t_load path (attr_str x "module")) = load path (attr_str x "module") ->
  bmap strip (bind (t_load path (attr_str x "module")) (fun t =>
          bind (module_attrs parse_pars parse_fw path req x (t_at t)) (fun a =>
          BOk (t_convert (TNode kind a (t_kind t) (t_map t) (t_ch t)))))) =
  bind (load path (attr_str x "module")) (fun t =>
          bind (module_attrs parse_pars parse_fw path req x (n_at t)) (fun a =>
          BOk (convert is_known (Node a (n_map t) (n_ch t))))).
Proof.
  intros <-. apply bmap_bind. intros t _. rewrite strip_at, strip_map, strip_ch. destruct (module_attrs _ _ _ _ _ _); cbn [bind bmap]; [|reflexivity|reflexivity].
  rewrite strip_convert. reflexivity.
Qed.

Lemma strip_element t_load load : (forall p e, bmap strip (t_load p e) = load p e) ->
  forall x path req, bmap strip (t_element t_load path req x) = element load path req x.
Proof.
  intros L. apply (xml_ind2 (fun x => forall path req, bmap strip (t_element t_load path req x) = element load path req x)).
  intros l xs F path req. rewrite t_element_eq, element_eq.
  destruct (if req then node_parser else top_parser) as [p|]; [|reflexivity].
  destruct (parse p (map fst l)) as [[|[|k]]| | | |]; try reflexivity.
  - destruct (plain_attrs _ _ _ _ _) as [a| |]; cbn [bind bmap]; [|reflexivity|reflexivity].
    destruct (mode_eqb _ _).
    + destruct xs; [|reflexivity]. cbn [bmap]. rewrite strip_convert. reflexivity.
    + rewrite <- (mapM_strip (t_element t_load path true) (element load path true) xs) by (eapply Forall_impl; [|exact F]; cbn beta; intros c H; apply H).
      destruct (mapM (t_element t_load path true) xs) as [cs| |]; cbn [bind bmap]; [|reflexivity|reflexivity]. cbv zeta.
      rewrite strip_convert. cbn [Kinds.strip]. rewrite strip_number. reflexivity.
  - destruct (mask_node _ _ _ _ _) as [n| |] eqn:E; cbn [bind bmap]; [|reflexivity|reflexivity]. cbn [Kinds.strip map].
    rewrite <- (mask_node_bare _ _ _ _ E). reflexivity.
  - apply strip_module, L.
Qed.

Lemma strip_calculate : forall t addr, bmap strip (t_calculate t addr) = calculate (strip t) addr.
Proof.
  apply (tnode_ind2 (fun t => forall addr, bmap strip (t_calculate t addr) = calculate (strip t) addr)). intros a k m ch F addr.
  cbn [Kinds.t_calculate Kinds.strip Builder.calculate]. destruct (_ && _); [reflexivity|].
  set (a1 := a_addr _). clearbody a1.
  assert (E : forall c, In c ch -> bmap strip (bind (t_calculate c a1) (fun c' => BOk (t_with c' (fun b => set_linked b true)))) =
     bind (calculate (strip c) a1) (fun c' => BOk (with_attrs c' (fun b => set_linked b true)))).
  { intros c I. rewrite Forall_forall in F. rewrite <- (F c I). destruct (t_calculate c a1); cbn [bind bmap]; [rewrite strip_with|..]; reflexivity. }
  assert (M : bmap (map strip) (mapM (fun c => bind (t_calculate c a1) (fun c' => BOk (t_with c' (fun b => set_linked b true)))) ch) =
     mapM (fun c => bind (calculate c a1) (fun c' => BOk (with_attrs c' (fun b => set_linked b true)))) (map strip ch)).
  { rewrite mapM_map. apply mapM_strip, Forall_forall. exact E. }
  rewrite <- M. destruct (mapM _ ch) as [cs| |]; cbn [bind bmap]; [|reflexivity|reflexivity]. cbn [Kinds.strip]. rewrite SAME. reflexivity.
Qed.

Lemma strip_tree : forall fuel path expr, bmap strip (t_tree fuel path expr) = get_node_tree fuel path expr.
Proof.
  induction fuel as [|f IH]; intros path expr; [reflexivity|]. cbn [Kinds.t_tree Builder.get_node_tree].
  destruct (files path expr) as [(path', x)|]; [|reflexivity]. unfold t_build, build.
  rewrite <- (strip_element (t_tree f) (get_node_tree f) IH). destruct (t_element (t_tree f) path' false x) as [t| |]; cbn [bind bmap]; [|reflexivity|reflexivity].
  rewrite <- strip_calculate. destruct (t_calculate t 0) as [u| |]; cbn [bind bmap]; [|reflexivity|reflexivity]. rewrite strip_clone. reflexivity.
Qed.

(** ** The classes *)

Lemma given_one path x k : given path x k -> forall k', given path x k' -> k = k'.
Proof.
  induction 1 as [path x k (c & A & NE & K)|path x NC NM|path x e p' x' k NC M FI G IH]; intros k' G'.
  - inversion G' as [? ? ? (c' & A' & _ & K')|? ? NC'|? ? ? ? ? ? NC']; subst; [congruence| |]; exfalso; apply (NC' k); exists c; auto.
  - inversion G'; subst; [exfalso; eapply NC; eassumption|reflexivity|congruence].
  - inversion G'; subst; [exfalso; eapply NC; eassumption|congruence|]. apply IH. congruence.
Qed.

(** clone() of the known classes and of Node gives an object of the same class
    (UHAL_REGISTER_DERIVED_NODE defines clone(), DerivedNode.hpp 53-65). *)
Hypothesis COPY_PLAIN : copied plain = plain.
Hypothesis COPY_KNOWN : forall s k, assoc s known = Some k -> copied k = k.

(** The tree, as in [describes], with the classes. *)
Inductive tdesc : string -> bool -> xml -> tnode -> Prop :=
| td_own path req x t ch : describes path req x (strip t) -> attribute x "module" = None -> given path x (t_kind t) ->
    Forall2 (tdesc path true) (x_ch x) ch -> Permutation ch (t_ch t) -> tdesc path req x t
| td_mod path req x t expr path' x' a0 k0 m0 : describes path req x (strip t) -> attribute x "module" = Some expr ->
    files path expr = Some (path', x') -> tdesc path' false x' (TNode kind a0 k0 m0 (t_ch t)) ->
    given path x (t_kind t) -> tdesc path req x t.

Lemma tdesc_ind2 (P : string -> bool -> xml -> tnode -> Prop) :
  (forall path req x t ch, describes path req x (strip t) -> attribute x "module" = None -> given path x (t_kind t) ->
    Forall2 (fun y c => tdesc path true y c /\ P path true y c) (x_ch x) ch -> Permutation ch (t_ch t) -> P path req x t) ->
  (forall path req x t expr path' x' a0 k0 m0, describes path req x (strip t) -> attribute x "module" = Some expr ->
    files path expr = Some (path', x') -> tdesc path' false x' (TNode kind a0 k0 m0 (t_ch t)) -> P path' false x' (TNode kind a0 k0 m0 (t_ch t)) ->
    given path x (t_kind t) -> P path req x t) ->
  forall path req x t, tdesc path req x t -> P path req x t.
Proof.
  intros H1 H2. fix IH 5. intros path req x t D. destruct D as [path req x t ch D NM G F PM|path req x t e p' x' a0 k0 m0 D A FI T G].
  - apply (H1 path req x t ch); auto. clear - F IH. induction F; constructor; auto.
  - eapply H2; eauto.
Qed.

Lemma tdesc_given path req x t : tdesc path req x t -> given path x (t_kind t).
Proof. destruct 1; assumption. Qed.
Lemma tdesc_describes path req x t : tdesc path req x t -> describes path req x (strip t).
Proof. destruct 1; assumption. Qed.

Lemma given_fixed path x k : given path x k -> copied k = k.
Proof. induction 1 as [path x k (c & _ & _ & A)| |]; eauto. Qed.

(** Every class in the tree is kept by clone(). *)
Inductive fx : tnode -> Prop := fx_node t : copied (t_kind t) = t_kind t -> Forall fx (t_ch t) -> fx t.

Lemma tdesc_fx : forall path req x t, tdesc path req x t -> fx t.
Proof.
  apply (tdesc_ind2 (fun _ _ _ t => fx t)).
  - intros path req x t ch D NM G F PM. constructor; [eapply given_fixed; exact G|]. apply Forall_forall. intros c I.
    apply (Permutation_in _ (Permutation_sym PM)) in I. destruct (Forall2_in _ _ _ _ F I) as (y & _ & _ & X). exact X.
  - intros path req x t e p' x' a0 k0 m0 D A FI T IH G. constructor; [eapply given_fixed; exact G|]. inversion IH; assumption.
Qed.

(** Trees up to absolute addresses and the order of the children. *)
Inductive talike : tnode -> tnode -> Prop :=
| talike_node t t' ch1 : t_kind t' = t_kind t -> alike (strip t) (strip t') -> Forall2 talike (t_ch t) ch1 -> Permutation ch1 (t_ch t') -> talike t t'.

Lemma talike_alike t t' : talike t t' -> alike (strip t) (strip t').
Proof. destruct 1; assumption. Qed.

Lemma Forall2_map2 {A B C D} (R : A -> B -> Prop) (Q : C -> D -> Prop) f g l r : (forall x y, R x y -> Q (f x) (g y)) -> Forall2 R l r -> Forall2 Q (map f l) (map g r).
Proof. intros H. induction 1; constructor; auto. Qed.

Lemma tdesc_talike : forall path req x t, tdesc path req x t -> forall t', talike t t' -> tdesc path req x t'.
Proof.
  apply (tdesc_ind2 (fun path req x t => forall t', talike t t' -> tdesc path req x t')).
  - intros path req x t ch D NM G F PM t' TA. inversion TA as [? ? ch1 K A F1 P1]; subst.
    destruct (Forall2_perm _ _ _ PM _ F1) as (c2 & F2 & P2). apply (td_own path req x t' c2); auto.
    + eapply describes_alike; [exact D|exact A].
    + rewrite K. exact G.
    + clear - F F2. revert c2 F2. induction F as [|y c ys cs (_ & H) F IH]; intros c2 F2; inversion F2; subst; constructor; auto.
    + eapply Permutation_trans; [|exact P1]. exact P2.
  - intros path req x t e p' x' a0 k0 m0 D A FI T IH G t' TA. inversion TA as [? ? ch1 K AL F1 P1]; subst.
    apply (td_mod path req x t' e p' x' a0 k0 m0); auto.
    + eapply describes_alike; [exact D|exact AL].
    + apply IH. apply (talike_node _ _ ch1); auto. cbn [Kinds.strip Kinds.t_ch]. apply (alike_node _ _ _ _ _ _ (map strip ch1)).
      * apply alike_refl_at.
      * eapply Forall2_map2; [|exact F1]. apply talike_alike.
      * apply Permutation_map. exact P1.
    + rewrite K. exact G.
Qed.

Lemma talike_refl : forall t, talike t t.
Proof.
  apply tnode_ind2. intros a k m ch F. apply (talike_node _ _ ch); auto using alike_refl. cbn [Kinds.t_ch]. induction F; constructor; auto.
Qed.

Lemma talike_linked t t' v : talike t t' -> talike t (t_with t' (fun b => set_linked b v)).
Proof.
  intros H. inversion H as [? ? ch1 K A F1 P1]; subst. apply (talike_node _ _ ch1); auto. rewrite strip_with.
  apply alike_with; auto; intros; apply alike_set_linked; auto using alike_refl_at.
Qed.
Lemma talike_ptr t v : talike t (t_with t (fun b => set_ptr b v)).
Proof.
  apply (talike_node _ _ (t_ch t)); [reflexivity| | |apply Permutation_refl].
  - rewrite strip_with. apply alike_attrs, alike_set_ptr, alike_refl_at.
  - clear. induction (t_ch t); constructor; auto using talike_refl.
Qed.

Lemma talike_clone : forall t, fx t -> talike t (t_clone t).
Proof.
  apply (tnode_ind2 (fun t => fx t -> talike t (t_clone t))). intros a k m ch F X. inversion X as [? C FX]; subst. cbn [Kinds.t_kind Kinds.t_ch] in *.
  apply (talike_node _ _ (map (fun c => t_with (t_clone c) (fun b => set_linked b true)) ch)).
  - exact C.
  - rewrite strip_clone. apply alike_clone.
  - cbn [Kinds.t_ch]. clear - F FX. induction F as [|c l H F IH]; [constructor|]. inversion FX; subst. constructor; auto using talike_linked.
  - apply Permutation_refl.
Qed.

Lemma talike_calculate : forall t addr t', t_calculate t addr = BOk t' -> talike t t'.
Proof.
  apply (tnode_ind2 (fun t => forall addr t', t_calculate t addr = BOk t' -> talike t t')). intros a k m ch F addr t' E.
  assert (S : calculate (strip (TNode kind a k m ch)) addr = BOk (strip t')) by (rewrite <- strip_calculate, E; reflexivity).
  apply (calculate_alike _ SORT) in S. cbn [Kinds.t_calculate] in E. destruct (_ && _); [discriminate|].
  apply bind_ok in E. destruct E as (cs & CS & E). injection E as <-. apply mapM_ok in CS.
  apply (talike_node _ _ cs); [reflexivity|exact S| |apply Permutation_sym, PERM].
  cbn [Kinds.t_ch]. rewrite Forall_forall in F. eapply Forall2_mono; [|exact CS]. cbn beta. intros c d I X.
  apply bind_ok in X. destruct X as (c' & C & X). injection X as <-. apply talike_linked. eapply F; eassumption.
Qed.

(** convertToClassType *)
Lemma convert_ch t : Forall fx (t_ch t) -> Forall2 talike (t_ch t) (t_ch (t_convert t)).
Proof.
  intros X.
  assert (R : Forall2 talike (t_ch t) (t_ch t)) by (clear; induction (t_ch t); constructor; auto using talike_refl).
  unfold Kinds.t_convert. destruct (Nat.eqb _ 0); [exact R|]. destruct (assoc _ known); [|exact R].
  destruct t as [a k' m ch]. cbn [Kinds.t_clone Kinds.t_ch] in *. clear R. induction X; constructor; auto using talike_linked, talike_clone.
Qed.

Lemma convert_kind t : t_kind (t_convert t) =
  if String.eqb (a_class (t_at t)) "" then t_kind t else match assoc (a_class (t_at t)) known with Some k => k | None => t_kind t end.
Proof.
  unfold Kinds.t_convert. rewrite length_zero. destruct (String.eqb _ _); [reflexivity|]. destruct (assoc _ known); [|reflexivity].
  destruct (t_clone t); reflexivity.
Qed.

Lemma convert_given path x t k0 : text_of x "class" (a_class (t_at t)) -> t_kind t = k0 ->
  ((forall k, ~ names_class kind known x k) -> given path x k0) -> given path x (t_kind (t_convert t)).
Proof.
  intros T K G. rewrite convert_kind. destruct (String.eqb _ _) eqn:E.
  - rewrite K. apply G. apply String.eqb_eq in E. intros k (c & A & NE & _). rewrite E in T. destruct T as [T|(T & _)]; congruence.
  - apply String.eqb_neq in E. assert (A : attribute x "class" = Some (a_class (t_at t))) by (destruct T as [T|(_ & T)]; [exact T|contradiction]).
    destruct (assoc (a_class (t_at t)) known) as [k|] eqn:AS.
    + apply g_class. exists (a_class (t_at t)). auto.
    + rewrite K. apply G. intros k (c & A' & _ & AS'). congruence.
Qed.

Section Element.
Variable t_load : string -> string -> bres tnode.
Hypothesis LOAD : forall path expr t, t_load path expr = BOk t ->
  wf (strip t) /\ exists path' x', files path expr = Some (path', x') /\ tdesc path' false x' t.
Notation load := (fun p e => bmap strip (t_load p e)).

Lemma load_ok : forall path expr n, load path expr = BOk n ->
  wf n /\ exists path' x', files path expr = Some (path', x') /\ describes path' false x' n.
Proof.
  intros path expr n E. cbn beta in E. destruct (t_load path expr) as [t| |] eqn:L; try discriminate. injection E as <-.
  destruct (LOAD _ _ _ L) as (W & p & x & FI & D). split; [exact W|]. exists p, x. split; [exact FI|]. apply tdesc_describes. exact D.
Qed.

Lemma element_describes x path req t : t_element t_load path req x = BOk t -> describes path req x (strip t).
Proof.
  intros E. assert (S : element load path req x = BOk (strip t)) by (rewrite <- (strip_element t_load load (fun _ _ => eq_refl)), E; reflexivity).
  exact (proj1 (element_ok _ _ _ _ _ load_ok _ _ _ _ S)).
Qed.

Lemma element_tdesc : forall x path req t, t_element t_load path req x = BOk t -> tdesc path req x t.
Proof.
  apply (xml_ind2 (fun x => forall path req t, t_element t_load path req x = BOk t -> tdesc path req x t)).
  intros l xs IH path req t E. assert (D := element_describes _ _ _ _ E). rewrite t_element_eq in E. set (x := Xml l xs) in *.
  change (map fst l) with (map fst (x_ats x)) in E.
  destruct (if req then node_parser else top_parser) as [p|] eqn:PA; [|discriminate].
  destruct (parse p (map fst (x_ats x))) as [k| | | |] eqn:R; try discriminate.
  destruct (parser_run _ _ _ _ PA R) as (RI & KN & RK). clear PA R. destruct k as [|[|[|k]]]; [..|contradiction].
  - assert (NM : attribute x "module" = None) by (apply attribute_none, RK; cbn; auto).
    apply bind_ok in E. destruct E as (a & A & E). destruct (mode_eqb (a_mode a) NON_INCREMENTAL) eqn:M.
    + destruct xs as [|]; [|discriminate]. injection E as <-.
      destruct (plain_attrs_ok _ _ files is_known _ _ _ _ KN A (fun _ => eq_refl)) as (C & _).
      apply (td_own path req x _ []); auto.
      * eapply convert_given; [exact (co_class _ _ _ _ _ _ _ C)|reflexivity|]. intros NC. apply g_plain; auto.
      * constructor.
      * assert (X := convert_ch (TNode kind a plain [] []) (Forall_nil _)). inversion X. constructor.
    + apply bind_ok in E. destruct E as (cs & CS & E). injection E as <-. apply mapM_ok in CS.
      assert (NC : a_mode a = NON_INCREMENTAL -> x_ch x = []) by (intros X; rewrite X in M; discriminate).
      destruct (plain_attrs_ok _ _ files is_known _ _ _ _ KN A NC) as (C & _).
      assert (F : Forall2 (tdesc path true) xs (t_number 0 cs)).
      { assert (F : Forall2 (tdesc path true) xs cs) by (rewrite Forall_forall in IH; eapply Forall2_mono; [|exact CS]; intros y c I X; exact (IH y I path true c X)).
        generalize 0%nat. clear - F. induction F as [|y c ys cs T F IHF]; intros k; constructor; auto. eapply tdesc_talike; [exact T|apply talike_ptr]. }
      set (ch := t_number 0 cs) in *.
      assert (FX : Forall fx ch) by (apply Forall_forall; intros c I; destruct (Forall2_in _ _ _ _ F I) as (y & _ & T); eapply tdesc_fx; exact T).
      assert (CC : Forall2 talike ch (t_ch (t_convert (TNode kind a plain (children_map (map strip ch)) ch)))) by exact (convert_ch (TNode kind a plain (children_map (map strip ch)) ch) FX). 
      apply (td_own path req x _ (t_ch (t_convert (TNode kind a plain (children_map (map strip ch)) ch)))); auto.
      * eapply convert_given; [exact (co_class _ _ _ _ _ _ _ C)|reflexivity|]. intros NC'. apply g_plain; auto.
      * cbn [x_ch]. clear - F CC. revert CC. generalize (t_ch (t_convert (TNode kind a plain (children_map (map strip ch)) ch))). clear - F.
        change (x_ch x) with xs. induction F as [|y c ys l' T F IHF]; intros l2 CC; inversion CC; subst; constructor; auto.
        eapply tdesc_talike; eassumption.
  - destruct RK as (RM & RK). apply bind_ok in E. destruct E as (n & E & X). injection X as <-.
    assert (NM : attribute x "module" = None) by (apply attribute_none, RK; cbn; auto).
    assert (NC : attribute x "class" = None) by (apply attribute_none, RK; cbn; auto).
    assert (XC : x_ch x = []) by (unfold mask_node in E; destruct (x_ch x); [reflexivity|discriminate]).
    apply (td_own path req x _ []); auto.
    + apply g_plain; auto. intros k (c & A & _). congruence.
    + rewrite XC. constructor.
  - destruct RK as (RM & RK). apply bind_ok in E. destruct E as (t0 & L & E). apply bind_ok in E. destruct E as (a & A & E). injection E as <-.
    destruct (LOAD _ _ _ L) as (W & path' & x' & FI & T). destruct (module_attrs_ok _ _ files is_known _ _ _ _ _ KN A) as (C & _).
    destruct (attribute_some _ _ RM) as (v & AV). unfold attr_str in FI. rewrite AV in FI.
    destruct t0 as [b k0 m ch]. cbn [Kinds.t_at Kinds.t_kind Kinds.t_map Kinds.t_ch] in *.
    assert (FX : Forall fx ch) by (apply tdesc_fx in T; inversion T; assumption).
    assert (CC : Forall2 talike ch (t_ch (t_convert (TNode kind a k0 m ch)))) by exact (convert_ch (TNode kind a k0 m ch) FX). 
    apply (td_mod path req x _ v path' x' b k0 m); auto.
    + eapply tdesc_talike; [exact T|]. apply (talike_node _ _ (t_ch (t_convert (TNode kind a k0 m ch)))); auto.
      cbn [Kinds.strip Kinds.t_ch]. apply (alike_node _ _ _ _ _ _ (map strip (t_ch (t_convert (TNode kind a k0 m ch))))).
      * apply alike_refl_at.
      * eapply Forall2_map2; [|exact CC]. apply talike_alike.
      * apply Permutation_refl.
    + eapply convert_given; [exact (co_class _ _ _ _ _ _ _ C)|reflexivity|]. intros NC. eapply g_module; eauto. exact (tdesc_given _ _ _ _ T).
Qed.
End Element.

Theorem t_tree_ok : forall fuel path expr t, t_tree fuel path expr = BOk t ->
  wf (strip t) /\ exists path' x', files path expr = Some (path', x') /\ tdesc path' false x' t.
Proof.
  induction fuel as [|f IH]; intros path expr t E.
  { discriminate. }
  assert (W : get_node_tree (S f) path expr = BOk (strip t)) by (rewrite <- strip_tree, E; reflexivity).
  apply (get_node_tree_ok _ _ _ _ _ SORT) in W. split; [exact (proj1 W)|]. clear W.
  cbn [Kinds.t_tree] in E. destruct (files path expr) as [(path', x)|] eqn:FI; [|discriminate].
  apply bind_ok in E. destruct E as (t1 & B & E). injection E as <-. unfold t_build in B. apply bind_ok in B. destruct B as (t0 & EL & CA).
  exists path', x. split; [reflexivity|]. apply (element_tdesc _ IH) in EL. apply talike_calculate in CA.
  assert (T1 := tdesc_talike _ _ _ _ EL _ CA). eapply tdesc_talike; [exact T1|]. apply talike_clone. eapply tdesc_fx. exact T1.
Qed.

(** ** Positions *)
Lemma strip_get : forall p t, NodeTree.get (strip t) p = option_map strip (t_get kind t p).
Proof.
  induction p as [|i p IH]; intros t; [reflexivity|]. cbn [NodeTree.get t_get]. rewrite strip_ch, nth_error_map.
  destruct (nth_error (t_ch t) i); [apply IH|reflexivity].
Qed.

Lemma tdesc_node : forall path req x t, tdesc path req x t -> forall p n, t_get kind t p = Some n ->
  exists q r y, reached files q y path x /\ describes q r y (strip n) /\ given q y (t_kind n).
Proof.
  apply (tdesc_ind2 (fun path req x t => forall p n, t_get kind t p = Some n ->
    exists q r y, reached files q y path x /\ describes q r y (strip n) /\ given q y (t_kind n))).
  - intros path req x t ch D NM G F PM p n H. destruct p as [|i p]; cbn [t_get] in H.
    + injection H as <-. exists path, req, x. split; [constructor|auto].
    + destruct (nth_error (t_ch t) i) as [c|] eqn:NT; [|discriminate]. apply nth_error_In in NT.
      apply (Permutation_in _ (Permutation_sym PM)) in NT. destruct (Forall2_in _ _ _ _ F NT) as (y & IY & _ & K).
      destruct (K p n H) as (q & r & z & RE & X). exists q, r, z. split; [eapply re_child; eassumption|exact X].
  - intros path req x t e p' x' a0 k0 m0 D A FI T IH G p n H. destruct p as [|i p].
    + cbn [t_get] in H. injection H as <-. exists path, req, x. split; [constructor|auto].
    + destruct (IH (i :: p) n H) as (q & r & z & RE & X). exists q, r, z. split; [eapply re_module; eassumption|exact X].
Qed.

Lemma tdesc_inside y x : inside y x -> forall path req t, tdesc path req x t ->
  exists p n r, t_get kind t p = Some n /\ describes path r y (strip n) /\ given path y (t_kind n).
Proof.
  induction 1 as [|x c NM IC IN IH]; intros path req t D.
  - exists [], t, req. split; [reflexivity|]. destruct D; auto.
  - inversion D as [? ? ? ? ch DD NM' G F PM|]; subst; [|congruence].
    assert (exists d, In d ch /\ tdesc path true c d) as (d & ID & TD).
    { clear - F IC. induction F as [|a b l l' H F IHF]; [contradiction|]. destruct IC as [->|IC]; [exists b; cbn; auto|].
      destruct (IHF IC) as (d & I & K). exists d. cbn. auto. }
    apply (Permutation_in _ PM) in ID. destruct (In_nth_error _ _ ID) as (i & NT).
    destruct (IH _ _ _ TD) as (p & n & r & X & K). exists (i :: p), n, r. cbn [t_get]. rewrite NT. auto.
Qed.
End Proofs.
