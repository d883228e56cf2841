(** C82: what a NodeTreeBuilder did before does not matter. *)
From Coq Require Import NArith ZArith List Bool String Ascii Lia PeanoNat.
From Verif Require Import NodeTree NodeProofs Rules Builder BuildSpec BuilderProofs Prop_Builder Prop_Accept Cache.
Import ListNotations.

(** ** Specification *)

(** Calls that found the files as they are in [w]. *)
Definition found (w : world) (o : bop) : Prop := match o with OGet w' _ _ _ => w' = w | OClear => True end.

(** A history of a builder: before the last clearAddressFileCache the files may
    have been any, since then those of [w]. *)
Definition history (w : world) (l : list bop) : Prop :=
  Forall (found w) l \/ exists old new, l = old ++ OClear :: new /\ Forall (found w) new.

(** The one file that an expression refers to. *)
Definition one_file (w : world) (path expr : string) : option (string * xml) :=
  let fs := w_open w path expr in
  if forallb (fun e => match e with FFile _ _ => true | FThrow _ => false end) fs then
    match flat_map (fun e => match e with
                             | FFile h p => match w_read w h p with Some x => [(p, x)] | None => [] end
                             | FThrow _ => []
                             end) fs with
    | [r] => Some r
    | _ => None
    end
  else None.

(** ** Proofs *)

Lemma cache_key_inj h p h' p' : cache_key h p = cache_key h' p' -> h = h' /\ p = p'.
Proof. unfold cache_key. destruct h, h'; cbn; intros E; inversion E; auto. Qed.

Lemma assoc_insert {A} m k (v : A) k' : assoc k' (map_insert m k v) = if String.eqb k' k then match assoc k m with Some u => Some u | None => Some v end else assoc k' m.
Proof.
  unfold map_insert. destruct (assoc k m) as [u|] eqn:E; [destruct (String.eqb_spec k' k); congruence|].
  induction m as [|(x, u) m IH]; cbn [assoc app] in *.
  - destruct (String.eqb k' k); reflexivity.
  - destruct (String.eqb_spec k x); [discriminate|]. rewrite (IH E). destruct (String.eqb_spec k' x), (String.eqb_spec k' k); congruence.
Qed.

Section Claims.
Variable parse_pars : string -> list (string * string).
Variable parse_fw : string -> option (string * list (string * string)).
Variable sort : list node -> list node.
Variable is_class : string -> bool.
Notation element := (element parse_pars parse_fw is_class).
Notation celement := (celement parse_pars parse_fw is_class).
Notation build := (build parse_pars parse_fw sort is_class).
Notation cbuild := (cbuild parse_pars parse_fw sort is_class).
Notation cget := (cget parse_pars parse_fw sort is_class).
Notation opened := (opened parse_pars parse_fw sort is_class).
Notation callback := (callback parse_pars parse_fw sort is_class).
Notation calls := (calls parse_pars parse_fw sort is_class).

Section World.
Variable w : world.

(** A builder without a state. *)
Fixpoint trees (load : string -> string -> bres node) (l : list fev) : bres (list node) :=
  match l with
  | [] => BOk []
  | FThrow e :: _ => BExc e
  | FFile h p :: r =>
      match w_read w h p with
      | None => trees load r
      | Some x => bind (build load p x) (fun t => bind (trees load r) (fun b => BOk (t :: b)))
      end
  end.
Fixpoint get (fuel : nat) (path expr : string) : bres node :=
  match fuel with
  | O => BFuel
  | S f => bind (trees (get f) (w_open w path expr)) (fun l =>
           match l with [t] => BOk (clone t) | _ => BExc IncorrectAddressTableFileCount end)
  end.

Lemma trees_more load load' l : (forall path expr, load path expr <> BFuel -> load' path expr = load path expr) -> trees load l <> BFuel -> trees load' l = trees load l.
Proof using.
  intros H. induction l as [|[h p|e] l IH]; cbn [trees]; [reflexivity| |reflexivity]. destruct (w_read w h p) as [x|]; [|exact IH]. intros NF.
  assert (E : build load' p x = build load p x).
  { unfold Builder.build. rewrite (element_more _ _ _ _ _ H); [reflexivity|]. intros E. apply NF. unfold Builder.build. rewrite E. reflexivity. }
  rewrite E. destruct (build load p x); cbn [bind] in *; try reflexivity. rewrite IH; [reflexivity|]. intros Z. apply NF. rewrite Z. reflexivity.
Qed.

Lemma get_more f : forall path expr, get f path expr <> BFuel -> get (S f) path expr = get f path expr.
Proof using.
  induction f as [|f IH]; intros path expr NF; [exfalso; apply NF; reflexivity|]. cbn [get] in NF.
  change (get (S (S f)) path expr) with (bind (trees (get (S f)) (w_open w path expr)) (fun l => match l with [t] => BOk (clone t) | _ => BExc IncorrectAddressTableFileCount end)).
  rewrite (trees_more _ _ _ IH); [reflexivity|]. intros E. apply NF. rewrite E. reflexivity.
Qed.

Lemma get_mores f f' path expr : (f <= f')%nat -> get f path expr <> BFuel -> get f' path expr = get f path expr.
Proof using. induction 1 as [|f' L IH]; intros NF; [reflexivity|]. rewrite get_more; [auto|]. rewrite (IH NF). exact NF. Qed.

Lemma build_mores f f' p x t : (f <= f')%nat -> build (get f) p x = BOk t -> build (get f') p x = BOk t.
Proof using.
  intros L E. unfold Builder.build in *. rewrite (element_more _ _ _ (get f) (get f')); [exact E| |].
  - intros. apply get_mores; assumption.
  - intros Z. rewrite Z in E. discriminate.
Qed.

(** The trees kept are those that would be built. *)
Definition kept (s : cstate) : Prop := forall k t, assoc k (c_nodes s) = Some t ->
  exists h p x f, k = cache_key h p /\ w_read w h p = Some x /\ build (get f) p x = BOk t.

(** A step with state does what the step without one does, which is [g] for
    enough fuel and [g0] for the fuel in question. *)
Definition same {A} (c : cres A) (st : list string) (g : nat -> bres A) (g0 : bres A) : Prop :=
  exists r s, c = CRes r s /\ kept s /\ (forall x, r = BOk x -> c_stack s = st) /\
  (r <> BFuel -> exists f, forall f', (f <= f')%nat -> g f' = r) /\ (g0 <> BFuel -> r = g0).

Lemma same_ret {A} (r : bres A) s st g g0 : kept s -> c_stack s = st -> (forall f, g f = r) -> g0 = r -> same (CRes r s) st g g0.
Proof using. intros K S G ->. exists r, s. split; [reflexivity|]. split; [exact K|]. split; [auto|]. split; [|auto]. intros _. exists 0%nat. auto. Qed.

Lemma same_bind {A B} (c : cres A) st g g0 (k : A -> cstate -> cres B) st' (h : nat -> A -> bres B) h0 :
  same c st g g0 -> (forall x s, kept s -> c_stack s = st -> same (k x s) st' (fun f => h f x) (h0 x)) ->
  same (cbind c k) st' (fun f => bind (g f) (h f)) (bind g0 h0).
Proof using.
  intros (r & s & -> & K & S & (* *) F & Z) H. destruct r as [x|e|]; cbn [cbind].
  - destruct (H x s K (S x eq_refl)) as (r & s' & -> & K' & S' & F' & Z'). exists r, s'. split; [reflexivity|]. split; [exact K'|]. split; [exact S'|]. split.
    + intros NF. destruct F as (f & F); [discriminate|]. destruct (F' NF) as (f2 & F2). exists (max f f2). intros f' L. rewrite F by lia. cbn [bind]. apply F2. lia.
    + intros NF. destruct g0 as [y|e|]; cbn [bind] in NF |- *.
      * assert (E : BOk x = BOk y) by (apply Z; discriminate). injection E as <-. auto.
      * assert (E : BOk x = BExc e) by (apply Z; discriminate). discriminate.
      * exfalso. apply NF. reflexivity.
  - exists (BExc e), s. split; [reflexivity|]. split; [exact K|]. split; [discriminate|]. split.
    + intros _. destruct F as (f & F); [discriminate|]. exists f. intros f' L. rewrite F by lia. reflexivity.
    + intros NF. destruct g0 as [y|e'|]; cbn [bind] in NF |- *.
      * assert (E : @BExc A e = BOk y) by (apply Z; discriminate). discriminate.
      * assert (E : @BExc A e = BExc e') by (apply Z; discriminate). injection E as <-. reflexivity.
      * exfalso. apply NF. reflexivity.
  - exists BFuel, s. split; [reflexivity|]. split; [exact K|]. split; [discriminate|]. split; [intros NF; exfalso; apply NF; reflexivity|].
    intros NF. destruct g0 as [y|e|]; cbn [bind] in NF |- *.
    + assert (E : @BFuel A = BOk y) by (apply Z; discriminate). discriminate.
    + assert (E : @BFuel A = BExc e) by (apply Z; discriminate). discriminate.
    + reflexivity.
Qed.

Lemma same_ext {A} (c : cres A) st g g' g0 : (forall f, g f = g' f) -> same c st g g0 -> same c st g' g0.
Proof using.
  intros E (r & s & C & K & S & F & Z). exists r, s. split; [exact C|]. split; [exact K|]. split; [exact S|]. split; [|exact Z].
  intros NF. destruct (F NF) as (f & H). exists f. intros f' L. rewrite <- E. auto.
Qed.

Section Step.
Variable load : string -> string -> cstate -> cres node.
Variable load0 : string -> string -> bres node.
Hypothesis LOAD : forall path expr s, kept s -> same (load path expr s) (c_stack s) (fun f => get f path expr) (load0 path expr).

Lemma celement_same : forall x req path st s, kept s -> c_stack s = path :: st ->
  same (celement load req x s) (path :: st) (fun f => element (get f) path req x) (element load0 path req x).
Proof using LOAD.
  apply (xml_ind2 (fun x => forall req path st s, kept s -> c_stack s = path :: st ->
    same (celement load req x s) (path :: st) (fun f => element (get f) path req x) (element load0 path req x))).
  intros l xs IH req path st s K ST. cbn [Cache.celement Builder.element]. rewrite ST. 
  destruct (if req then node_parser else top_parser) as [p|]; [|apply same_ret; auto].
  destruct (parse p (map fst (x_ats (Xml l xs)))) as [[|[|n]]| | | |] eqn:PE; try (apply same_ret; auto; fail).
  - eapply same_ext; [intros f; symmetry; reflexivity|]. cbv beta.
    apply (same_bind _ (path :: st) (fun _ => plain_attrs parse_pars parse_fw path req (Xml l xs)) _ _ _
      (fun f a => if mode_eqb (a_mode a) NON_INCREMENTAL then match xs with [] => BOk (convert is_class (Node a [] [])) | _ :: _ => BExc BlockAccessNodeCannotHaveChild end
                  else bind (mapM (element (get f) path true) xs) (fun cs => BOk (convert is_class (Node a (children_map (number 0 cs)) (number 0 cs)))))).
    { apply same_ret; auto. }
    intros a s' K' ST'. destruct (mode_eqb (a_mode a) NON_INCREMENTAL); [destruct xs; apply same_ret; auto|].
    apply (same_bind _ (path :: st) (fun f => mapM (element (get f) path true) xs)).
    { clear PE l. revert s' K' ST'. induction xs as [|x xs IHx]; intros s' K' ST'; [apply same_ret; auto|].
      apply Forall_cons_iff in IH. destruct IH as (IHh & IHt). cbn [cmapM mapM].
      apply (same_bind _ (path :: st) (fun f => element (get f) path true x) _ _ _ (fun f y => bind (mapM (element (get f) path true) xs) (fun ys => BOk (y :: ys)))); [auto|].
      intros y s2 K2 ST2. apply (same_bind _ (path :: st) (fun f => mapM (element (get f) path true) xs)); [apply IHx; auto|].
      intros ys s3 K3 ST3. apply same_ret; auto. }
    intros cs s2 K2 ST2. apply same_ret; auto.
  - apply (same_bind _ (path :: st) (fun f => get f path (attr_str (Xml l xs) "module")) _ _ _ (fun _ t => bind (module_attrs parse_pars parse_fw path req (Xml l xs) (n_at t)) (fun a => BOk (convert is_class (Node a (n_map t) (n_ch t)))))).
    { rewrite <- ST. apply LOAD. exact K. }
    intros t s' K' ST'. rewrite ST'. apply same_ret; auto.
Qed.

Lemma cbuild_same path x s : kept s -> same (cbuild load path x s) (c_stack s) (fun f => build (get f) path x) (build load0 path x).
Proof using LOAD.
  intros K. unfold Cache.cbuild, Builder.build.
  apply (same_bind _ (path :: c_stack s) (fun f => element (get f) path false x) _ _ _ (fun _ t => calculate sort t 0)); [apply celement_same; [exact K|reflexivity]|].
  intros t s' K' ST. apply same_ret; auto. cbn [c_stack]. rewrite ST. reflexivity.
Qed.

Lemma opened_same : forall l s, kept s -> same (opened load w l s) (c_stack s) (fun f => trees (get f) l) (trees load0 l).
Proof using LOAD.
  induction l as [|[h p|e] l IH]; intros s K; [apply same_ret; auto| |apply same_ret; auto]. cbn [Cache.opened trees].
  unfold Cache.callback. destruct (assoc (cache_key h p) (c_nodes s)) as [t|] eqn:A.
  - cbn [cbind]. destruct (K _ _ A) as (h' & p' & x & f & KE & RE & BE). apply cache_key_inj in KE. destruct KE as (<- & <-). rewrite RE.
    destruct (IH s K) as (r & s' & E & K' & S' & F' & Z'). rewrite E.
    assert (NB : build load0 p x <> BFuel -> build load0 p x = BOk t).
    { intros NF. destruct (cbuild_same p x s K) as (r2 & s2 & _ & _ & _ & F2 & Z2). rewrite (Z2 NF) in F2. destruct (F2 NF) as (f2 & F3).
      rewrite <- (F3 (max f f2)) by lia. apply (build_mores f); [lia|exact BE]. }
    destruct r as [b|e|]; cbn [cbind].
    + exists (BOk (t :: b)), s'. split; [reflexivity|]. split; [exact K'|]. split; [intros; eapply S'; reflexivity|]. split.
      * intros _. destruct F' as (f2 & F'); [discriminate|]. exists (max f f2). intros f' L. rewrite (build_mores f f' p x t) by (assumption || lia). cbn [bind]. rewrite F' by lia. reflexivity.
      * intros NF. destruct (build load0 p x) as [t'| |] eqn:B0; cbn [bind] in NF |- *; [|specialize (NB ltac:(discriminate)); discriminate|exfalso; apply NF; reflexivity].
        specialize (NB ltac:(discriminate)). injection NB as ->. destruct (trees load0 l) as [b'|e'|]; cbn [bind] in NF |- *.
        -- assert (Q : BOk b = BOk b') by (apply Z'; discriminate). injection Q as ->. reflexivity.
        -- assert (Q : BOk b = BExc e') by (apply Z'; discriminate). discriminate.
        -- exfalso. apply NF. reflexivity.
    + exists (BExc e), s'. split; [reflexivity|]. split; [exact K'|]. split; [discriminate|]. split.
      * intros _. destruct F' as (f2 & F'); [discriminate|]. exists (max f f2). intros f' L. rewrite (build_mores f f' p x t) by (assumption || lia). cbn [bind]. rewrite F' by lia. reflexivity.
      * intros NF. destruct (build load0 p x) as [t'| |] eqn:B0; cbn [bind] in NF |- *; [|specialize (NB ltac:(discriminate)); discriminate|exfalso; apply NF; reflexivity].
        destruct (trees load0 l) as [b'|e'|]; cbn [bind] in NF |- *.
        -- assert (Q : @BExc (list node) e = BOk b') by (apply Z'; discriminate). discriminate.
        -- assert (Q : @BExc (list node) e = BExc e') by (apply Z'; discriminate). injection Q as ->. reflexivity.
        -- exfalso. apply NF. reflexivity.
    + exists BFuel, s'. split; [reflexivity|]. split; [exact K'|]. split; [discriminate|]. split; [intros NF; exfalso; apply NF; reflexivity|].
      intros NF. destruct (build load0 p x) as [t'| |] eqn:B0; cbn [bind] in NF |- *; [|specialize (NB ltac:(discriminate)); discriminate|exfalso; apply NF; reflexivity].
      destruct (trees load0 l) as [b'|e'|]; cbn [bind] in NF |- *.
      * assert (Q : @BFuel (list node) = BOk b') by (apply Z'; discriminate). discriminate.
      * assert (Q : @BFuel (list node) = BExc e') by (apply Z'; discriminate). discriminate.
      * reflexivity.
  - destruct (w_read w h p) as [x|] eqn:RE.
    + destruct (cbuild_same p x s K) as (r & s' & E & K' & S' & F' & Z'). rewrite E. destruct r as [t|e|]; cbn [cbind].
      * destruct F' as (f & F'); [discriminate|].
        assert (K2 : kept (mkC (map_insert (c_nodes s') (cache_key h p) t) (c_stack s'))).
        { intros k u. cbn [c_nodes]. rewrite assoc_insert. destruct (String.eqb_spec k (cache_key h p)) as [->|NE]; [|apply K'].
          destruct (assoc (cache_key h p) (c_nodes s')) as [u'|] eqn:A'; [intros Q; injection Q as <-; apply K'; exact A'|].
          intros Q. injection Q as <-. exists h, p, x, f. split; [reflexivity|]. split; [exact RE|]. apply F'. lia. }
        destruct (IH _ K2) as (r2 & s2 & E2 & K3 & S3 & F3 & Z3). rewrite E2. cbn [c_stack] in S3. rewrite (S' t eq_refl) in S3.
        assert (Z4 : build load0 p x <> BFuel -> build load0 p x = BOk t) by (intros NF; symmetry; apply Z'; exact NF).
        destruct r2 as [b|e|]; cbn [cbind app].
        -- exists (BOk (t :: b)), s2. split; [reflexivity|]. split; [exact K3|]. split; [intros; eapply S3; reflexivity|]. split.
           ++ intros _. destruct F3 as (f2 & F3); [discriminate|]. exists (max f f2). intros f' L. rewrite F' by lia. cbn [bind]. rewrite F3 by lia. reflexivity.
           ++ intros NF. destruct (build load0 p x) as [t'| |] eqn:B0; cbn [bind] in NF |- *; [|specialize (Z4 ltac:(discriminate)); discriminate|exfalso; apply NF; reflexivity].
              specialize (Z4 ltac:(discriminate)). injection Z4 as ->. destruct (trees load0 l) as [b'|e'|]; cbn [bind] in NF |- *.
              ** assert (Q : BOk b = BOk b') by (apply Z3; discriminate). injection Q as ->. reflexivity.
              ** assert (Q : BOk b = BExc e') by (apply Z3; discriminate). discriminate.
              ** exfalso. apply NF. reflexivity.
        -- exists (BExc e), s2. split; [reflexivity|]. split; [exact K3|]. split; [discriminate|]. split.
           ++ intros _. destruct F3 as (f2 & F3); [discriminate|]. exists (max f f2). intros f' L. rewrite F' by lia. cbn [bind]. rewrite F3 by lia. reflexivity.
           ++ intros NF. destruct (build load0 p x) as [t'| |] eqn:B0; cbn [bind] in NF |- *; [|specialize (Z4 ltac:(discriminate)); discriminate|exfalso; apply NF; reflexivity].
              destruct (trees load0 l) as [b'|e'|]; cbn [bind] in NF |- *.
              ** assert (Q : @BExc (list node) e = BOk b') by (apply Z3; discriminate). discriminate.
              ** assert (Q : @BExc (list node) e = BExc e') by (apply Z3; discriminate). injection Q as ->. reflexivity.
              ** exfalso. apply NF. reflexivity.
        -- exists BFuel, s2. split; [reflexivity|]. split; [exact K3|]. split; [discriminate|]. split; [intros NF; exfalso; apply NF; reflexivity|].
           intros NF. destruct (build load0 p x) as [t'| |] eqn:B0; cbn [bind] in NF |- *; [|specialize (Z4 ltac:(discriminate)); discriminate|exfalso; apply NF; reflexivity].
           destruct (trees load0 l) as [b'|e'|]; cbn [bind] in NF |- *.
           ** assert (Q : @BFuel (list node) = BOk b') by (apply Z3; discriminate). discriminate.
           ** assert (Q : @BFuel (list node) = BExc e') by (apply Z3; discriminate). discriminate.
           ** reflexivity.
      * exists (BExc e), s'. split; [reflexivity|]. split; [exact K'|]. split; [discriminate|]. split.
        -- intros _. destruct F' as (f & F'); [discriminate|]. exists f. intros f' L. rewrite F' by lia. reflexivity.
        -- intros NF. destruct (build load0 p x) as [t'|e'|] eqn:B0; cbn [bind] in NF |- *.
           ** assert (Q : @BExc node e = BOk t') by (apply Z'; discriminate). discriminate.
           ** assert (Q : @BExc node e = BExc e') by (apply Z'; discriminate). injection Q as ->. reflexivity.
           ** exfalso. apply NF. reflexivity.
      * exists BFuel, s'. split; [reflexivity|]. split; [exact K'|]. split; [discriminate|]. split; [intros NF; exfalso; apply NF; reflexivity|].
        intros NF. destruct (build load0 p x) as [t'|e'|] eqn:B0; cbn [bind] in NF |- *.
        ** assert (Q : @BFuel node = BOk t') by (apply Z'; discriminate). discriminate.
        ** assert (Q : @BFuel node = BExc e') by (apply Z'; discriminate). discriminate.
        ** reflexivity.
    + cbn [cbind app]. destruct (IH s K) as (r & s' & E & K' & S' & F' & Z'). rewrite E. exists r, s'.
      split; [destruct r; reflexivity|]. auto.
Qed.
End Step.

Lemma cget_same : forall fuel path expr s, kept s -> same (cget w fuel path expr s) (c_stack s) (fun f => get f path expr) (get fuel path expr).
Proof using.
  induction fuel as [|fuel IH]; intros path expr s K.
  - exists BFuel, s. split; [reflexivity|]. split; [exact K|]. split; [discriminate|]. split; intros NF; exfalso; apply NF; reflexivity.
  - cbn [Cache.cget get].
    assert (H : same (cbind (opened (cget w fuel) w (w_open w path expr) s) (fun l s => match l with [t] => CRes (BOk (clone t)) s | _ => CRes (BExc IncorrectAddressTableFileCount) s end)) (c_stack s)
      (fun f => bind (trees (get f) (w_open w path expr)) (fun l => match l with [t] => BOk (clone t) | _ => BExc IncorrectAddressTableFileCount end))
      (bind (trees (get fuel) (w_open w path expr)) (fun l => match l with [t] => BOk (clone t) | _ => BExc IncorrectAddressTableFileCount end))).
    { apply (same_bind _ (c_stack s) (fun f => trees (get f) (w_open w path expr)) _ _ _ (fun _ l => match l with [t] => BOk (clone t) | _ => BExc IncorrectAddressTableFileCount end)).
      - apply opened_same; [exact IH|exact K].
      - intros l s' K' ST. destruct l as [|t [|t' l]]; apply same_ret; auto. }
    destruct H as (r & s' & E & K' & S' & F' & Z'). exists r, s'. split; [exact E|]. split; [exact K'|]. split; [exact S'|]. split; [|exact Z'].
    intros NF. destruct (F' NF) as (f & H). exists (S f). intros [|f'] L; [lia|]. apply H. lia.
Qed.

Lemma kept_new : kept new_builder.
Proof using. intros k t E. discriminate. Qed.

Lemma kept_calls l : forall s s', Forall (found w) l -> kept s -> calls l s = Some s' -> kept s'.
Proof using.
  induction l as [|[w' fuel path expr|] l IH]; intros s s' F K E; cbn [Cache.calls] in E; [injection E as <-; exact K| |].
  - apply Forall_cons_iff in F. destruct F as (F & FL). cbn [found] in F. subst w'. destruct (cget_same fuel path expr s K) as (r & s2 & C & K2 & _). rewrite C in E.
    destruct r; [| |discriminate]; eapply IH; eassumption.
  - apply Forall_cons_iff in F. destruct F as (_ & FL). apply (IH _ _ FL) in E; [exact E|]. intros k t A. discriminate.
Qed.

Lemma calls_app l l' : forall s, calls (l ++ l') s = match calls l s with Some s' => calls l' s' | None => None end.
Proof using.
  induction l as [|[w' fuel path expr|] l IH]; intros s; cbn [app Cache.calls]; [reflexivity| |apply IH].
  destruct (cget w' fuel path expr s) as [[t|e|] s'|]; auto.
Qed.

Lemma kept_history l s : history w l -> calls l new_builder = Some s -> kept s.
Proof using.
  intros [F|(old & new & -> & F)] E; [eapply kept_calls; [exact F|apply kept_new|exact E]|].
  rewrite calls_app in E. destruct (calls old new_builder) as [s1|]; [|discriminate]. cbn [Cache.calls] in E. eapply kept_calls; [exact F| |exact E]. intros k t A. discriminate.
Qed.
End World.

(** Builders that load the same trees build the same. *)
Lemma element_oks load load' : (forall path expr t, load path expr = BOk t -> load' path expr = BOk t) ->
  forall x path req t, element load path req x = BOk t -> element load' path req x = BOk t.
Proof using.
  intros H. apply (xml_ind2 (fun x => forall path req t, element load path req x = BOk t -> element load' path req x = BOk t)).
  intros l xs IH path req t E. rewrite element_eq in E |- *. destruct (if req then node_parser else top_parser) as [p|]; [|discriminate].
  destruct (parse p (map fst (x_ats (Xml l xs)))) as [[|[|n]]| | | |]; try discriminate; try exact E.
  - destruct (plain_attrs parse_pars parse_fw path req (Xml l xs)) as [a| |]; cbn [bind] in E |- *; try discriminate.
    destruct (mode_eqb (a_mode a) NON_INCREMENTAL); [exact E|]. cbn [x_ch] in E |- *.
    assert (M : forall r, mapM (element load path true) xs = BOk r -> mapM (element load' path true) xs = BOk r).
    { clear E. induction xs as [|x xs IHx]; intros r M; [exact M|]. apply Forall_cons_iff in IH. destruct IH as (IHh & IHt). cbn [mapM] in M |- *.
      destruct (element load path true x) as [y| |] eqn:EY; cbn [bind] in M; try discriminate. rewrite (IHh _ _ _ EY). cbn [bind].
      change (bind (mapM (element load path true) xs) (fun ys => BOk (y :: ys)) = BOk r) in M. change (bind (mapM (element load' path true) xs) (fun ys => BOk (y :: ys)) = BOk r).
      destruct (mapM (element load path true) xs) as [ys| |]; cbn [bind] in M; try discriminate. rewrite (IHx IHt _ eq_refl). exact M. }
    destruct (mapM (element load path true) xs) as [cs| |]; cbn [bind] in E; try discriminate. rewrite (M _ eq_refl). exact E.
  - destruct (load path (attr_str (Xml l xs) "module")) as [t'| |] eqn:L; cbn [bind] in E; try discriminate. rewrite (H _ _ _ L). exact E.
Qed.

Lemma build_oks load load' p x t : (forall path expr t, load path expr = BOk t -> load' path expr = BOk t) -> build load p x = BOk t -> build load' p x = BOk t.
Proof using.
  intros H E. unfold Builder.build in *. destruct (element load p false x) as [u| |] eqn:EU; cbn [bind] in E; try discriminate. rewrite (element_oks _ _ H _ _ _ _ EU). exact E.
Qed.

Section Pure.
Variable w : world.
Notation get_node_tree := (get_node_tree parse_pars parse_fw (one_file w) sort is_class).
Let is_file (e : fev) : bool := match e with FFile _ _ => true | FThrow _ => false end.
Let tables (e : fev) : list (string * xml) := match e with FFile h p => match w_read w h p with Some x => [(p, x)] | None => [] end | FThrow _ => [] end.

Lemma trees_tables load l ts : trees w load l = BOk ts <-> forallb is_file l = true /\ Forall2 (fun r t => build load (fst r) (snd r) = BOk t) (flat_map tables l) ts.
Proof using.
  revert ts. induction l as [|[h p|e] l IH]; intros ts; cbn [trees forallb flat_map is_file tables andb].
  - split; [intros E; injection E as <-; auto|intros (_ & F); inversion F; reflexivity].
  - destruct (w_read w h p) as [x|]; cbn [app]; [|apply IH]. split.
    + destruct (build load p x) as [t| |] eqn:B; cbn [bind]; try discriminate. destruct (trees w load l) as [b| |]; cbn [bind]; try discriminate.
      intros E. injection E as <-. destruct (IH b) as (I & _). destruct (I eq_refl) as (A & F). split; [exact A|]. constructor; [exact B|exact F].
    + intros (A & F). inversion F as [|? t ? b B F']; subst. cbn [fst snd] in B. rewrite B. cbn [bind]. rewrite (proj2 (IH b)) by auto. reflexivity.
  - split; [discriminate|intros (A & _); discriminate].
Qed.

Lemma one_file_eq path expr : one_file w path expr = if forallb is_file (w_open w path expr) then match flat_map tables (w_open w path expr) with [r] => Some r | _ => None end else None.
Proof using. reflexivity. Qed.

Lemma get_pure : forall f path expr t, get w f path expr = BOk t <-> get_node_tree f path expr = BOk t.
Proof using.
  induction f as [|f IH]; intros path expr t; [split; discriminate|]. cbn [get Builder.get_node_tree]. rewrite one_file_eq.
  split; intros E.
  - destruct (trees w (get w f) (w_open w path expr)) as [[|u [|u' ts]]| |] eqn:T; cbn [bind] in E; try discriminate.
    apply trees_tables in T. destruct T as (A & F). rewrite A. destruct (flat_map tables (w_open w path expr)) as [|(p, x) rs]; [inversion F|]. inversion F as [|? ? ? ? B F' Q]; subst. inversion F'; subst. cbn [fst snd] in B.
    rewrite (build_oks (get w f) (get_node_tree f) p x u); [exact E| |exact B]. intros q e v. apply IH.
  - destruct (forallb is_file (w_open w path expr)) eqn:A; [|discriminate]. destruct (flat_map tables (w_open w path expr)) as [|(p, x) [|r rs]] eqn:T; try discriminate.
    destruct (build (get_node_tree f) p x) as [u| |] eqn:B; cbn [bind] in E; try discriminate.
    assert (TT : trees w (get w f) (w_open w path expr) = BOk [u]).
    { apply trees_tables. split; [exact A|]. rewrite T. constructor; [|constructor]. cbn [fst snd]. apply (build_oks (get_node_tree f)); [|exact B]. intros q e v. apply IH. }
    rewrite TT. exact E.
Qed.
End Pure.

(** Nothing is taken out of the cache. *)
Definition grows {A} (s : cstate) (c : cres A) : Prop :=
  match c with CRes _ s' => forall k t, assoc k (c_nodes s) = Some t -> assoc k (c_nodes s') = Some t | CUb => True end.

Lemma grows_ret {A} s (r : bres A) : grows s (CRes r s).
Proof using. intros k t E. exact E. Qed.

Lemma grows_bind {A B} s (c : cres A) (f : A -> cstate -> cres B) : grows s c -> (forall x s', grows s' (f x s')) -> grows s (cbind c f).
Proof using.
  intros G H. destruct c as [[x|e|] s'|]; cbn [cbind grows] in *; try exact G. specialize (H x s'). destruct (f x s'); cbn [grows] in *; auto.
Qed.

Section Grows.
Variable load : string -> string -> cstate -> cres node.
Hypothesis LOAD : forall path expr s, grows s (load path expr s).

Lemma celement_grows : forall x req s, grows s (celement load req x s).
Proof using LOAD.
  apply (xml_ind2 (fun x => forall req s, grows s (celement load req x s))). intros l xs IH req s. cbn [Cache.celement].
  destruct (c_stack s) as [|path st]; [exact I|]. destruct (if req then node_parser else top_parser) as [p|]; [|apply grows_ret].
  destruct (parse p (map fst (x_ats (Xml l xs)))) as [[|[|n]]| | | |]; try apply grows_ret.
  - apply grows_bind; [apply grows_ret|]. intros a s'. destruct (mode_eqb (a_mode a) NON_INCREMENTAL); [destruct xs; apply grows_ret|].
    apply grows_bind; [|intros; apply grows_ret]. revert s'. induction xs as [|x xs IHx]; intros s'; [apply grows_ret|]. apply Forall_cons_iff in IH. destruct IH as (IHh & IHt).
    cbn [cmapM]. apply grows_bind; [apply IHh|]. intros y s2. apply grows_bind; [apply (IHx IHt)|]. intros; apply grows_ret.
  - apply grows_bind; [apply LOAD|]. intros t s'. destruct (c_stack s'); [exact I|apply grows_ret].
Qed.

Lemma opened_grows w : forall l s, grows s (opened load w l s).
Proof using LOAD.
  induction l as [|[h p|e] l IH]; intros s; [apply grows_ret| |apply grows_ret]. cbn [Cache.opened]. apply grows_bind.
  - unfold Cache.callback. destruct (assoc (cache_key h p) (c_nodes s)); [apply grows_ret|]. destruct (w_read w h p) as [x|]; [|apply grows_ret].
    apply grows_bind.
    + unfold Cache.cbuild. assert (G := celement_grows x false (mkC (c_nodes s) (p :: c_stack s))). destruct (celement load false x (mkC (c_nodes s) (p :: c_stack s))) as [[t|e|] s'|]; cbn [cbind grows c_nodes] in *; exact G.
    + intros t s'. cbn [grows c_nodes]. intros k u E. rewrite assoc_insert. destruct (String.eqb_spec k (cache_key h p)) as [->|NE]; [rewrite E; reflexivity|exact E].
  - intros a s'. apply grows_bind; [apply IH|]. intros; apply grows_ret.
Qed.
End Grows.

Lemma cget_grows w : forall fuel path expr s, grows s (cget w fuel path expr s).
Proof using.
  induction fuel as [|fuel IH]; intros path expr s; [apply grows_ret|]. cbn [Cache.cget]. apply grows_bind; [apply opened_grows; exact IH|].
  intros l s'. destruct l as [|t [|]]; apply grows_ret.
Qed.

(** ** The claims *)

(** C82.  A builder with any history gives the result of a new one, be it a tree
    or an exception. *)
Theorem C82_as_new : forall w l s path expr, history w l -> calls l new_builder = Some s ->
  forall r, r <> BFuel ->
  ((exists fuel s', cget w fuel path expr s = CRes r s') <-> (exists fuel s', cget w fuel path expr new_builder = CRes r s')).
Proof using.
  intros w l s path expr H C r NF. assert (K := kept_history w l s H C). split; intros (fuel & s' & E).
  - destruct (cget_same w fuel path expr s K) as (r' & s2 & E' & _ & _ & F & _). rewrite E in E'. injection E' as <- <-. destruct (F NF) as (f & FG).
    destruct (cget_same w f path expr new_builder (kept_new w)) as (r' & s3 & E' & _ & _ & _ & Z). exists f, s3. rewrite E'. rewrite FG in Z by lia. rewrite Z by exact NF. reflexivity.
  - destruct (cget_same w fuel path expr new_builder (kept_new w)) as (r' & s2 & E' & _ & _ & F & _). rewrite E in E'. injection E' as <- <-. destruct (F NF) as (f & FG).
    destruct (cget_same w f path expr s K) as (r' & s3 & E' & _ & _ & _ & Z). exists f, s3. rewrite E'. rewrite FG in Z by lia. rewrite Z by exact NF. reflexivity.
Qed.

(** The trees are those of the builder without state that the other theorems
    about address tables speak of. *)
Theorem C82_table : forall w l s path expr t, history w l -> calls l new_builder = Some s ->
  ((exists fuel s', cget w fuel path expr s = CRes (BOk t) s') <->
   (exists fuel, get_node_tree parse_pars parse_fw (one_file w) sort is_class fuel path expr = BOk t)).
Proof using.
  intros w l s path expr t H C. assert (K := kept_history w l s H C). split.
  - intros (fuel & s' & E). destruct (cget_same w fuel path expr s K) as (r' & s2 & E' & _ & _ & F & _). rewrite E in E'. injection E' as <- <-.
    destruct F as (f & FG); [discriminate|]. exists f. apply get_pure. apply FG. lia.
  - intros (fuel & E). apply get_pure in E. destruct (cget_same w fuel path expr s K) as (r' & s3 & E' & _ & _ & _ & Z). exists fuel, s3. rewrite E'. rewrite E in Z. rewrite Z by discriminate. reflexivity.
Qed.

(** A file is read once: while the cache is not cleared, the tree made of it is
    given for every expression that refers to it, whatever it contains later. *)
Theorem C82_read_once : forall w l s h p fuel path expr t s1 l2 s2, history w l -> calls l new_builder = Some s ->
  w_open w path expr = [FFile h p] -> cget w fuel path expr s = CRes (BOk t) s1 ->
  Forall (fun o => o <> OClear) l2 -> calls l2 s1 = Some s2 ->
  forall w' fuel' path' expr', w_open w' path' expr' = [FFile h p] -> cget w' (S fuel') path' expr' s2 = CRes (BOk t) s2.
Proof using.
  intros w l s h p fuel path expr t s1 l2 s2 H C OP E NC C2 w' fuel' path' expr' OP'. destruct fuel as [|fuel]; [discriminate|]. cbn [Cache.cget] in E. rewrite OP in E. cbn [Cache.opened] in E.
  assert (exists u, t = clone u /\ assoc (cache_key h p) (c_nodes s1) = Some u) as (u & -> & A).
  { unfold Cache.callback in E. destruct (assoc (cache_key h p) (c_nodes s)) as [u|] eqn:A; [cbn in E; injection E as <- <-; eauto|].
    destruct (w_read w h p) as [x|] eqn:RE; [|discriminate].
    destruct (cbuild_same w (cget w fuel) (get w fuel) (cget_same w fuel) p x s (kept_history w l s H C)) as (r & s' & E' & K' & _ & F' & _). rewrite E' in E.
    destruct r as [u| |]; cbn [cbind app] in E; try discriminate. injection E as <- <-. cbn [c_nodes].
    destruct (assoc (cache_key h p) (c_nodes s')) as [u'|] eqn:A'; [|exists u; split; [reflexivity|]; rewrite assoc_insert, String.eqb_refl, A'; reflexivity].
    destruct (K' _ _ A') as (h' & p' & x' & f & KE & RE' & BE). apply cache_key_inj in KE. destruct KE as (<- & <-). rewrite RE in RE'. injection RE' as <-.
    destruct F' as (f2 & F'); [discriminate|]. exists u. split; [reflexivity|]. rewrite assoc_insert, String.eqb_refl, A'. f_equal.
    assert (Q : BOk u' = BOk u) by (rewrite <- (F' (max f f2)) by lia; symmetry; apply (build_mores w f); [lia|exact BE]). congruence. }
  assert (A2 : assoc (cache_key h p) (c_nodes s2) = Some u).
  { clear - NC C2 A. revert s1 A C2. induction l2 as [|[w' fuel path expr|] l2 IH]; intros s1 A C2; cbn [Cache.calls] in C2; [congruence| |].
    - apply Forall_cons_iff in NC. destruct NC as (_ & NC). assert (G := cget_grows w' fuel path expr s1).
      destruct (cget w' fuel path expr s1) as [[v|e|] s3|]; try discriminate; apply (IH NC _ (G _ _ A) C2).
    - apply Forall_cons_iff in NC. destruct NC as (NC & _). congruence. }
  cbn [Cache.cget]. rewrite OP'. cbn [Cache.opened]. unfold Cache.callback. rewrite A2. reflexivity.
Qed.

(** No call of any history looks at an empty stack. *)
Theorem C82_stack : forall w l s fuel path expr, history w l -> calls l new_builder = Some s -> cget w fuel path expr s <> CUb.
Proof using.
  intros w l s fuel path expr H C. destruct (cget_same w fuel path expr s (kept_history w l s H C)) as (r & s' & -> & _). discriminate.
Qed.
End Claims.

(** Two tables that include a third; the second is illegal after that. *)
Definition ex_world (v : string) : world :=
  mkW (fun _ e => if String.eqb e "*" then [FFile false "a.xml"; FFile false "b.xml"] else if String.eqb e "" then [FThrow IncorrectAddressTableFileCount] else [FFile false e])
      (fun _ p => if String.eqb p "a.xml" then Some (Xml [] [Xml [("id", "x"); ("module", "b.xml")] []; Xml [("id", "y"); ("address", "4"); ("module", "b.xml")] []])
                  else if String.eqb p "b.xml" then Some (Xml [("address", v)] [])
                  else if String.eqb p "c.xml" then Some (Xml [] [Xml [("id", "x"); ("module", "b.xml")] []; Xml [("address", "1")] []])
                  else None)%string.
Definition ex_cget := cget (fun _ => []) (fun s => Some (s, [])) sort_nodes (fun _ => false).
Definition ex_calls := calls (fun _ => []) (fun s => Some (s, [])) sort_nodes (fun _ => false).
Definition outcome (c : cres node) : option (list (string * N)) :=
  match c with CRes (BOk t) _ => Some (map (fun n => (a_id (n_at n), a_addr (n_at n))) (n_ch t)) | _ => None end.

Example C82_case : let w := ex_world "2" in let l := [OGet (ex_world "8") 4 "" "a.xml"; OClear; OGet w 4 "" "c.xml"; OGet w 4 "" "*"] in
  history w l /\
  exists s, ex_calls l new_builder = Some s /\ c_stack s = ["c.xml"]%string /\ map fst (c_nodes s) = ["fileb.xml"; "filea.xml"]%string /\
  outcome (ex_cget w 4 "" "a.xml" s) = Some [("x", 2); ("y", 6)]%string%N /\
  outcome (ex_cget w 4 "" "a.xml" new_builder) = Some [("x", 2); ("y", 6)]%string%N /\
  outcome (ex_cget (ex_world "9") 4 "" "a.xml" s) = Some [("x", 2); ("y", 6)]%string%N.
Proof.
  split.
  - right. eexists [_], [_; _]. split; [reflexivity|]. repeat (apply Forall_cons; [reflexivity|]). apply Forall_nil.
  - eexists. split; [vm_compute; reflexivity|]. vm_compute. auto 6.
Qed.

Print Assumptions C82_as_new.
Print Assumptions C82_table.
Print Assumptions C82_read_once.
Print Assumptions C82_stack.
