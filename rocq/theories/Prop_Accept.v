(** C81: which address tables are accepted. *)
From Coq Require Import NArith ZArith List Bool String Ascii Permutation Sorted Lia PeanoNat ZifyBool ZifyNat ZifyN.
From Verif Require Import Word NodeTree NodeProofs Prop_Node Rules Prop_Rules Attr Prop_Attr Builder BuildSpec BuilderProofs Prop_Builder.
Import ListNotations.
Open Scope N_scope.
Ltac Zify.zify_post_hook ::= Z.div_mod_to_equations.

(** ** Specification *)

(** A block, with its address relative to the node above it, ends inside the
    address space.  A block of size 0 counts as one of size 2^32. *)
Definition fits (n : node) : Prop :=
  a_mode (n_at n) = INCREMENTAL -> a_paddr (n_at n) + (if a_size (n_at n) =? 0 then 2 ^ 32 else a_size (n_at n)) <= 2 ^ 32.

(** The modules that [expr], found in file [path], refers to end: no file includes
    itself, directly or through others. *)
Inductive ends (files : string -> string -> option (string * xml)) (path expr : string) : Prop :=
| ends_intro :
    (forall path' x y e, files path expr = Some (path', x) -> inside y x -> attribute y "module" = Some e -> ends files path' e) ->
    ends files path expr.

(** ** Proofs *)

Lemma every_node P a m ch : every P (Node a m ch) <-> P (Node a m ch) /\ Forall (every P) ch.
Proof.
  unfold every. split.
  - intros H. split; [apply (H []); reflexivity|]. apply Forall_forall. intros c I p n G. destruct (In_nth_error _ _ I) as (i & NT).
    apply (H (i :: p)). cbn [get n_ch]. rewrite NT. exact G.
  - intros (H & F) [|i p] n G; cbn [get n_ch] in G; [congruence|]. destruct (nth_error ch i) as [c|] eqn:NT; [|discriminate].
    rewrite Forall_forall in F. exact (F c (nth_error_In _ _ NT) p n G).
Qed.

Lemma mapM_total {A B} (f : A -> bres B) l : Forall (fun x => exists y, f x = BOk y) l -> exists r, mapM f l = BOk r.
Proof.
  induction 1 as [|x l (y & E) F (r & IH)]; [exists []; reflexivity|]. exists (y :: r). cbn [mapM]. rewrite E. cbn [bind].
  change (bind (mapM f l) (fun ys => BOk (y :: ys)) = BOk (y :: r)). rewrite IH. reflexivity.
Qed.

Section Accept.
Variable parse_pars : string -> list (string * string).
Variable parse_fw : string -> option (string * list (string * string)).
Variable files : string -> string -> option (string * xml).
Variable sort : list node -> list node.
Variable is_class : string -> bool.
Hypothesis SORT : sort_ok sort.
Notation common := (common parse_pars parse_fw).
Notation describes := (describes parse_pars parse_fw files).
Notation element := (element parse_pars parse_fw is_class).
Notation get_node_tree := (get_node_tree parse_pars parse_fw files sort is_class).
Notation build := (build parse_pars parse_fw sort is_class).
Notation calculate := (calculate sort).

Lemma calculate_total : forall t addr, every fits t -> exists t', calculate t addr = BOk t'.
Proof using.
  apply (node_ind2 (fun t => forall addr, every fits t -> exists t', calculate t addr = BOk t')). intros a m ch IH addr K.
  apply every_node in K. destruct K as (K & F). cbn [Builder.calculate].
  assert (Z : mode_eqb (a_mode (put_mode a (final_mode a ch))) INCREMENTAL && negb (N.shiftr (a_paddr (put_mode a (final_mode a ch)) + sub32 (a_size (put_mode a (final_mode a ch))) 1) 32 =? 0) = false).
  { cbn [a_mode put_mode a_paddr a_size]. destruct (mode_eqb (final_mode a ch) INCREMENTAL) eqn:M; [|reflexivity]. cbn [andb].
    assert (M' : a_mode a = INCREMENTAL).
    { destruct (final_mode_cases a ch) as [X|(_ & X & _)]; rewrite X in M; [|discriminate]. destruct (a_mode a); try discriminate; reflexivity. }
    specialize (K M'). cbn [n_at] in K. apply negb_false_iff, N.eqb_eq. rewrite N.shiftr_div_pow2. apply N.div_small.
    unfold sub32, W32. change 4294967296 with (2 ^ 32). destruct (N.eqb_spec (a_size a) 0) as [E|E]; [rewrite E|];
    clear - K E; lia. }
  rewrite Z. clear Z. match goal with |- context [mapM ?f ch] => assert (M : exists r, mapM f ch = BOk r) end.
  { apply mapM_total. rewrite Forall_forall in *. intros c I. match goal with |- context [Builder.calculate sort c ?b] => destruct (IH c I b (F c I)) as (t' & E) end.
    rewrite E. cbn [bind]. eauto. }
  destruct M as (r & ->). cbn [bind]. eauto.
Qed.

(** ** Setters *)

Lemma find_dot_some s i : find_dot s 0 = Some i -> exists a b, s = (a ++ "." ++ b)%string.
Proof.
  revert i. induction s as [|c r IH]; intros i E; [discriminate|]. cbn [find_dot] in E. destruct (Ascii.eqb_spec c ".") as [->|N].
  - exists EmptyString, r. reflexivity.
  - destruct (find_dot r 0) as [j|] eqn:F; [|discriminate]. destruct (IH j eq_refl) as (a & b & ->). exists (String c a), b. reflexivity.
Qed.

Lemma last_split s : s <> EmptyString -> exists r c, s = (r ++ String c "")%string.
Proof.
  induction s as [|c r IH]; [congruence|]. intros _. destruct r as [|d r]; [exists EmptyString, c; reflexivity|].
  destruct IH as (r' & c' & E); [discriminate|]. exists (String c r'), c'. rewrite E. reflexivity.
Qed.

Lemma set_uid_total req x a : match attribute x "id" with Some s => legal_id s | None => req = false end -> exists a', set_uid req x a = BOk a'.
Proof.
  unfold set_uid. destruct (attribute x "id") as [s|]; [|intros ->; eauto]. intros (NE & ND & NS & NL).
  destruct (Nat.eqb_spec (String.length s) 0) as [L|L]; [destruct s; [congruence|discriminate]|].
  destruct (find_dot s 0) as [i|] eqn:D; [destruct (find_dot_some _ _ D) as (u & v & E); destruct (ND u v E)|].
  destruct (is_space (first_char s) || is_space (last_char s)) eqn:SP; [exfalso|eexists; reflexivity]. apply orb_true_iff in SP. destruct SP as [SP|SP].
  - destruct s as [|c r]; [congruence|]. cbn in SP. apply Ascii.eqb_eq in SP. subst c. apply (NS r). reflexivity.
  - destruct (last_split s NE) as (r & c & ->). unfold last_char in SP. rewrite get_last in SP. cbn in SP. apply Ascii.eqb_eq in SP. subst c. apply (NL r). reflexivity.
Qed.

Lemma attr_u32_total x name n d : number_or x name n d -> exists o, attr_u32 x name = BOk o /\ (attribute x name <> None -> o = Some n).
Proof.
  unfold number_or, attr_u32. destruct (attribute x name) as [s|]; [|intros _; exists None; split; [reflexivity|congruence]].
  intros ((k & D & L) & B). assert (P : parse_u32 s = Some n) by (apply C38_number; eauto). rewrite P. eauto.
Qed.

Lemma set_addr_total path req x a0 a1 a : common path req x a0 a1 -> exists a', set_addr x a = BOk a'.
Proof.
  intros C. destruct (co_addr _ _ _ _ _ _ _ C) as (n & NO & _). destruct (attr_u32_total _ _ _ _ NO) as (o & E & _). unfold set_addr. rewrite E. cbn [bind]. eauto.
Qed.

Lemma text_of_eq x name s : text_of x name s -> attr_str x name = s.
Proof. unfold text_of, attr_str. intros [->|(-> & ->)]; reflexivity. Qed.

Lemma set_fw_total path req x a0 a1 a : common path req x a0 a1 -> exists a', set_fw parse_fw x a = BOk a'.
Proof.
  intros C. destruct (co_fw _ _ _ _ _ _ _ C) as (s & T & l & L & _). apply text_of_eq in T. unfold set_fw. rewrite T.
  destruct L as [(-> & _)|(t & ps & NE & P & _)]; [cbn; eauto|]. rewrite P. destruct (Nat.eqb _ 0); eauto.
Qed.

Lemma set_perm_total x a b : permission x a -> exists b', set_perm x b = BOk b'.
Proof.
  unfold permission, set_perm. destruct (attribute x "permission") as [s|]; [|eauto]. cbn [In].
  intros H. assert (K : exists v, assoc s perm_lut = Some v); [|destruct K as ((r & w) & ->); eauto].
  repeat match goal with H : _ \/ _ |- _ => destruct H | H : _ /\ _ |- _ => destruct H | H : False |- _ => destruct H end; subst; vm_compute; eauto.
Qed.

Lemma set_mode_size_total x a ch b : mode_size x a ch -> exists b', set_mode_size x b = BOk b'.
Proof.
  unfold mode_size, set_mode_size. destruct (attribute x "mode") as [s|]; [|eauto].
  intros [(-> & _)|[(I & _ & NE & NO)|(I & _ & NO & _)]].
  - cbn. eauto.
  - destruct (attr_u32_total _ _ _ _ NO) as (o & E & K). specialize (K NE). subst o.
    assert (L : assoc s mode_lut = Some INCREMENTAL) by (destruct I as [<-|[<-|[<-|[]]]]; reflexivity). rewrite L, E. cbn [bind]. eauto.
  - destruct (attr_u32_total _ _ _ _ NO) as (o & E & _).
    assert (L : assoc s mode_lut = Some NON_INCREMENTAL) by (destruct I as [<-|[<-|[<-|[]]]]; reflexivity). rewrite L, E. cbn [bind]. eauto.
Qed.

Lemma co_uid path req x a0 a1 : common path req x a0 a1 -> match attribute x "id" with Some s => legal_id s | None => req = false end.
Proof. intros C. assert (X := co_id _ _ _ _ _ _ _ C). destruct (attribute x "id"); tauto. Qed.

Lemma plain_attrs_total path req x a ch : common path req x default_attrs a -> permission x a -> mode_size x a ch ->
  exists b, plain_attrs parse_pars parse_fw path req x = BOk b.
Proof.
  intros C P M. unfold plain_attrs. destruct (set_uid_total req x default_attrs (co_uid _ _ _ _ _ C)) as (a1 & ->). cbn [bind].
  destruct (set_addr_total _ _ _ _ _ a1 C) as (a2 & ->). cbn [bind]. destruct (set_fw_total _ _ _ _ _ (set_pars parse_pars x a2) C) as (a3 & ->). cbn [bind].
  match goal with |- context [set_perm x ?v] => destruct (set_perm_total x a v P) as (a4 & ->) end. cbn [bind]. eapply set_mode_size_total. exact M.
Qed.

Lemma mask_node_total path req x a : common path req x default_attrs a -> permission x a -> number_or x "mask" (a_mask a) NOMASK -> x_ch x = [] ->
  exists t, mask_node parse_pars parse_fw path req x = BOk t.
Proof.
  intros C P M X. unfold mask_node. rewrite X. destruct (set_uid_total req x default_attrs (co_uid _ _ _ _ _ C)) as (a1 & ->). cbn [bind].
  destruct (set_addr_total _ _ _ _ _ a1 C) as (a2 & ->). cbn [bind]. destruct (set_fw_total _ _ _ _ _ (set_pars parse_pars x (set_class x a2)) C) as (a3 & ->). cbn [bind].
  match goal with |- context [set_perm x ?v] => destruct (set_perm_total x a v P) as (a4 & ->) end. cbn [bind].
  destruct (attr_u32_total _ _ _ _ M) as (o & E & _). unfold set_mask. rewrite E. cbn [bind]. eauto.
Qed.

Lemma module_attrs_total path req x a0 a b : common path req x a0 a -> exists c, module_attrs parse_pars parse_fw path req x b = BOk c.
Proof.
  intros C. unfold module_attrs. destruct (set_uid_total req x b (co_uid _ _ _ _ _ C)) as (a1 & ->). cbn [bind].
  destruct (set_addr_total _ _ _ _ _ a1 C) as (a2 & ->). cbn [bind]. destruct (set_fw_total _ _ _ _ _ (set_pars parse_pars x (set_class x a2)) C) as (a3 & ->). cbn [bind]. eauto.
Qed.

(** ** The rules *)

(** Condition on the names of the attributes for handler [k]. *)
Definition kind (k : nat) (l : list string) : Prop :=
  match k with
  | O => forall s, In s ["mask"; "module"]%string -> ~ In s l
  | S O => In "mask"%string l /\ forall s, In s ["module"; "class"; "mode"; "size"]%string -> ~ In s l
  | S (S O) => In "module"%string l /\ forall s, In s ["mask"; "mode"; "size"; "permission"]%string -> ~ In s l
  | _ => False
  end.

Lemma parser_total (req : bool) : exists p, (if req then node_parser else top_parser) = Some p /\
  forall l k, (req = true -> In "id"%string l) -> (forall s, In s l -> In s known_names) -> kind k l -> parse p l = Run k.
Proof.
  set (rs := [mkRule (if req then ["id"] else []) ["module"; "mask"] ["class"; "id"; "address"; "parameters"; "fwinfo"; "permission"; "mode"; "size"; "tags"; "description"];
                mkRule (if req then ["mask"; "id"] else ["mask"]) ["class"; "module"; "mode"; "size"] ["address"; "parameters"; "fwinfo"; "permission"; "tags"; "description"];
                mkRule (if req then ["module"; "id"] else ["module"]) ["mask"; "mode"; "size"; "permission"] ["id"; "class"; "address"; "parameters"; "fwinfo"; "tags"; "description"]]%string).
  assert (exists p, (if req then node_parser else top_parser) = Some p /\ add_rules empty_parser rs = Some p) as (p & E & A).
  { destruct req; eexists; split; vm_compute; reflexivity. }
  exists p. split; [exact E|]. intros l k RI KN KD. clear E. destruct (C41_unique_handler rs p l A) as (_ & B).
  assert (M : forall s, In s l -> mentions rs s).
  { intros s I. specialize (KN s I). unfold known_names, mentions, rs in *. clear - KN. cbn [In] in KN.
    repeat destruct KN as [<-|KN]; try contradiction; eexists;
      first [split; [left; reflexivity|cbn; tauto]|split; [right; left; reflexivity|cbn; tauto]]. }
  apply (B M). clear B M A KN. unfold best, rs. destruct k as [|[|[|k]]]; cbn [kind] in KD; [| | |contradiction]; eexists; (split; [reflexivity|]); (split; [split|]).
  - cbn [r_req]. destruct req; intros s I; [|contradiction]. destruct I as [<-|[]]. auto.
  - cbn [r_forb]. intros s I J. apply (KD s); [cbn in *; tauto|exact I].
  - intros [|[|[|j]]] r' NE EN (S1 & _); [congruence| | |destruct j; discriminate]; exfalso; injection EN as <-; cbn [r_req] in S1.
    + apply (KD "mask"%string); [cbn; auto|]. apply S1. destruct req; cbn; auto.
    + apply (KD "module"%string); [cbn; auto|]. apply S1. destruct req; cbn; auto.
  - destruct KD as (KD & _). cbn [r_req]. destruct req; intros s I; cbn [In] in I; repeat destruct I as [<-|I]; auto; contradiction.
  - destruct KD as (_ & KD). cbn [r_forb]. intros s I J. apply (KD s); [cbn in *; tauto|exact I].
  - destruct KD as (K1 & KD). intros [|[|[|j]]] r' NE EN (S1 & S2); [|congruence| |destruct j; discriminate]; exfalso; injection EN as <-; cbn [r_req r_forb] in *.
    + apply (S2 _ K1). cbn. auto.
    + apply (KD "module"%string); [cbn; auto|]. apply S1. destruct req; cbn; auto.
  - destruct KD as (KD & _). cbn [r_req]. destruct req; intros s I; cbn [In] in I; repeat destruct I as [<-|I]; auto; contradiction.
  - destruct KD as (_ & KD). cbn [r_forb]. intros s I J. apply (KD s); [cbn in *; tauto|exact I].
  - destruct KD as (K1 & KD). intros [|[|[|j]]] r' NE EN (S1 & S2); [| |congruence|destruct j; discriminate]; exfalso; injection EN as <-; cbn [r_req r_forb] in *.
    + apply (S2 _ K1). cbn. auto.
    + apply (KD "mask"%string); [cbn; auto|]. apply S1. destruct req; cbn; auto.
Qed.

Lemma names_none x l : has_none x l -> forall s, In s l -> ~ In s (map fst (x_ats x)).
Proof. intros H s I. unfold has_none in H. rewrite Forall_forall in H. apply attribute_none. auto. Qed.

Lemma names_some x s : attribute x s <> None -> In s (map fst (x_ats x)).
Proof. intros H. destruct (in_dec string_dec s (map fst (x_ats x))) as [I|I]; [exact I|]. apply attribute_none in I. contradiction. Qed.

Lemma names_id path req x a0 a : common path req x a0 a -> req = true -> In "id"%string (map fst (x_ats x)).
Proof. intros C ->. apply names_some. intros E. assert (X := co_id _ _ _ _ _ _ _ C). rewrite E in X. destruct X. discriminate. Qed.

(** ** One step of [element] *)
Lemma element_eq load path req x : element load path req x =
    match (if req then node_parser else top_parser) with
    | None => BExc (Parser_exc LengthError)
    | Some p =>
      match parse p (map fst (x_ats x)) with
      | Run O =>
          bind (plain_attrs parse_pars parse_fw path req x) (fun a =>
              if mode_eqb (a_mode a) NON_INCREMENTAL then
                match x_ch x with
                | [] => BOk (convert is_class (Node a [] []))
                | _ :: _ => BExc BlockAccessNodeCannotHaveChild
                end
              else
                bind (mapM (element load path true) (x_ch x)) (fun cs =>
                BOk (convert is_class (Node a (children_map (number 0 cs)) (number 0 cs)))))
      | Run 1 => mask_node parse_pars parse_fw path req x
      | Run _ =>
          bind (load path (attr_str x "module")) (fun t =>
          bind (module_attrs parse_pars parse_fw path req x (n_at t)) (fun a =>
          BOk (convert is_class (Node a (n_map t) (n_ch t)))))
      | e => BExc (Parser_exc e)
      end
    end.
Proof. destruct x; reflexivity. Qed.

(** ** Two trees described by the same element *)

Lemma number_or_fun x name n n' d : number_or x name n d -> number_or x name n' d -> n = n'.
Proof.
  unfold number_or. destruct (attribute x name); [|congruence]. intros ((k & D & _) & _) ((k' & D' & _) & _). destruct (C38_one_value _ _ _ _ _ D D'). assumption.
Qed.

(** What [fits] depends on. *)
Definition same_top (a b : attrs) : Prop := a_paddr a = a_paddr b /\ a_size a = a_size b /\ (a_mode a = INCREMENTAL <-> a_mode b = INCREMENTAL).

Lemma mode_size_fun x a ch b ch' : mode_size x a ch -> mode_size x b ch' -> a_size a = a_size b /\ (a_mode a = INCREMENTAL <-> a_mode b = INCREMENTAL).
Proof.
  unfold mode_size. destruct (attribute x "mode") as [s|].
  - intros [(-> & M & Z)|[(I & M & _ & Z)|(I & M & Z & _)]] [(E & M' & Z')|[(I' & M' & _ & Z')|(I' & M' & Z' & _)]]; rewrite M, M';
      try (exfalso; cbn [In] in *; clear - I I'; intuition (subst; discriminate));
      try (exfalso; cbn [In] in *; clear - I'; intuition discriminate);
      try (exfalso; subst s; cbn [In] in *; clear - I; intuition discriminate);
      try (split; [eapply number_or_fun; eassumption|tauto]). split; [congruence|]. split; discriminate.
  - intros (M & Z) (M' & Z'). split; [congruence|]. destruct M as [M|(M & _)], M' as [M'|(M' & _)]; rewrite M, M'; split; discriminate.
Qed.

Lemma paddr_fun path req x a0 a b0 b : common path req x a0 a -> common path req x b0 b -> a_paddr a0 = a_paddr b0 -> a_paddr a = a_paddr b.
Proof.
  intros C C' E. destruct (co_addr _ _ _ _ _ _ _ C) as (n & NO & ->). destruct (co_addr _ _ _ _ _ _ _ C') as (n' & NO' & ->).
  rewrite (number_or_fun _ _ _ _ _ NO NO'), E. reflexivity.
Qed.

Lemma fits_same a m ch b m' ch' : same_top a b -> fits (Node a m ch) -> fits (Node b m' ch').
Proof. unfold same_top, fits. cbn [n_at]. intros (E1 & E2 & E3) F M. rewrite <- E1, <- E2. apply F. tauto. Qed.

Lemma lor_ge a b : a <= N.lor a b.
Proof. apply N.ldiff_le. apply N.bits_inj. intros i. rewrite N.ldiff_spec, N.lor_spec, N.bits_0. destruct (N.testbit a i), (N.testbit b i); reflexivity. Qed.

Lemma describes_fun path req x t : describes path req x t -> forall t', describes path req x t' ->
  same_top (n_at t) (n_at t') /\ (every fits t -> every fits t').
Proof.
  revert path req x t. apply (describes_ind2 parse_pars parse_fw files (fun path req x t => forall t', describes path req x t' ->
    same_top (n_at t) (n_at t') /\ (every fits t -> every fits t'))).
  - intros path req x t ch N C MK PE MS F PM t' D. unfold has_none in N. rewrite Forall_forall in N.
    assert (N1 : attribute x "mask" = None) by (apply N; cbn; auto). assert (N2 : attribute x "module" = None) by (apply N; cbn; auto).
    inversion D as [? ? ? ? ch' N' C' MK' PE' MS' F' PM'|? ? ? ? N' _ C' M' PE' MS' X T|? ? ? ? e p' x' b0 m0' A]; subst; [|congruence|congruence].
    assert (ST : same_top (n_at t) (n_at t')).
    { split; [eapply paddr_fun; [exact C|exact C'|reflexivity]|]. eapply mode_size_fun; eassumption. }
    split; [exact ST|]. destruct t as [a m c], t' as [a' m' c']. cbn [n_at n_ch] in *. rewrite !every_node. intros (K & FK). split; [eapply fits_same; eassumption|].
    eapply Permutation_Forall; [exact PM'|]. apply (Permutation_Forall (Permutation_sym PM)) in FK. clear - F F' FK.
    revert ch' F'. induction F as [|y d l l' (D & H) F IH]; intros ch' F'; inversion F'; subst; constructor; inversion FK; subst; [|auto].
    match goal with H1 : describes path true y ?v |- every fits ?v => destruct (H v H1) as (_ & Q) end. auto.
  - intros path req x t N1 N C M PE MS X T t' D. unfold has_none in N. rewrite Forall_forall in N. assert (N2 : attribute x "module" = None) by (apply N; cbn; auto).
    inversion D as [? ? ? ? ch' N' C' MK' PE' MS' F' PM'|? ? ? ? N' _ C' M' PE' MS' X' T'|? ? ? ? e p' x' b0 m0' A]; subst; [| |congruence].
    + unfold has_none in N'. rewrite Forall_forall in N'. exfalso. apply N1, N'. cbn. auto.
    + assert (ST : same_top (n_at t) (n_at t')).
      { split; [eapply paddr_fun; [exact C|exact C'|reflexivity]|]. eapply mode_size_fun; eassumption. }
      split; [exact ST|]. destruct t as [a m c], t' as [a' m' c']. cbn [n_at n_ch] in *. subst c c'. rewrite !every_node. intros (K & _). split; [eapply fits_same; eassumption|constructor].
  - intros path req x t expr path' x' a0 m0 A N FI D0 IH C E1 E2 E3 E4 E5 t' D. unfold has_none in N. rewrite Forall_forall in N. assert (N1 : attribute x "mask" = None) by (apply N; cbn; auto).
    inversion D as [? ? ? ? ch' N' C' MK' PE' MS' F' PM'|? ? ? ? N' _ C' M' PE' MS' X' T'|? ? ? ? e p' x1 b0 m0' A' _ FI' D' C' E1' E2' E3' E4' E5']; subst.
    + unfold has_none in N'. rewrite Forall_forall in N'. assert (attribute x "module" = None) by (apply N'; cbn; auto). congruence.
    + congruence.
    + rewrite A in A'. injection A' as <-. rewrite FI in FI'. injection FI' as <- <-. destruct (IH _ D') as ((Q1 & Q2 & Q3) & FK). cbn [n_at] in *.
      assert (ST : same_top (n_at t) (n_at t')).
      { split; [eapply paddr_fun; eassumption|]. rewrite E4, E5, E4', E5'. auto. }
      split; [exact ST|]. destruct t as [a m c], t' as [a' m' c']. cbn [n_at n_ch] in *. rewrite !every_node in *. intros (K & KC). split; [eapply fits_same; eassumption|].
      apply FK. split; [|exact KC]. unfold fits in *. cbn [n_at] in *. rewrite E4, E5 in K. intros M. specialize (K M).
      destruct (co_addr _ _ _ _ _ _ _ C) as (n & _ & EP). rewrite EP in K. assert (L := lor_ge (a_paddr a0) n). clear - K L. destruct (a_size a0 =? 0); lia.
Qed.

(** ** Acceptance *)

Lemma load_ok f : forall path expr t, get_node_tree f path expr = BOk t ->
  wf t /\ exists path' x', files path expr = Some (path', x') /\ describes path' false x' t.
Proof. intros path expr t E. destruct (get_node_tree_ok _ _ _ _ _ SORT _ _ _ _ E) as (A & _ & _ & D). auto. Qed.

Lemma element_total path req x t : describes path req x t -> every fits t ->
  exists f, forall f', (f <= f')%nat -> exists t0, element (get_node_tree f') path req x = BOk t0.
Proof.
  revert path req x t. apply (describes_ind2 parse_pars parse_fw files (fun path req x t => every fits t ->
    exists f, forall f', (f <= f')%nat -> exists t0, element (get_node_tree f') path req x = BOk t0)).
  - intros path req x t ch N C MK PE MS F PM K. destruct t as [a m c]. cbn [n_at n_ch] in *. apply every_node in K. destruct K as (K & KC).
    apply (Permutation_Forall (Permutation_sym PM)) in KC.
    assert (exists f, forall f', (f <= f')%nat -> Forall (fun y => exists t0, element (get_node_tree f') path true y = BOk t0) (x_ch x)) as (f & HF).
    { clear - F KC. induction F as [|y d l l' (D & H) F IH]; [exists 0%nat; constructor|]. apply Forall_cons_iff in KC. destruct KC as (KD & KC).
      destruct (H KD) as (f1 & H1). destruct (IH KC) as (f2 & H2). exists (Nat.max f1 f2). intros f' L.
      constructor; [apply H1|apply H2]; lia. }
    exists f. intros f' L. specialize (HF f' L). apply mapM_total in HF. destruct HF as (cs & CS). rewrite element_eq.
    destruct (parser_total req) as (p & -> & R). rewrite (R _ 0%nat); [|exact (names_id _ _ _ _ _ C)|exact (co_known _ _ _ _ _ _ _ C)|exact (names_none _ _ N)].
    destruct (plain_attrs_total _ _ _ _ _ C PE MS) as (b & PA). rewrite PA. cbn [bind]. rewrite CS. cbn [bind].
    destruct (mode_eqb (a_mode b) NON_INCREMENTAL) eqn:M; [|eauto].
    assert (X : x_ch x = []); [|rewrite X; eauto].
    assert (MB : a_mode b = NON_INCREMENTAL) by (destruct (a_mode b); try discriminate; reflexivity).
    (* the mode word decides *)
    unfold plain_attrs in PA. apply bind_ok in PA. destruct PA as (a1 & U & PA). apply bind_ok in PA. destruct PA as (a2 & A & PA).
    apply bind_ok in PA. destruct PA as (a3 & B & PA). cbn zeta in PA. destruct (decorate1 parse_pars parse_fw path _ _ _ B) as (DE & FW). rewrite DE in PA.
    apply bind_ok in PA. destruct PA as (a4 & P4 & PA).
    destruct (three_steps parse_pars parse_fw files is_class path _ _ _ _ _ _ (co_known _ _ _ _ _ _ _ C) U A FW) as (_ & F1 & F2 & F3 & F4 & F5).
    destruct (set_perm_ok _ _ _ P4 F2 F3) as (_ & r & w & ->). unfold set_mode_size in PA. unfold mode_size in MS.
    destruct (attribute x "mode") as [s|].
    + destruct MS as [(-> & _)|[(I & _)|(_ & _ & _ & X)]]; [| |exact X]; exfalso.
      * cbn in PA. injection PA as <-. discriminate.
      * assert (LU : assoc s mode_lut = Some INCREMENTAL) by (destruct I as [<-|[<-|[<-|[]]]]; reflexivity). rewrite LU in PA.
        apply bind_ok in PA. destruct PA as ([o|] & _ & PA); [|discriminate]. injection PA as <-. discriminate.
    + exfalso. injection PA as <-. change (a_mode a2 = NON_INCREMENTAL) in MB. rewrite F4 in MB. discriminate.
  - intros path req x t N1 N C M PE MS X T K. exists 0%nat. intros f' _. rewrite element_eq. destruct (parser_total req) as (p & -> & R).
    rewrite (R _ 1%nat); [|exact (names_id _ _ _ _ _ C)|exact (co_known _ _ _ _ _ _ _ C)|exact (conj (names_some _ _ N1) (names_none _ _ N))].
    eapply mask_node_total; eassumption.
  - intros path req x t expr path' x' a0 m0 A N FI D IH C E1 E2 E3 E4 E5 K. destruct t as [a m c]. cbn [n_at n_ch] in *. apply every_node in K. destruct K as (K & KC).
    assert (K0 : every fits (Node a0 m0 c)).
    { apply every_node. split; [|exact KC]. unfold fits in *. cbn [n_at] in *. rewrite E4, E5 in K. intros M. specialize (K M).
      destruct (co_addr _ _ _ _ _ _ _ C) as (n & _ & EP). rewrite EP in K. assert (L := lor_ge (a_paddr a0) n). clear - K L. destruct (a_size a0 =? 0); lia. }
    destruct (IH K0) as (f & H). exists (S f). intros [|f'] L; [lia|]. rewrite element_eq. destruct (parser_total req) as (p & -> & R).
    assert (NE : attribute x "module" <> None) by congruence.
    rewrite (R _ 2%nat); [|exact (names_id _ _ _ _ _ C)|exact (co_known _ _ _ _ _ _ _ C)|exact (conj (names_some _ _ NE) (names_none _ _ N))].
    unfold attr_str. rewrite A. cbn [Builder.get_node_tree]. rewrite FI. destruct (H f' ltac:(lia)) as (t0 & ET). unfold Builder.build. rewrite ET. cbn [bind].
    destruct (element_ok _ _ _ _ _ (load_ok f') _ _ _ _ ET) as (D0 & _). destruct (describes_fun _ _ _ _ D _ D0) as (_ & Q).
    destruct (calculate_total t0 0 (Q K0)) as (t1 & ->). cbn [bind].
    destruct (module_attrs_total _ _ _ _ _ (n_at (clone t1)) C) as (b & ->). cbn [bind]. eauto.
Qed.

(** More fuel gives the same result. *)
Lemma element_more load load' : (forall p e, load p e <> BFuel -> load' p e = load p e) ->
  forall x path req, element load path req x <> BFuel -> element load' path req x = element load path req x.
Proof.
  intros HL. apply (xml_ind2 (fun x => forall path req, element load path req x <> BFuel -> element load' path req x = element load path req x)).
  intros l xs IH path req NF. rewrite element_eq in NF. rewrite !element_eq. destruct (if req then node_parser else top_parser) as [p|]; [|reflexivity].
  destruct (parse p _) as [[|[|k]]| | | |]; try reflexivity.
  - destruct (plain_attrs parse_pars parse_fw path req (Xml l xs)) as [a| |]; try reflexivity. cbn [bind] in *. destruct (mode_eqb (a_mode a) NON_INCREMENTAL); [reflexivity|].
    cbn [x_ch] in *. assert (M : mapM (element load path true) xs <> BFuel -> mapM (element load' path true) xs = mapM (element load path true) xs).
    { clear - IH. induction IH as [|y ys H IH IHF]; [reflexivity|]. cbn [mapM]. change (bind (element load path true y) (fun z => bind (mapM (element load path true) ys) (fun zs => BOk (z :: zs))) <> BFuel ->
        bind (element load' path true y) (fun z => bind (mapM (element load' path true) ys) (fun zs => BOk (z :: zs))) = bind (element load path true y) (fun z => bind (mapM (element load path true) ys) (fun zs => BOk (z :: zs)))).
      intros NF. rewrite (H path true) by (intros E; rewrite E in NF; apply NF; reflexivity). destruct (element load path true y) as [z| |]; try reflexivity. cbn [bind] in *.
      rewrite IHF; [reflexivity|]. intros E. rewrite E in NF. apply NF. reflexivity. }
    rewrite M; [reflexivity|]. intros E. rewrite E in NF. apply NF. reflexivity.
  - rewrite HL; [reflexivity|]. intros E. rewrite E in NF. apply NF. reflexivity.
Qed.

Lemma more_fuel f : forall path expr, get_node_tree f path expr <> BFuel -> get_node_tree (S f) path expr = get_node_tree f path expr.
Proof.
  induction f as [|f IH]; intros path expr NF; [exfalso; apply NF; reflexivity|]. cbn [Builder.get_node_tree] in NF.
  change (get_node_tree (S (S f)) path expr) with (match files path expr with None => BExc IncorrectAddressTableFileCount | Some (path', x) => bind (build (get_node_tree (S f)) path' x) (fun t => BOk (clone t)) end).
  cbn [Builder.get_node_tree]. destruct (files path expr) as [(path', x)|]; [|reflexivity].
  unfold Builder.build in *. rewrite (element_more _ _ IH); [reflexivity|]. intros E. rewrite E in NF. apply NF. reflexivity.
Qed.

Lemma more_fuels f f' path expr : (f <= f')%nat -> get_node_tree f path expr <> BFuel -> get_node_tree f' path expr = get_node_tree f path expr.
Proof. induction 1 as [|f' L IH]; intros NF; [reflexivity|]. rewrite more_fuel; [auto|]. rewrite (IH NF). exact NF. Qed.

(** The steps that do not load files. *)
Lemma nf_bind {A B} (r : bres A) (f : A -> bres B) : r <> BFuel -> (forall x, f x <> BFuel) -> bind r f <> BFuel.
Proof. destruct r; cbn [bind]; [auto|discriminate|congruence]. Qed.
Lemma nf_ok {A} (x : A) : BOk x <> BFuel.
Proof. discriminate. Qed.
Lemma nf_uid req x a : set_uid req x a <> BFuel.
Proof. unfold set_uid. destruct (attribute x "id"); [destruct (Nat.eqb _ 0); [|destruct (find_dot _ 0); [|destruct (_ || _)]]|destruct req]; discriminate. Qed.
Lemma nf_u32 x s : attr_u32 x s <> BFuel.
Proof. unfold attr_u32. destruct (attribute x s); [destruct (parse_u32 _)|]; discriminate. Qed.
Lemma nf_fw x a : set_fw parse_fw x a <> BFuel.
Proof. unfold set_fw. destruct (Nat.eqb _ 0); [|destruct (parse_fw _) as [[? ?]|]]; discriminate. Qed.
Lemma nf_perm x a : set_perm x a <> BFuel.
Proof. unfold set_perm. destruct (attribute x "permission"); [destruct (assoc _ _) as [[? ?]|]|]; discriminate. Qed.
Lemma nf_mode x a : set_mode_size x a <> BFuel.
Proof.
  unfold set_mode_size. destruct (attribute x "mode"); [|discriminate]. destruct (assoc _ _) as [[]|]; try discriminate; apply nf_bind; try apply nf_u32; intros [?|]; discriminate.
Qed.

(** ** The claims *)

(** C81.  A table is accepted just when there is a tree that it describes and whose
    blocks fit; whatever the order in which std::sort leaves equal addresses. *)
Theorem C81_accepted : forall path expr,
  (exists fuel t, get_node_tree fuel path expr = BOk t) <->
  (exists path' x t, files path expr = Some (path', x) /\ describes path' false x t /\ every fits t).
Proof.
  intros path expr. split.
  - intros (fuel & t & E). destruct (get_node_tree_ok _ _ _ _ _ SORT _ _ _ _ E) as (_ & _ & SE & path' & x & FI & D). exists path', x, t. split; [exact FI|]. split; [exact D|].
    intros p n G M. destruct (settled_get _ _ _ _ SE G) as (_ & b & SN). inversion SN as [? a m ch EA SS I Hh F]; subst. cbn [n_at] in *. specialize (I M).
    destruct (describes_node parse_pars parse_fw files is_class _ _ _ _ D _ _ G) as (q & r & y & _ & DN & _).
    assert (SZ : a_size a < 2 ^ 32).
    { clear - DN. remember (Node a m ch) as n eqn:EN. replace (a_size a) with (a_size (n_at n)) by (rewrite EN; reflexivity). clear EN.
      revert q r y n DN. apply (describes_ind2 parse_pars parse_fw files (fun q r y n => a_size (n_at n) < 2 ^ 32)).
      - intros path req x t ch' _ _ _ _ MS _ _. unfold mode_size, number_or in MS. destruct (attribute x "mode"); destruct (attribute x "size"); intuition lia.
      - intros path req x t _ _ _ _ _ MS _ _. unfold mode_size, number_or in MS. destruct (attribute x "mode"); destruct (attribute x "size"); intuition lia.
      - intros path req x t expr path' x' a0 m0 _ _ _ _ K _ _ _ _ _ ->. exact K. }
    unfold sub32, W32 in I. change 4294967296 with (2 ^ 32) in I. clear - I SZ. destruct (N.eqb_spec (a_size a) 0) as [E|E]; [rewrite E in I|]; lia.
  - intros (path' & x & t & FI & D & K). destruct (element_total _ _ _ _ D K) as (f & H). destruct (H f (le_n f)) as (t0 & E). exists (S f).
    cbn [Builder.get_node_tree]. rewrite FI. unfold Builder.build. rewrite E. cbn [bind]. destruct (element_ok _ _ _ _ _ (load_ok f) _ _ _ _ E) as (D0 & _).
    destruct (describes_fun _ _ _ _ D _ D0) as (_ & Q). destruct (calculate_total t0 0 (Q K)) as (t1 & ->). cbn [bind]. eauto.
Qed.

(** The result does not depend on the fuel. *)
Theorem C81_one_result : forall f f' path expr, get_node_tree f path expr <> BFuel -> get_node_tree f' path expr <> BFuel ->
  get_node_tree f path expr = get_node_tree f' path expr.
Proof.
  intros f f' path expr N N'. destruct (Nat.le_ge_cases f f') as [L|L]; [symmetry|]; apply more_fuels; assumption.
Qed.

(** Files without circular inclusion: the builder comes to an end, with a tree or
    an exception. *)
Theorem C81_ends : forall path expr, ends files path expr -> exists fuel, get_node_tree fuel path expr <> BFuel.
Proof.
  intros path expr H. induction H as [path expr H IH].
  destruct (files path expr) as [(path', x)|] eqn:FI; [|exists 1%nat; cbn [Builder.get_node_tree]; rewrite FI; discriminate].
  assert (exists f, forall f', (f <= f')%nat -> element (get_node_tree f') path' false x <> BFuel) as (f & HF).
  { assert (HX : forall y e, inside y x -> attribute y "module" = Some e -> exists fuel, get_node_tree fuel path' e <> BFuel) by (intros y e I A; eapply IH; [reflexivity|exact I|exact A]).
    clear - HX. generalize false. revert HX. apply (xml_ind2 (fun x => (forall y e, inside y x -> attribute y "module" = Some e -> exists fuel, get_node_tree fuel path' e <> BFuel) ->
      forall req, exists f, forall f', (f <= f')%nat -> element (get_node_tree f') path' req x <> BFuel)).
    intros l xs IHx HX req. destruct (attribute (Xml l xs) "module") as [e|] eqn:A.
    - destruct (HX _ e (in_self _) A) as (f & NF). exists f. intros f' L. rewrite element_eq. destruct (if req then node_parser else top_parser) as [p|] eqn:PA; [|discriminate].
      destruct (parse p _) as [k| | | |] eqn:R; try discriminate. destruct (parser_run _ _ _ _ PA R) as (_ & _ & K).
      destruct k as [|[|k]].
      + exfalso. apply (K "module"%string); [cbn; auto|]. apply names_some. congruence.
      + destruct K as (_ & K). exfalso. apply (K "module"%string); [cbn; auto|]. apply names_some. congruence.
      + unfold attr_str. rewrite A. rewrite (more_fuels _ _ _ _ L NF). destruct (get_node_tree f path' e) as [t| |]; [|discriminate|congruence]. cbn [bind].
        apply nf_bind; [|intros; apply nf_ok]. unfold module_attrs, set_addr. repeat first [apply nf_uid|apply nf_u32|apply nf_fw|apply nf_ok|apply nf_bind; [|intros]].
    - assert (exists f, forall f', (f <= f')%nat -> Forall (fun y => element (get_node_tree f') path' true y <> BFuel) xs) as (f & HF).
      { assert (HC : forall c, In c xs -> forall y e, inside y c -> attribute y "module" = Some e -> exists fuel, get_node_tree fuel path' e <> BFuel).
        { intros c I y e IN AY. eapply HX; [|exact AY]. eapply in_child; [exact A|exact I|exact IN]. }
        clear - IHx HC. induction IHx as [|y ys H IHx IHF]; [exists 0%nat; constructor|].
        destruct (H (HC y (or_introl eq_refl)) true) as (f1 & H1). destruct IHF as (f2 & H2); [intros c I; apply HC; right; exact I|].
        exists (Nat.max f1 f2). intros f' L. constructor; [apply H1|apply H2]; lia. }
      exists f. intros f' L. specialize (HF f' L). rewrite element_eq. destruct (if req then node_parser else top_parser) as [p|] eqn:PA; [|discriminate].
      destruct (parse p _) as [k| | | |] eqn:R; try discriminate. destruct (parser_run _ _ _ _ PA R) as (_ & _ & K). destruct k as [|[|k]].
      + destruct (plain_attrs parse_pars parse_fw path' req (Xml l xs)) as [a| |] eqn:PL; [|discriminate|].
        * cbn [bind]. destruct (mode_eqb (a_mode a) NON_INCREMENTAL); [destruct (x_ch (Xml l xs)); discriminate|]. cbn [x_ch].
          assert (M : mapM (element (get_node_tree f') path' true) xs <> BFuel).
          { clear - HF. induction HF as [|y ys H HF IHF]; [discriminate|]. cbn [mapM]. change (bind (element (get_node_tree f') path' true y) (fun z => bind (mapM (element (get_node_tree f') path' true) ys) (fun zs => BOk (z :: zs))) <> BFuel).
            destruct (element (get_node_tree f') path' true y); [|discriminate|congruence]. cbn [bind]. destruct (mapM (element (get_node_tree f') path' true) ys); [discriminate|discriminate|congruence]. }
          destruct (mapM (element (get_node_tree f') path' true) xs); [discriminate|discriminate|congruence].
        * exfalso. revert PL. change (plain_attrs parse_pars parse_fw path' req (Xml l xs) <> BFuel). unfold plain_attrs, set_addr. cbn zeta.
          repeat first [apply nf_uid|apply nf_u32|apply nf_fw|apply nf_perm|apply nf_mode|apply nf_ok|apply nf_bind; [|intros]].
      + unfold mask_node, set_addr, set_mask. cbn zeta. destruct (x_ch (Xml l xs)); [|discriminate].
        repeat first [apply nf_uid|apply nf_u32|apply nf_fw|apply nf_perm|apply nf_ok|apply nf_bind; [|intros]].
      + exfalso. destruct k as [|k]; [|exact K]. destruct K as (K & _). destruct (attribute_some _ _ K) as (v & E). congruence. }
  exists (S f). cbn [Builder.get_node_tree]. rewrite FI. unfold Builder.build. specialize (HF f (le_n f)).
  destruct (element (get_node_tree f) path' false x) as [t| |]; [|discriminate|congruence]. cbn [bind].
  assert (CF : forall t addr, calculate t addr <> BFuel).
  { apply (node_ind2 (fun t => forall addr, calculate t addr <> BFuel)). intros a m ch F addr. cbn [Builder.calculate].
    destruct (_ && _); [discriminate|]. match goal with |- context [mapM ?g ch] => assert (M : mapM g ch <> BFuel) end.
    { generalize (a_addr (put_addr (put_mode a (final_mode a ch)) (add32 (a_paddr (put_mode a (final_mode a ch))) addr))). clear - F. intros b.
      induction F as [|c cs H F IHF]; [discriminate|]. cbn [mapM]. match goal with |- bind (bind ?u ?v) ?w <> _ => destruct u eqn:E end; [|discriminate|exfalso; exact (H _ E)].
      cbn [bind]. match goal with |- bind ?u _ <> _ => change u with (mapM (fun c0 : node => bind (calculate c0 b) (fun c' : node => BOk (with_attrs c' (fun b0 : attrs => set_linked b0 true)))) cs); destruct (mapM (fun c0 : node => bind (calculate c0 b) (fun c' : node => BOk (with_attrs c' (fun b0 : attrs => set_linked b0 true)))) cs) eqn:E2 end; [discriminate|discriminate|congruence]. }
    match goal with |- context [mapM ?g ch] => destruct (mapM g ch) end; [discriminate|discriminate|congruence]. }
  specialize (CF t 0). destruct (calculate t 0); [discriminate|discriminate|congruence].
Qed.
End Accept.

(** The inclusion of a file by another ends. *)
Example C81_ends_case : ends ex_files EmptyString "file://top.xml".
Proof.
  constructor. intros path' x y e FI IN A. vm_compute in FI. injection FI as <- <-.
  assert (E : e = "file://sub.xml"%string).
  { unfold ex_top in IN. inversion IN as [E0|x0 c _ IC IN']; subst; [vm_compute in A; discriminate|]. cbn [x_ch In] in IC.
    repeat destruct IC as [<-|IC]; try contradiction; inversion IN' as [E0|x1 c1 NM IC' IN'']; subst; try (vm_compute in A; congruence); try (vm_compute in NM; discriminate);
      cbn [x_ch In] in IC'; repeat destruct IC' as [<-|IC']; try contradiction; inversion IN'' as [E1|x2 c2 _ IC2 _]; subst; try (vm_compute in A; congruence); try (cbn in IC2; contradiction). }
  subst e. constructor. intros path' x y' e FI IN' A'. vm_compute in FI. injection FI as <- <-. exfalso.
  inversion IN' as [E0|x0 c _ IC IN2]; subst; [vm_compute in A'; discriminate|]. cbn [x_ch In] in IC.
  repeat destruct IC as [<-|IC]; try contradiction; inversion IN2 as [E1|x1 c1 _ IC1 _]; subst; try (vm_compute in A'; discriminate); try (cbn in IC1; contradiction).
Qed.

(** A table with a module, blocks and masks is described and fits, for it is
    accepted. *)
Example C81_case : sort_ok sort_nodes /\
  exists path' x t, ex_files EmptyString "file://top.xml" = Some (path', x) /\
    describes (fun _ => []) (fun s => Some (s, [])) ex_files path' false x t /\ every fits t.
Proof.
  split; [apply sort_nodes_ok|]. destruct builder_case as (SO & (t & E & _) & _). assert (X : forall fs e, ex_build fs e = get_node_tree (fun _ => []) (fun s => Some (s, [])) fs sort_nodes (fun _ => false) 3 EmptyString e) by reflexivity.
  rewrite X in E. clear X.
  exact (proj1 (C81_accepted (fun _ => []) (fun s => Some (s, [])) ex_files sort_nodes (fun _ => false) SO EmptyString "file://top.xml") (ex_intro _ 3%nat (ex_intro _ t E))).
Qed.

(** An attribute that is not known. *)
Example C81_unknown :
  ~ (exists fuel t, get_node_tree (fun _ => []) (fun s => Some (s, [])) (one_child [("id", "a"); ("colour", "red")]%string) sort_nodes (fun _ => false) fuel EmptyString "x" = BOk t).
Proof.
  intros H. apply C81_accepted in H; [|apply sort_nodes_ok]. destruct H as (path' & x & t & FI & D & _). injection FI as <- <-.
  destruct (describes_inside (fun _ => []) (fun s => Some (s, [])) (one_child [("id", "a"); ("colour", "red")]%string) (fun _ => false) (Xml [("id", "a"); ("colour", "red")]%string []) (Xml [("id", "TOP")]%string [Xml [("id", "a"); ("colour", "red")]%string []]))
    with (path := "f.xml"%string) (req := false) (t := t) as (p & n & r & _ & DN & _).
  + eapply in_child; [reflexivity|left; reflexivity|constructor].
  + exact D.
  + assert (exists a0, common (fun _ => []) (fun s => Some (s, [])) "f.xml" r (Xml [("id", "a"); ("colour", "red")]%string []) a0 (n_at n)) as (a0 & C) by (inversion DN; subst; eauto).
    assert (X := co_known _ _ _ _ _ _ _ C "colour"%string (or_intror (or_introl eq_refl))). cbn in X. intuition discriminate.
Qed.

Print Assumptions C81_accepted.
Print Assumptions C81_one_result.
Print Assumptions C81_ends.
