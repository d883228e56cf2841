(** Proofs about the builder. *)
From Coq Require Import NArith ZArith List Bool String Ascii Permutation Sorted Lia PeanoNat ZifyBool ZifyNat ZifyN.
From Verif Require Import Word NodeTree NodeProofs Prop_Node Rules Prop_Rules Attr Prop_Attr Builder BuildSpec.
Import ListNotations.
Open Scope N_scope.
Ltac Zify.zify_post_hook ::= Z.div_mod_to_equations.

(** ** Trees up to absolute addresses and the order of children *)

Record alike_at (ch : list node) (a a' : attrs) : Prop := {
  al_id : a_id a' = a_id a;
  al_paddr : a_paddr a' = a_paddr a;
  al_mask : a_mask a' = a_mask a;
  al_r : a_r a' = a_r a;
  al_w : a_w a' = a_w a;
  al_size : a_size a' = a_size a;
  al_tags : a_tags a' = a_tags a;
  al_desc : a_desc a' = a_desc a;
  al_module : a_module a' = a_module a;
  al_class : a_class a' = a_class a;
  al_pars : a_pars a' = a_pars a;
  al_fw : a_fw a' = a_fw a;
  al_mode : a_mode a' = a_mode a \/ (a_mode a = HIERARCHICAL /\ a_mode a' = SINGLE /\ masked ch)
}.

Inductive alike : node -> node -> Prop :=
| alike_node a m ch a' m' ch' ch1 :
    alike_at ch a a' -> Forall2 alike ch ch1 -> Permutation ch1 ch' -> alike (Node a m ch) (Node a' m' ch').

Lemma Forall2_perm {A B} (R : A -> B -> Prop) l l' : Permutation l l' -> forall k', Forall2 R l' k' ->
  exists k, Forall2 R l k /\ Permutation k k'.
Proof.
  induction 1 as [|x l l' P IH|x y l|l l' l'' P1 IH1 P2 IH2]; intros k' F.
  - inversion F; subst. exists []. split; constructor.
  - inversion F as [|? z ? k0 Rz F']; subst. destruct (IH _ F') as (k & F2 & P2). exists (z :: k). split; [constructor; assumption|constructor; assumption].
  - inversion F as [|? z ? k0 Rz F']; subst. inversion F' as [|? z' ? k1 Rz' F'']; subst.
    exists (z' :: z :: k1). split; [constructor; [assumption|constructor; assumption]|constructor].
  - destruct (IH2 _ F) as (k1 & F1 & Q1). destruct (IH1 _ F1) as (k2 & F2 & Q2). exists k2. split; [exact F2|]. eapply Permutation_trans; eassumption.
Qed.

Lemma Forall2_mono {A B} (R Q : A -> B -> Prop) l r : (forall x y, In x l -> R x y -> Q x y) -> Forall2 R l r -> Forall2 Q l r.
Proof. intros H F. induction F as [|x y l r E F IH]; constructor; [apply H; cbn; auto|apply IH; intros; apply H; cbn; auto]. Qed.

Section Proofs.
Variable parse_pars : string -> list (string * string).
Variable parse_fw : string -> option (string * list (string * string)).
Variable files : string -> string -> option (string * xml).
Variable sort : list node -> list node.
Variable is_class : string -> bool.
Hypothesis SORT : sort_ok sort.

Notation common := (common parse_pars parse_fw).
Notation describes := (describes parse_pars parse_fw files).
Notation element := (element parse_pars parse_fw is_class).
Notation get_node_tree := (get_node_tree parse_pars parse_fw files sort is_class).
Notation build := (build parse_pars parse_fw sort is_class).
Notation calculate := (calculate sort).

Lemma common_alike path req x a0 ch a a' : alike_at ch a a' -> common path req x a0 a -> common path req x a0 a'.
Proof.
  intros [E1 E2 E3 E4 E5 E6 E7 E8 E9 E10 E11 E12 E13] [C1 C2 C3 C4 C5 C6 C7 C8].
  constructor; rewrite ?E1, ?E2, ?E7, ?E8, ?E9, ?E10, ?E11, ?E12; assumption.
Qed.

Lemma permission_alike x ch a a' : alike_at ch a a' -> permission x a -> permission x a'.
Proof. intros [E1 E2 E3 E4 E5 E6 E7 E8 E9 E10 E11 E12 E13]. unfold permission. rewrite E4, E5. trivial. Qed.

Lemma alike_mask t t' : alike t t' -> a_mask (n_at t') = a_mask (n_at t).
Proof. inversion 1 as [a m ch a' m' ch' ch1 A F P]; subst. apply (al_mask _ _ _ A). Qed.

Lemma masked_alike ch ch1 ch' : Forall2 alike ch ch1 -> Permutation ch1 ch' -> masked ch -> masked ch'.
Proof.
  intros F P M. unfold masked in *. eapply Permutation_Forall; [exact P|]. clear P.
  induction F as [|c c1 l l1 A F IH]; [constructor|]. inversion M; subst. constructor; [|auto]. rewrite (alike_mask _ _ A). assumption.
Qed.

Lemma mode_size_alike x a ch a' ch1 ch' : alike_at ch a a' -> Forall2 alike ch ch1 -> Permutation ch1 ch' ->
  mode_size x a ch -> mode_size x a' ch'.
Proof using.
  intros [E1 E2 E3 E4 E5 E6 E7 E8 E9 E10 E11 E12 E13] F P. assert (MK := masked_alike _ _ _ F P). unfold mode_size. rewrite E6.
  clear - MK E13. destruct E13 as [->|(H & -> & K)]; [destruct (attribute x "mode"); tauto|]. rewrite H.
  destruct (attribute x "mode"); [|tauto]. intros [(_ & X & _)|[(_ & X & _)|(_ & X & _)]]; discriminate.
Qed.

(** Induction on [describes]. *)
Lemma describes_ind2 (P : string -> bool -> xml -> node -> Prop) :
  (forall path req x t ch,
    has_none x ["mask"; "module"]%string ->
    common path req x default_attrs (n_at t) -> a_mask (n_at t) = NOMASK ->
    permission x (n_at t) -> mode_size x (n_at t) (n_ch t) ->
    Forall2 (fun y c => describes path true y c /\ P path true y c) (x_ch x) ch -> Permutation ch (n_ch t) -> P path req x t) ->
  (forall path req x t,
    attribute x "mask" <> None -> has_none x ["module"; "class"; "mode"; "size"]%string ->
    common path req x default_attrs (n_at t) -> number_or x "mask" (a_mask (n_at t)) NOMASK ->
    permission x (n_at t) -> mode_size x (n_at t) (n_ch t) -> x_ch x = [] -> n_ch t = [] -> P path req x t) ->
  (forall path req x t expr path' x' a0 m0,
    attribute x "module" = Some expr -> has_none x ["mask"; "mode"; "size"; "permission"]%string ->
    files path expr = Some (path', x') ->
    describes path' false x' (Node a0 m0 (n_ch t)) -> P path' false x' (Node a0 m0 (n_ch t)) ->
    common path req x a0 (n_at t) ->
    a_mask (n_at t) = a_mask a0 -> a_r (n_at t) = a_r a0 -> a_w (n_at t) = a_w a0 ->
    a_mode (n_at t) = a_mode a0 -> a_size (n_at t) = a_size a0 -> P path req x t) ->
  forall path req x t, describes path req x t -> P path req x t.
Proof.
  intros H1 H2 H3. fix IH 5. intros path req x t D. destruct D as [path req x t ch N C M PE MS F PM|path req x t N1 N C M PE MS X T|path req x t expr path' x' a0 m0 A N FI D C E1 E2 E3 E4 E5].
  - eapply H1; eauto. clear - F IH. induction F as [|y c l l' D F IHF]; constructor; auto.
  - eapply H2; eauto.
  - eapply H3; eauto.
Qed.

Lemma describes_alike path req x t : describes path req x t -> forall t', alike t t' -> describes path req x t'.
Proof.
  revert path req x t. apply (describes_ind2 (fun path req x t => forall t', alike t t' -> describes path req x t')).
  - intros path req x t ch N C M PE MS F PM t' A. inversion A as [a m c a' m' c' c1 AT FA P1]; subst. cbn [n_at n_ch] in *.
    destruct (Forall2_perm _ _ _ PM _ FA) as (c2 & F2 & P2).
    apply (d_plain _ _ _ path req x _ c2); cbn [n_at n_ch].
    + exact N.
    + eapply common_alike; eassumption.
    + rewrite (al_mask _ _ _ AT). exact M.
    + eapply permission_alike; eassumption.
    + eapply mode_size_alike; eassumption.
    + clear - F F2. revert c2 F2. induction F as [|y c l l' (D & K) F IHF]; intros c2 F2; inversion F2; subst; constructor; auto.
    + eapply Permutation_trans; eassumption.
  - intros path req x t N1 N C M PE MS X T t' A. inversion A as [a m c a' m' c' c1 AT FA P1]; subst. cbn [n_at n_ch] in *. subst c.
    inversion FA; subst. apply Permutation_nil in P1. subst c'.
    apply d_mask; cbn [n_at n_ch]; auto.
    + eapply common_alike; eassumption.
    + rewrite (al_mask _ _ _ AT). exact M.
    + eapply permission_alike; eassumption.
    + eapply mode_size_alike; [exact AT|constructor|constructor|exact MS].
  - intros path req x t expr path' x' a0 m0 A N FI D IH C E1 E2 E3 E4 E5 t' AL. inversion AL as [a m c a' m' c' c1 AT FA P1]; subst. cbn [n_at n_ch] in *.
    apply (d_module _ _ _ path req x _ expr path' x' (put_mode a0 (a_mode a')) m0); cbn [n_at n_ch]; trivial.
    + apply IH. apply (alike_node _ _ _ _ _ _ c1); trivial. constructor; try reflexivity. cbn [a_mode put_mode].
      destruct (al_mode _ _ _ AT) as [X|X]; rewrite <- E4; auto.
    + assert (C' := common_alike _ _ _ _ _ _ _ AT C). destruct C' as [C1 C2 C3 C4 C5 C6 C7 C8]. constructor; assumption.
    + rewrite (al_mask _ _ _ AT). exact E1.
    + rewrite (al_r _ _ _ AT). exact E2.
    + rewrite (al_w _ _ _ AT). exact E3.
    + rewrite (al_size _ _ _ AT). exact E5.
Qed.

(** ** The steps keep the tree alike *)

Lemma alike_refl_at ch a : alike_at ch a a.
Proof. constructor; auto. Qed.

Lemma alike_with t t' f : (forall ch a, alike_at ch a (f a)) -> (forall ch a b, alike_at ch a b -> alike_at ch a (f b)) -> alike t t' -> alike t (with_attrs t' f).
Proof. intros H1 H2 A. inversion A; subst. cbn [with_attrs n_at n_map n_ch]. econstructor; eauto. Qed.

Lemma alike_set_linked ch a b v : alike_at ch a b -> alike_at ch a (set_linked b v).
Proof. intros []. constructor; assumption. Qed.
Lemma alike_set_ptr ch a b v : alike_at ch a b -> alike_at ch a (set_ptr b v).
Proof. intros []. constructor; assumption. Qed.

Lemma alike_clone : forall t, alike t (clone t).
Proof.
  apply (node_ind2 (fun t => alike t (clone t))). intros a m ch F.
  assert (CH := clone_ch (Node a m ch)). assert (CA := clone_at (Node a m ch)).
  destruct (clone (Node a m ch)) as [a' m' ch']. cbn [n_at n_ch] in *. subst.
  eapply alike_node; [apply alike_set_linked, alike_refl_at| |apply Permutation_refl].
  induction F as [|c l A F IH]; constructor; auto. inversion A; subst. cbn. econstructor; eauto. apply alike_set_linked. assumption.
Qed.

Lemma mapM_ok {A B} (f : A -> bres B) : forall l r, mapM f l = BOk r -> Forall2 (fun x y => f x = BOk y) l r.
Proof.
  induction l as [|x l IH]; intros r E; cbn [mapM] in E.
  - injection E as <-. constructor.
  - destruct (f x) as [y| |] eqn:F; try discriminate. cbn [bind] in E. change ((fix go (l : list A) : bres (list B) := match l with
    | [] => BOk [] | x :: r => bind (f x) (fun y => bind (go r) (fun ys => BOk (y :: ys))) end) l) with (mapM f l) in E.
    destruct (mapM f l) as [ys| |]; try discriminate. injection E as <-. constructor; auto.
Qed.

Lemma Forall2_in {A B} (R : A -> B -> Prop) l r y : Forall2 R l r -> In y r -> exists x, In x l /\ R x y.
Proof. induction 1 as [|x z l r H F IH]; intros I; [contradiction|]. destruct I as [<-|I]; [exists x; cbn; auto|]. destruct (IH I) as (w & W & V). exists w. cbn. auto. Qed.

Lemma bind_ok {A B} (r : bres A) (f : A -> bres B) y : bind r f = BOk y -> exists x, r = BOk x /\ f x = BOk y.
Proof. destruct r; cbn; try discriminate. eauto. Qed.

(** One level of calculateHierarchicalAddresses. *)
Record calc_step (t : node) (addr : N) (t' : node) : Prop := {
  cs_at : n_at t' = put_addr (put_mode (n_at t) (final_mode (n_at t) (n_ch t))) (add32 (a_paddr (n_at t)) addr);
  cs_map : n_map t' = n_map t;
  cs_inc : a_mode (n_at t') = INCREMENTAL -> a_paddr (n_at t) + sub32 (a_size (n_at t)) 1 < 2 ^ 32;
  cs_ch : exists cs, Forall2 (fun c c' => exists d, calculate c (a_addr (n_at t')) = BOk d /\ c' = with_attrs d (fun b => set_linked b true)) (n_ch t) cs /\
          Permutation cs (n_ch t') /\ StronglySorted by_address (n_ch t')
}.

Lemma calculate_step t addr t' : calculate t addr = BOk t' -> calc_step t addr t'.
Proof.
  destruct t as [a m ch]. cbn [Builder.calculate].
  destruct (mode_eqb _ INCREMENTAL && _) eqn:Z; [discriminate|]. intros E. apply bind_ok in E. destruct E as (cs & E & R).
  injection R as <-. cbn [n_at n_map n_ch] in *. apply mapM_ok in E. destruct (SORT cs) as (P & SS).
  constructor; cbn [n_at n_map n_ch]; trivial.
  - intros M. cbn [a_mode put_addr put_mode a_paddr a_size] in *. rewrite M in Z. cbn [mode_eqb andb] in Z.
    apply negb_false_iff, N.eqb_eq in Z. rewrite N.shiftr_div_pow2 in Z. apply N.div_small_iff in Z; lia.
  - exists cs. split; [|split; [apply Permutation_sym; exact P|exact SS]].
    eapply Forall2_mono; [|exact E]. intros c c' _ X. apply bind_ok in X. destruct X as (d & X & Y). injection Y as <-. exists d. split; [exact X|reflexivity].
Qed.

Lemma final_mode_cases a ch : final_mode a ch = a_mode a \/ (a_mode a = HIERARCHICAL /\ final_mode a ch = SINGLE /\ masked ch).
Proof.
  unfold final_mode. destruct (a_mode a); cbn [mode_eqb andb]; auto. destruct (forallb _ ch) eqn:F; auto. right. split; [reflexivity|]. split; [reflexivity|].
  rewrite forallb_forall in F. apply Forall_forall. intros c I. specialize (F c I). apply negb_true_iff, N.eqb_neq in F. exact F.
Qed.

Lemma calculate_alike : forall t addr t', calculate t addr = BOk t' -> alike t t'.
Proof.
  apply (node_ind2 (fun t => forall addr t', calculate t addr = BOk t' -> alike t t')). intros a m ch F addr t' E.
  apply calculate_step in E. destruct E as [EA EM EI (cs & F2 & P & _)]. destruct t' as [a' m' ch']. cbn [n_at n_map n_ch] in *. subst a' m'.
  apply (alike_node _ _ _ _ _ _ cs); [|clear - F F2|exact P].
  - constructor; try reflexivity. cbn [a_mode put_addr put_mode]. apply final_mode_cases.
  - rewrite Forall_forall in F. eapply Forall2_mono; [|exact F2]. intros c c' I (d & X & ->).
    assert (A := F c I _ _ X). apply alike_with; [intros; apply alike_set_linked, alike_refl_at|intros; apply alike_set_linked; assumption|exact A].
Qed.

(** ** Attribute rules *)

Lemma mentions_dec rs s : {mentions rs s} + {~ mentions rs s}.
Proof.
  induction rs as [|r rs IH]; [right; intros (r & [] & _)|].
  destruct (in_dec string_dec s (r_req r ++ r_forb r ++ r_opt r)) as [I|I].
  - left. exists r. split; [left; reflexivity|]. rewrite !in_app_iff in I. exact I.
  - destruct IH as [H|H].
    + left. destruct H as (r' & A & B). exists r'. split; [right; exact A|exact B].
    + right. intros (r' & [<-|A] & B); [apply I; rewrite !in_app_iff; exact B|apply H; exists r'; auto].
Qed.

Lemma run_satisfies rs p l k : add_rules empty_parser rs = Some p -> parse p l = Run k ->
  exists r, nth_error rs k = Some r /\ satisfies r l /\ forall s, In s l -> mentions rs s.
Proof.
  intros E R. destruct (C41_unique_handler rs p l E) as (U & B).
  assert (M : forall s, In s l -> mentions rs s).
  { intros s I. destruct (mentions_dec rs s) as [H|H]; [exact H|]. exfalso.
    assert (X : parse p l = UnknownAttribute) by (apply U; exists s; auto). congruence. }
  apply (B M) in R. destruct R as (r & A & S & _). exists r. auto.
Qed.

Lemma parser_run (req : bool) p l k : (if req then node_parser else top_parser) = Some p -> parse p l = Run k ->
  (req = true -> In "id"%string l) /\ (forall s, In s l -> In s known_names) /\
  match k with
  | O => forall s, In s ["mask"; "module"]%string -> ~ In s l
  | S O => In "mask"%string l /\ forall s, In s ["module"; "class"; "mode"; "size"]%string -> ~ In s l
  | S (S O) => In "module"%string l /\ forall s, In s ["mask"; "mode"; "size"; "permission"]%string -> ~ In s l
  | _ => False
  end.
Proof.
  intros E R.
  assert (exists rs, add_rules empty_parser rs = Some p /\
          rs = [mkRule (if req then ["id"] else []) ["module"; "mask"] ["class"; "id"; "address"; "parameters"; "fwinfo"; "permission"; "mode"; "size"; "tags"; "description"];
                mkRule (if req then ["mask"; "id"] else ["mask"]) ["class"; "module"; "mode"; "size"] ["address"; "parameters"; "fwinfo"; "permission"; "tags"; "description"];
                mkRule (if req then ["module"; "id"] else ["module"]) ["mask"; "mode"; "size"; "permission"] ["id"; "class"; "address"; "parameters"; "fwinfo"; "tags"; "description"]]%string) as (rs & A & RS).
  { eexists. split; [|reflexivity]. destruct req; rewrite <- E; vm_compute; reflexivity. }
  destruct (run_satisfies _ _ _ _ A R) as (r & NT & (S1 & S2) & S3). subst rs. unfold incl in S1.
  assert (KN : forall s, In s l -> In s known_names).
  { intros s I. destruct (S3 s I) as (r' & I' & J). clear - I' J. unfold known_names. cbn [In] in I'. destruct I' as [<-|[<-|[<-|[]]]]; cbn [r_req r_forb r_opt] in J; destruct req; cbn [In] in *; intuition. }
  clear A E R. destruct k as [|[|[|k]]]; cbn [nth_error] in NT; [..|destruct k; discriminate]; injection NT as <-; cbn [r_req r_forb] in *; split; [|split; [exact KN|]| |split; [exact KN|]| |split; [exact KN|]].
  - intros ->. apply S1. cbn. auto.
  - intros s I J. apply (S2 s J). clear - I. cbn [In] in *. tauto.
  - intros ->. apply S1. cbn. auto.
  - split; [apply S1; destruct req; cbn; auto|]. intros s I J. apply (S2 s J). clear - I. cbn [In] in *. tauto.
  - intros ->. apply S1. cbn. auto.
  - split; [apply S1; destruct req; cbn; auto|]. intros s I J. apply (S2 s J). clear - I. cbn [In] in *. tauto.
Qed.

Lemma attribute_none x s : attribute x s = None <-> ~ In s (map fst (x_ats x)).
Proof. apply assoc_none. Qed.

Lemma attribute_some x s : In s (map fst (x_ats x)) -> exists v, attribute x s = Some v.
Proof. intros I. destruct (attribute x s) eqn:E; [eauto|]. apply attribute_none in E. contradiction. Qed.

Lemma has_none_intro x l : (forall s, In s l -> ~ In s (map fst (x_ats x))) -> has_none x l.
Proof. intros H. apply Forall_forall. intros s I. apply attribute_none. auto. Qed.

(** ** Setters *)

Lemma find_dot_none s : find_dot s 0 = None -> forall a b, s <> (a ++ "." ++ b)%string.
Proof.
  induction s as [|c r IH]; intros E a b X; [destruct a; discriminate|].
  cbn [find_dot] in E. destruct (Ascii.eqb_spec c ".") as [->|N]; [discriminate|].
  destruct (find_dot r 0) eqn:F; [discriminate|]. destruct a as [|c' a]; cbn in X; injection X as X1 X2; [congruence|].
  apply (IH eq_refl a b X2).
Qed.

Lemma get_last : forall r c, String.get (String.length (r ++ String c "") - 1) (r ++ String c "") = Some c.
Proof.
  induction r as [|d r IH]; intros c; [reflexivity|]. cbn [append String.length].
  replace (S (String.length (r ++ String c "")) - 1)%nat with (S (String.length (r ++ String c "") - 1)) by (clear; rewrite append_length; cbn [String.length]; lia).
  cbn [String.get]. apply IH.
Qed.

Lemma set_uid_ok req x a a' : set_uid req x a = BOk a' ->
  match attribute x "id" with
  | Some s => legal_id s /\ a' = put_id a s
  | None => req = false /\ a' = a
  end.
Proof.
  unfold set_uid. destruct (attribute x "id") as [s|].
  - destruct (Nat.eqb_spec (String.length s) 0) as [L|L]; [discriminate|]. destruct (find_dot s 0) eqn:D; [discriminate|].
    destruct (is_space (first_char s) || is_space (last_char s)) eqn:SP; [discriminate|]. intros E. injection E as <-. split; [|reflexivity].
    apply orb_false_iff in SP. destruct SP as (S1 & S2). split; [intros ->; cbn in L; congruence|]. split; [apply find_dot_none; exact D|]. split.
    + intros r ->. cbn in S1. discriminate.
    + intros r ->. unfold last_char in S2. rewrite get_last in S2. discriminate.
  - destruct req; [discriminate|]. intros E. injection E as <-. auto.
Qed.

Lemma attr_u32_ok x name o d : attr_u32 x name = BOk o -> number_or x name (match o with Some n => n | None => d end) d /\
  (attribute x name = None <-> o = None).
Proof.
  unfold attr_u32, number_or. destruct (attribute x name) as [s|].
  - destruct (parse_u32 s) as [n|] eqn:P; [|discriminate]. intros E. injection E as <-. split; [|split; discriminate].
    apply C38_number in P. destruct P as (k & D & L & B). split; [exists k; auto|exact B].
  - intros E. injection E as <-. split; [reflexivity|tauto].
Qed.

Lemma set_addr_ok x a a' : set_addr x a = BOk a' -> exists n, number_or x "address" n 0 /\ a' = put_paddr a (N.lor (a_paddr a) n).
Proof.
  unfold set_addr. intros E. apply bind_ok in E. destruct E as (o & E & R). injection R as <-.
  destruct (attr_u32_ok _ _ _ 0 E) as (N & _). exists (match o with Some n => n | None => 0 end). split; [exact N|reflexivity].
Qed.

Lemma text_of_str x name : text_of x name (attr_str x name).
Proof. unfold text_of, attr_str. destruct (attribute x name); auto. Qed.

Lemma length_zero s : Nat.eqb (String.length s) 0 = String.eqb s "".
Proof. destruct s; reflexivity. Qed.

Lemma append_text_ok old new : text_added old new (append_text old new).
Proof.
  unfold text_added, append_text. rewrite !length_zero. destruct (String.eqb_spec new ""), (String.eqb_spec old ""); subst; repeat split; intros; congruence.
Qed.

Lemma fold_insert {A} k l : forall m : list (string * A), assoc k (fold_left (fun m kv => map_insert m (fst kv) (snd kv)) l m) =
  match assoc k m with Some v => Some v | None => assoc k l end.
Proof.
  induction l as [|(k', v) l IH]; intros m; cbn [fold_left assoc]; [destruct (assoc k m); reflexivity|].
  rewrite IH, assoc_insert. cbn [fst snd]. destruct (assoc k m); [reflexivity|]. destruct (String.eqb k k'); reflexivity.
Qed.

Lemma first_of_match {A} (x y : option A) : first_of x y (match x with Some v => Some v | None => y end).
Proof. destruct x; split; intros; congruence. Qed.

(** What setFirmwareInfo makes of the firmware information. *)
Definition fw_added x (a0 : attrs) (m : list (string * string)) : Prop :=
  exists b, set_fw parse_fw x a0 = BOk b /\ m = a_fw b.

(** The setters that all three creators call; their order does not matter. *)
Lemma common_ok path req x a0 a1 a2 a3 : (forall s, In s (map fst (x_ats x)) -> In s known_names) ->
  set_uid req x a0 = BOk a1 -> set_addr x a1 = BOk a2 ->
  a_id a3 = a_id a2 -> a_paddr a3 = a_paddr a2 -> a_class a3 = attr_str x "class" ->
  a_tags a3 = append_text (a_tags a0) (attr_str x "tags") -> a_desc a3 = append_text (a_desc a0) (attr_str x "description") ->
  a_module a3 = path ->
  a_pars a3 = a_pars (set_pars parse_pars x a0) -> fw_added x a0 (a_fw a3) ->
  common path req x a0 a3.
Proof.
  intros KN U A E1 E2 E3 E4 E5 E6 E7 E8. apply set_uid_ok in U. apply set_addr_ok in A. destruct A as (n & NO & ->).
  cbn [a_id a_paddr put_paddr] in *.
  assert (PA : a_paddr a1 = a_paddr a0) by (destruct (attribute x "id"); destruct U as (_ & ->); reflexivity).
  constructor.
  - exact KN.
  - rewrite E1. destruct (attribute x "id"); destruct U as (U & ->); cbn [a_id put_id]; auto.
  - exists n. rewrite E2, PA. auto.
  - rewrite E3. apply text_of_str.
  - exists (attr_str x "tags"). rewrite E4. split; [apply text_of_str|apply append_text_ok].
  - exists (attr_str x "description"). rewrite E5. split; [apply text_of_str|apply append_text_ok].
  - exact E6.
  - exists (attr_str x "parameters"). split; [apply text_of_str|]. intros k. rewrite E7. unfold set_pars. rewrite length_zero.
    destruct (String.eqb (attr_str x "parameters") ""); [split; intros; congruence|]. cbn [a_pars put_pars]. rewrite fold_insert. apply first_of_match.
  - exists (attr_str x "fwinfo"). split; [apply text_of_str|]. destruct E8 as (b & E8 & ->). unfold set_fw in E8. rewrite length_zero in E8.
    destruct (String.eqb_spec (attr_str x "fwinfo") "") as [E0|E0].
    + injection E8 as <-. exists []. split; [left; auto|]. intros k. cbn [assoc]. destruct (assoc k (a_fw a0)) eqn:?; split; intros; congruence.
    + destruct (parse_fw (attr_str x "fwinfo")) as [[ty ps]|]; [|discriminate].
      match type of E8 with BOk ?v = _ => assert (b = v) as -> by congruence end. clear E8.
      exists (("type"%string, ty) :: ps). split; [right; exists ty, ps; auto|]. intros k. cbn [a_fw put_fw]. rewrite fold_insert. apply first_of_match.
Qed.

Lemma set_perm_ok x a a' : set_perm x a = BOk a' -> a_r a = true -> a_w a = true ->
  permission x a' /\ exists r w, a' = put_perm a r w.
Proof.
  unfold set_perm, permission. destruct (attribute x "permission") as [s|]; intros E R W.
  - destruct (assoc s perm_lut) as [[r w]|] eqn:L; [|discriminate]. injection E as <-. split; [|exists r, w; reflexivity].
    cbn [a_r a_w put_perm]. unfold perm_lut in L. cbn [assoc] in L.
    repeat match type of L with context [String.eqb s ?k] => destruct (String.eqb_spec s k) as [->|?] end; try discriminate; injection L as <- <-; cbn [In]; auto 10.
  - injection E as <-. split; [auto|]. exists (a_r a), (a_w a). destruct a; reflexivity.
Qed.

Lemma set_mode_size_ok x a a' : set_mode_size x a = BOk a' -> a_mode a = HIERARCHICAL -> a_size a = 1 ->
  (a_mode a' = NON_INCREMENTAL -> x_ch x = []) ->
  (forall ch, mode_size x a' ch) /\ exists m z, a' = put_size (put_mode a m) z.
Proof.
  unfold set_mode_size, mode_size. destruct (attribute x "mode") as [s|]; intros E M Z NC.
  - destruct (assoc s mode_lut) as [m|] eqn:L; [|discriminate].
    assert (LL : (s = "single"%string /\ m = SINGLE) \/ (In s ["block"; "incremental"; "inc"]%string /\ m = INCREMENTAL) \/ (In s ["port"; "non-incremental"; "non-inc"]%string /\ m = NON_INCREMENTAL)).
    { unfold mode_lut in L. cbn [assoc] in L.
      repeat match type of L with context [String.eqb s ?k] => destruct (String.eqb_spec s k) as [->|?] end; try discriminate; injection L as <-; cbn [In]; auto 10. }
    destruct LL as [(-> & ->)|[(I & ->)|(I & ->)]].
    + injection E as <-. split; [left; auto|]. exists SINGLE, (a_size a). destruct a; reflexivity.
    + apply bind_ok in E. destruct E as (o & E & R). destruct (attr_u32_ok _ _ _ 0 E) as (N & NN). destruct o as [n|]; [|discriminate].
      injection R as <-. split; [|exists INCREMENTAL, n; reflexivity]. right. left. split; [exact I|]. split; [reflexivity|]. split; [|exact N].
      intros X. apply NN in X. discriminate.
    + apply bind_ok in E. destruct E as (o & E & R). destruct (attr_u32_ok _ _ _ 1 E) as (N & _).
      assert (exists z, a' = put_size (put_mode a NON_INCREMENTAL) z /\ z = match o with Some n => n | None => 1 end) as (z & -> & Q).
      { destruct o as [n|]; injection R as <-; eexists; (split; [|reflexivity]); [reflexivity|]. rewrite <- Z. destruct a; reflexivity. }
      split; [|exists NON_INCREMENTAL, z; reflexivity]. right. right. cbn [a_mode a_size put_size put_mode] in *. rewrite Q. auto.
  - injection E as <-. split; [rewrite M; auto|]. exists (a_mode a), (a_size a). destruct a; reflexivity.
Qed.

(** ** Elements *)

Lemma convert_alike t : alike t (convert is_class t).
Proof.
  unfold convert. destruct (Nat.eqb _ 0); [|destruct (is_class _)]; try apply alike_clone;
  clear; revert t; apply (node_ind2 (fun t => alike t t)); intros a m ch F; apply (alike_node _ _ _ _ _ _ ch);
  try apply alike_refl_at; try apply Permutation_refl; induction F; constructor; auto.
Qed.

Lemma convert_eq t : (exists t', convert is_class t = t' /\ (t' = t \/ t' = clone t)).
Proof. unfold convert. destruct (Nat.eqb _ 0); [|destruct (is_class _)]; eauto. Qed.

Lemma number_alike : forall l k, Forall2 (fun c c' => exists p, c' = with_attrs c (fun a => set_ptr a p)) l (number k l).
Proof. induction l as [|c l IH]; intros k; constructor; eauto. Qed.

Lemma xml_ind2 (P : xml -> Prop) : (forall l xs, Forall P xs -> P (Xml l xs)) -> forall x, P x.
Proof. intros H. fix IH 1. intros [l xs]. apply H. induction xs; constructor; auto. Qed.

Lemma alike_refl : forall t, alike t t.
Proof.
  apply (node_ind2 (fun t => alike t t)); intros a m ch F; apply (alike_node _ _ _ _ _ _ ch);
  try apply alike_refl_at; try apply Permutation_refl; induction F; constructor; auto.
Qed.

Lemma alike_attrs t f : alike_at (n_ch t) (n_at t) (f (n_at t)) -> alike t (with_attrs t f).
Proof.
  intros H. assert (R := alike_refl t). destruct t as [a m ch]. inversion R; subst. cbn [with_attrs n_at n_map n_ch] in *. econstructor; eauto.
Qed.

Lemma legal_id_ok s : legal_id s -> id_ok s.
Proof.
  intros (A & B & _). split; [exact A|]. clear A. induction s as [|c r IH]; [exact I|]. split.
  - intros ->. exact (B EmptyString r eq_refl).
  - apply IH. intros a b E. apply (B (String c a) b). cbn. rewrite E. reflexivity.
Qed.

Lemma describes_id path x t : describes path true x t -> legal_id (a_id (n_at t)).
Proof.
  intros D. assert (exists a0, common path true x a0 (n_at t)) as (a0 & C) by (inversion D; subst; eauto).
  assert (X := co_id _ _ _ _ _ _ _ C). destruct (attribute x "id"); destruct X as (X & Y); [rewrite Y; exact X|discriminate].
Qed.

Lemma number_ptrs : forall l k, map (fun c => a_ptr (n_at c)) (number k l) = seq k (List.length l).
Proof. induction l as [|c l IH]; intros k; [reflexivity|]. cbn [number map List.length seq]. rewrite IH. reflexivity. Qed.

Lemma convert_wf t : wf t -> wf (convert is_class t).
Proof. intros W. unfold convert. destruct (Nat.eqb _ 0); [exact W|]. destruct (is_class _); [apply clone_wf; exact W|exact W]. Qed.

Section Element.
Variable load : string -> string -> bres node.
Hypothesis LOAD : forall path expr t, load path expr = BOk t ->
  wf t /\ exists path' x', files path expr = Some (path', x') /\ describes path' false x' t.

(** The setters without checks, in either order. *)
Definition decorated path x a fw : attrs :=
  mkAttrs (a_id a) (a_paddr a) (a_addr a) (a_mask a) (a_r a) (a_w a) (a_mode a) (a_size a)
          (append_text (a_tags a) (attr_str x "tags")) (append_text (a_desc a) (attr_str x "description")) path (attr_str x "class")
          (a_pars (set_pars parse_pars x a)) fw (a_ptr a) (a_linked a).

Lemma set_fw_frame x a b : set_fw parse_fw x a = BOk b -> b = put_fw a (a_fw b) /\
  forall a', a_fw a' = a_fw a -> fw_added x a' (a_fw b).
Proof.
  unfold fw_added, set_fw. destruct (Nat.eqb (String.length (attr_str x "fwinfo")) 0).
  - intros E. injection E as <-. split; [destruct a; reflexivity|]. intros a' F. exists a'. auto.
  - destruct (parse_fw (attr_str x "fwinfo")) as [[t ps]|]; [|discriminate]. intros E. injection E as <-. split; [reflexivity|].
    intros a' F. eexists. split; [reflexivity|]. cbn [a_fw put_fw]. rewrite F. reflexivity.
Qed.

Lemma set_pars_fw x a : a_fw (set_pars parse_pars x a) = a_fw a.
Proof. unfold set_pars. destruct (Nat.eqb _ 0); reflexivity. Qed.

Lemma decorate1 path x a b : set_fw parse_fw x (set_pars parse_pars x a) = BOk b ->
  set_module path (set_desc x (set_tags x (set_class x b))) = decorated path x a (a_fw b) /\ fw_added x a (a_fw b).
Proof.
  intros E. destruct (set_fw_frame _ _ _ E) as (E1 & E2). split; [|apply E2; rewrite set_pars_fw; reflexivity]. rewrite E1.
  unfold set_module, set_desc, set_tags, set_class, decorated, set_pars.
  destruct (Nat.eqb (String.length (attr_str x "parameters")) 0); reflexivity.
Qed.

Lemma decorate2 path x a b : set_fw parse_fw x (set_pars parse_pars x (set_class x a)) = BOk b ->
  set_module path (set_desc x (set_tags x b)) = decorated path x a (a_fw b) /\ fw_added x a (a_fw b).
Proof.
  intros E. destruct (set_fw_frame _ _ _ E) as (E1 & E2). split; [|apply E2; rewrite set_pars_fw; reflexivity]. rewrite E1.
  unfold set_module, set_desc, set_tags, set_class, decorated, set_pars.
  destruct (Nat.eqb (String.length (attr_str x "parameters")) 0); reflexivity.
Qed.

(** setUid, setAddr and the setters without checks. *)
Lemma three_steps path req x a0 a1 a2 fw : (forall s, In s (map fst (x_ats x)) -> In s known_names) -> set_uid req x a0 = BOk a1 -> set_addr x a1 = BOk a2 -> fw_added x a2 fw ->
  common path req x a0 (decorated path x a2 fw) /\
  a_mask a2 = a_mask a0 /\ a_r a2 = a_r a0 /\ a_w a2 = a_w a0 /\ a_mode a2 = a_mode a0 /\ a_size a2 = a_size a0.
Proof.
  intros KN U A FW. assert (U' := set_uid_ok _ _ _ _ U). assert (A' := set_addr_ok _ _ _ A). destruct A' as (n & _ & A').
  assert (exists i z, a2 = put_paddr (put_id a0 i) z) as (i & z & E).
  { rewrite A'. destruct (attribute x "id") as [s|]; destruct U' as (_ & ->); [exists s|exists (a_id a0)]; eexists; [reflexivity|]. destruct a0; reflexivity. }
  clear A' U'. split; [|rewrite E; repeat split].
  assert (FW' : fw_added x a0 fw).
  { destruct FW as (b & B & ->). destruct (set_fw_frame _ _ _ B) as (_ & Q). apply Q. rewrite E. reflexivity. }
  eapply common_ok; try eassumption; try reflexivity; rewrite E; unfold decorated, set_pars; cbn [a_tags a_desc a_pars a_fw put_paddr put_id]; try reflexivity.
  destruct (Nat.eqb (String.length (attr_str x "parameters")) 0); reflexivity.
Qed.

Lemma common_fields path req x a0 a b : a_id b = a_id a -> a_paddr b = a_paddr a -> a_class b = a_class a -> a_tags b = a_tags a ->
  a_desc b = a_desc a -> a_module b = a_module a -> a_pars b = a_pars a -> a_fw b = a_fw a ->
  common path req x a0 a -> common path req x a0 b.
Proof. intros E1 E2 E3 E4 E5 E6 E7 E8 []. constructor; rewrite ?E1, ?E2, ?E3, ?E4, ?E5, ?E6, ?E7, ?E8; assumption. Qed.

Lemma plain_attrs_ok path req x a : (forall s, In s (map fst (x_ats x)) -> In s known_names) -> plain_attrs parse_pars parse_fw path req x = BOk a ->
  (a_mode a = NON_INCREMENTAL -> x_ch x = []) ->
  common path req x default_attrs a /\ a_mask a = NOMASK /\ permission x a /\ forall ch, mode_size x a ch.
Proof.
  unfold plain_attrs. intros KN E NC. apply bind_ok in E. destruct E as (a1 & U & E). apply bind_ok in E. destruct E as (a2 & A & E).
  apply bind_ok in E. destruct E as (b & B & E). destruct (decorate1 path _ _ _ B) as (D & FW).
  cbn zeta in E. rewrite D in E. apply bind_ok in E. destruct E as (a3 & PE & MS).
  destruct (three_steps path _ _ _ _ _ _ KN U A FW) as (C & F1 & F2 & F3 & F4 & F5).
  destruct (set_perm_ok _ _ _ PE F2 F3) as (P1 & r & w & ->).
  destruct (set_mode_size_ok _ _ _ MS F4 F5 NC) as (M1 & m & z & ->).
  split; [eapply common_fields; [..|exact C]; reflexivity|]. split; [exact F1|]. split; [exact P1|exact M1].
Qed.

Lemma mask_node_ok path req x t : (forall s, In s (map fst (x_ats x)) -> In s known_names) -> mask_node parse_pars parse_fw path req x = BOk t ->
  attribute x "mode" = None -> attribute x "mask" <> None ->
  exists a, t = Node a [] [] /\ x_ch x = [] /\ common path req x default_attrs a /\
            number_or x "mask" (a_mask a) NOMASK /\ permission x a /\ forall ch, mode_size x a ch.
Proof.
  unfold mask_node. intros KN. destruct (x_ch x) as [|]; [|discriminate]. intros E NM HM. apply bind_ok in E. destruct E as (a1 & U & E).
  apply bind_ok in E. destruct E as (a2 & A & E).
  apply bind_ok in E. destruct E as (b & B & E). destruct (decorate2 path _ _ _ B) as (D & FW). cbn zeta in E. rewrite D in E.
  apply bind_ok in E. destruct E as (a3 & PE & E). apply bind_ok in E. destruct E as (a4 & MA & E). injection E as <-.
  destruct (three_steps path _ _ _ _ _ _ KN U A FW) as (C & F1 & F2 & F3 & F4 & F5).
  destruct (set_perm_ok _ _ _ PE F2 F3) as (P1 & r & w & ->).
  unfold set_mask in MA. apply bind_ok in MA. destruct MA as (o & MA & E). injection E as <-.
  destruct (attr_u32_ok _ _ _ NOMASK MA) as (NO & NN). destruct o as [n|]; [|exfalso; apply HM, NN; reflexivity].
  eexists. split; [reflexivity|]. split; [reflexivity|]. split; [eapply common_fields; [..|exact C]; reflexivity|]. split; [exact NO|]. split; [exact P1|].
  unfold mode_size. rewrite NM. split; [left; exact F4|exact F5].
Qed.

Lemma module_attrs_ok path req x a0 a : (forall s, In s (map fst (x_ats x)) -> In s known_names) -> module_attrs parse_pars parse_fw path req x a0 = BOk a ->
  common path req x a0 a /\ a_mask a = a_mask a0 /\ a_r a = a_r a0 /\ a_w a = a_w a0 /\ a_mode a = a_mode a0 /\ a_size a = a_size a0.
Proof.
  unfold module_attrs. intros KN E. apply bind_ok in E. destruct E as (a1 & U & E). apply bind_ok in E. destruct E as (a2 & A & E).
  apply bind_ok in E. destruct E as (b & B & E). destruct (decorate2 path _ _ _ B) as (D & FW). injection E as E. rewrite D in E.
  subst a. exact (three_steps path _ _ _ _ _ _ KN U A FW).
Qed.

Lemma element_ok : forall x path req t, element load path req x = BOk t -> describes path req x t /\ wf t.
Proof.
  apply (xml_ind2 (fun x => forall path req t, element load path req x = BOk t -> describes path req x t /\ wf t)).
  intros l xs IH path req t E. set (x := Xml l xs) in *.
  assert (UN : element load path req x =
    match (if req then node_parser else top_parser) with
    | None => BExc (Parser_exc LengthError)
    | Some p =>
      match parse p (map fst (x_ats x)) with
      | Run O =>
          bind (plain_attrs parse_pars parse_fw path req x) (fun a =>
              if mode_eqb (a_mode a) NON_INCREMENTAL then
                match xs with
                | [] => BOk (convert is_class (Node a [] []))
                | _ :: _ => BExc BlockAccessNodeCannotHaveChild
                end
              else
                bind (mapM (element load path true) xs) (fun cs =>
                BOk (convert is_class (Node a (children_map (number 0 cs)) (number 0 cs)))))
      | Run 1 => mask_node parse_pars parse_fw path req x
      | Run _ =>
          bind (load path (attr_str x "module")) (fun t =>
          bind (module_attrs parse_pars parse_fw path req x (n_at t)) (fun a =>
          BOk (convert is_class (Node a (n_map t) (n_ch t)))))
      | e => BExc (Parser_exc e)
      end
    end) by reflexivity.
  rewrite UN in E. clear UN. destruct (if req then node_parser else top_parser) as [p|] eqn:PA; [|discriminate].
  destruct (parse p (map fst (x_ats x))) as [k| | | |] eqn:R; try discriminate.
  destruct (parser_run _ _ _ _ PA R) as (RI & KN & RK). clear PA R. destruct k as [|[|[|k]]]; [..|contradiction].
  - apply bind_ok in E. destruct E as (a & A & E). destruct (mode_eqb (a_mode a) NON_INCREMENTAL) eqn:M.
    + destruct xs as [|]; [|discriminate]. injection E as <-.
      destruct (plain_attrs_ok _ _ _ _ KN A (fun _ => eq_refl)) as (C & MK & PE & MS). split; [|apply convert_wf].
      * eapply describes_alike; [|apply convert_alike]. apply (d_plain _ _ _ path req x _ []); auto using has_none_intro. constructor.
      * constructor; [|constructor|constructor]. apply (children_map_ok a []). constructor.
    + apply bind_ok in E. destruct E as (cs & CS & E). injection E as <-. apply mapM_ok in CS.
      assert (NC : a_mode a = NON_INCREMENTAL -> x_ch x = []) by (intros X; rewrite X in M; discriminate).
      destruct (plain_attrs_ok _ _ _ _ KN A NC) as (C & MK & PE & MS).
      assert (F : Forall2 (fun y c => describes path true y c /\ wf c) xs cs).
      { rewrite Forall_forall in IH. eapply Forall2_mono; [|exact CS]. intros y c I X. exact (IH y I path true c X). }
      assert (F' : Forall2 (fun y c => describes path true y c /\ wf c) xs (number 0 cs)).
      { generalize 0%nat. clear - F. induction F as [|y c ys cs (D & W) F IHF]; intros k; constructor; auto.
        split; [|apply with_attrs_wf; exact W]. eapply describes_alike; [exact D|]. apply alike_attrs, alike_set_ptr, alike_refl_at. }
      split; [|apply convert_wf].
      * eapply describes_alike; [|apply convert_alike]. apply (d_plain _ _ _ path req x _ (number 0 cs)); auto using has_none_intro.
        eapply Forall2_mono; [|exact F']. intros y c _ (D & _). exact D.
      * constructor.
        -- apply children_map_ok. rewrite number_ptrs. apply seq_NoDup.
        -- apply Forall_forall. intros c I. destruct (Forall2_in _ _ _ _ F' I) as (y & _ & D & _). apply legal_id_ok. eapply describes_id. exact D.
        -- apply Forall_forall. intros c I. destruct (Forall2_in _ _ _ _ F' I) as (y & _ & _ & W). exact W.
  - destruct RK as (RM & RK).
    assert (HM : attribute x "mask" <> None) by (destruct (attribute_some _ _ RM) as (v & ->); discriminate).
    assert (HN := has_none_intro _ _ RK).
    assert (NM : attribute x "mode" = None) by (apply attribute_none, RK; cbn; auto).
    destruct (mask_node_ok _ _ _ _ KN E NM HM) as (a & -> & XC & C & NO & PE & MS). split.
    + apply d_mask; auto.
    + constructor; [|constructor|constructor]. apply (children_map_ok a []). constructor.
  - destruct RK as (RM & RK). apply bind_ok in E. destruct E as (t0 & L & E). apply bind_ok in E. destruct E as (a & A & E). injection E as <-.
    destruct (LOAD _ _ _ L) as (W & path' & x' & FI & D). destruct (module_attrs_ok _ _ _ _ _ KN A) as (C & F1 & F2 & F3 & F4 & F5).
    destruct (attribute_some _ _ RM) as (v & AV). unfold attr_str in FI. rewrite AV in FI. split.
    + eapply describes_alike; [|apply convert_alike]. destruct t0 as [b m ch]. cbn [n_at n_map n_ch] in *.
      apply (d_module _ _ _ path req x _ v path' x' b m); auto using has_none_intro.
    + apply convert_wf. destruct t0 as [b m ch]. exact (with_attrs_wf _ (fun _ => a) W).
Qed.
End Element.

(** Absolute addresses and modes after the calculation. *)
Inductive settled : N -> node -> Prop :=
| settle base a m ch :
    a_addr a = (a_paddr a + base) mod 2 ^ 32 ->
    StronglySorted by_address ch ->
    (a_mode a = INCREMENTAL -> a_paddr a + sub32 (a_size a) 1 < 2 ^ 32) ->
    (a_mode a = HIERARCHICAL -> exists c, In c ch /\ a_mask (n_at c) = NOMASK) ->
    Forall (settled (a_addr a)) ch -> settled base (Node a m ch).

Lemma settled_with base t f : (forall a, a_addr (f a) = a_addr a /\ a_paddr (f a) = a_paddr a /\ a_size (f a) = a_size a /\ a_mode (f a) = a_mode a) ->
  settled base t -> settled base (with_attrs t f).
Proof.
  intros H K. inversion K as [b a m ch E SS I Hh F]; subst. cbn [with_attrs n_at n_map n_ch]. destruct (H a) as (H1 & H2 & H3 & H4).
  constructor; cbn [n_at n_ch]; rewrite ?H1, ?H2, ?H3, ?H4; assumption.
Qed.

Lemma calculate_settled : forall t addr t', calculate t addr = BOk t' -> wf t -> settled addr t' /\ wf t'.
Proof.
  apply (node_ind2 (fun t => forall addr t', calculate t addr = BOk t' -> wf t -> settled addr t' /\ wf t')). intros a m ch F addr t' E W.
  apply calculate_step in E. destruct E as [EA EM EI (cs & F2 & P & SS)]. destruct t' as [a' m' ch']. cbn [n_at n_map n_ch] in *. subst m'.
  inversion W as [? ? ? [MP MS MC] IO WC]; subst. cbn [n_ch n_map] in *. rewrite Forall_forall in F, IO, WC.
  set (a' := put_addr (put_mode a (final_mode a ch)) (add32 (a_paddr a) addr)) in *.
  assert (K : Forall2 (fun c c' => In c ch /\ a_ptr (n_at c') = a_ptr (n_at c) /\ a_id (n_at c') = a_id (n_at c) /\ a_mask (n_at c') = a_mask (n_at c) /\ settled (a_addr a') c' /\ wf c') ch cs).
  { eapply Forall2_mono; [|exact F2]. intros c c' I (d & X & ->). destruct (F c I _ _ X (WC c I)) as (SE & WD).
    apply calculate_step in X. destruct X as [XA _ _ _]. cbn [with_attrs n_at]. rewrite XA. split; [exact I|]. do 3 (split; [reflexivity|]). split.
    - apply settled_with; [|exact SE]. intros; repeat split.
    - apply with_attrs_wf. exact WD. }
  assert (KM : forall {B} (f : node -> B), (forall c c', a_ptr (n_at c') = a_ptr (n_at c) -> a_id (n_at c') = a_id (n_at c) -> f c' = f c) -> map f cs = map f ch).
  { intros B f H. clear - K H. set (ch0 := ch) in K at 1. clearbody ch0. induction K as [|c c' l l' (I & X & Y & _) K IH]; [reflexivity|]. cbn [map]. rewrite IH, (H c c' X Y). reflexivity. }
  assert (BACK : forall c', In c' ch' -> exists c, In c ch /\ a_ptr (n_at c') = a_ptr (n_at c) /\ a_id (n_at c') = a_id (n_at c) /\ settled (a_addr a') c' /\ wf c').
  { intros c' I. apply (Permutation_in _ (Permutation_sym P)) in I. destruct (Forall2_in _ _ _ _ K I) as (c & J & _ & X1 & X2 & _ & X3 & X4). exists c. auto. }
  assert (FORW : forall c, In c ch -> exists c', In c' ch' /\ a_ptr (n_at c') = a_ptr (n_at c) /\ a_id (n_at c') = a_id (n_at c) /\ a_mask (n_at c') = a_mask (n_at c)).
  { intros c I. assert (exists c', In c' cs /\ a_ptr (n_at c') = a_ptr (n_at c) /\ a_id (n_at c') = a_id (n_at c) /\ a_mask (n_at c') = a_mask (n_at c)) as (c' & J & X).
    { clear - K I. revert K I. generalize ch at 1. intros ch0 K. induction K as [|c0 c' l l' (_ & X & Y & Z & _) K IH]; intros I; [contradiction|].
      destruct I as [<-|I]; [exists c'; cbn; auto|]. destruct (IH I) as (d & D & E). exists d. cbn. auto. }
    exists c'. split; [apply (Permutation_in _ P J)|exact X]. }
  split.
  - constructor.
    + reflexivity.
    + exact SS.
    + exact EI.
    + intros H. cbn [a' a_mode put_addr put_mode] in H. unfold final_mode in H. destruct (mode_eqb (a_mode a) HIERARCHICAL) eqn:MH; cbn [andb] in H.
      * destruct (forallb _ ch) eqn:FB; [discriminate|]. assert (exists c, In c ch /\ a_mask (n_at c) = NOMASK) as (c & I & Q).
        { clear - FB. induction ch as [|c l IH]; [discriminate|]. cbn [forallb] in FB. destruct (N.eqb_spec (a_mask (n_at c)) NOMASK) as [Q|Q].
          - exists c. cbn. auto.
          - destruct (IH FB) as (d & D & E). exists d. cbn. auto. }
        destruct (FORW c I) as (c' & J & _ & _ & X). exists c'. split; [exact J|congruence].
      * rewrite H in MH. discriminate.
    + apply Forall_forall. intros c' I. destruct (BACK c' I) as (c & _ & _ & _ & X & _). exact X.
  - constructor.
    + constructor; cbn [n_ch n_map].
      * eapply Permutation_NoDup; [apply Permutation_map; exact P|]. rewrite (KM _ (fun c => a_ptr (n_at c))) by auto. exact MP.
      * intros k x A. destruct (MS k x A) as (c & I & X & Y). destruct (FORW c I) as (c' & J & X' & Y' & _). exists c'. split; [exact J|]. split; congruence.
      * intros c' I. destruct (BACK c' I) as (c & J & _ & Y & _). rewrite Y. exact (MC c J).
    + apply Forall_forall. intros c' I. destruct (BACK c' I) as (c & J & _ & Y & _). rewrite Y. exact (IO c J).
    + apply Forall_forall. intros c' I. destruct (BACK c' I) as (c & _ & _ & _ & _ & X). exact X.
Qed.

Lemma clone_settled : forall t base, settled base t -> settled base (clone t).
Proof.
  apply (node_ind2 (fun t => forall base, settled base t -> settled base (clone t))). intros a m ch F base K.
  inversion K as [b a0 m0 ch0 E SS I Hh FS]; subst. assert (CH := clone_ch (Node a m ch)). assert (CA := clone_at (Node a m ch)).
  destruct (clone (Node a m ch)) as [a' m' ch']. cbn [n_at n_ch] in *. subst. rewrite Forall_forall in F, FS.
  assert (LA : forall c, n_at (with_attrs (clone c) (fun b => set_linked b true)) = set_linked (set_linked (n_at c) false) true)
    by (intros c; cbn [with_attrs n_at]; rewrite clone_at; reflexivity).
  constructor; trivial.
  - clear - SS LA. induction SS as [|c l SS IH H]; cbn [map]; constructor; [exact IH|].
    rewrite Forall_forall in *. intros d I. apply in_map_iff in I. destruct I as (e & <- & I). unfold by_address. rewrite !LA. exact (H e I).
  - intros H. destruct (Hh H) as (c & J & M). eexists. split; [apply in_map; exact J|]. rewrite LA. exact M.
  - apply Forall_forall. intros d J. apply in_map_iff in J. destruct J as (e & <- & J). apply settled_with; [intros; repeat split|]. apply F; [exact J|]. apply FS. exact J.
Qed.

(** Everything about a tree that getNodeTree returns. *)
Theorem get_node_tree_ok : forall fuel path expr t, get_node_tree fuel path expr = BOk t ->
  wf t /\ linked_below t /\ settled 0 t /\ exists path' x', files path expr = Some (path', x') /\ describes path' false x' t.
Proof.
  induction fuel as [|f IH]; intros path expr t E; cbn [Builder.get_node_tree] in E; [discriminate|].
  destruct (files path expr) as [(path', x)|] eqn:FI; [|discriminate]. apply bind_ok in E. destruct E as (t1 & B & E). injection E as <-.
  unfold Builder.build in B. apply bind_ok in B. destruct B as (t0 & EL & CA).
  assert (LOAD : forall path expr t, get_node_tree f path expr = BOk t ->
    wf t /\ exists path' x', files path expr = Some (path', x') /\ describes path' false x' t).
  { intros p e u G. destruct (IH p e u G) as (A & _ & _ & D). auto. }
  destruct (element_ok _ LOAD _ _ _ _ EL) as (D & W). destruct (calculate_settled _ _ _ CA W) as (SE & W1).
  destruct (clone_wf t1 W1) as (W2 & LB). split; [exact W2|]. split; [exact LB|]. split; [apply clone_settled; exact SE|].
  exists path', x. split; [reflexivity|]. eapply describes_alike; [|apply alike_clone]. eapply describes_alike; [exact D|]. eapply calculate_alike. exact CA.
Qed.

Lemma settled_get : forall p t base n, settled base t -> get t p = Some n ->
  a_addr (n_at n) = (base + sum_above t p) mod 2 ^ 32 /\ exists b, settled b n.
Proof.
  induction p as [|i p IH]; intros t base n K G; inversion K as [b a m ch E SS I Hh F]; subst; cbn [get sum_above n_at n_ch] in *.
  - injection G as <-. cbn [n_at]. split; [rewrite E; f_equal; lia|exists base; exact K].
  - destruct (nth_error ch i) as [c|] eqn:NT; [|discriminate]. rewrite Forall_forall in F.
    destruct (IH c _ n (F c (nth_error_In _ _ NT)) G) as (X & Y). split; [|exact Y]. rewrite X, E.
    rewrite N.add_mod_idemp_l by lia. f_equal. lia.
Qed.
End Proofs.
