(** Theorems about text: C61 (device URIs), C62 (client factory), C73 (whole URI),
    C74 (file lists), C75 (parameters and firmware information). *)
From Coq Require Import NArith List Bool String Ascii Arith Lia.
From Verif Require Import Uri.
Import ListNotations.
Local Open Scope char_scope.

(** ** Specification *)

(** Text without white space and without the characters of [bad]. *)
Definition plain (bad : ascii -> bool) (s : str) : Prop :=
  Forall (fun c => is_space c = false /\ bad c = false) s.

(** Text with its white space removed. *)
Definition nosp (l : str) : str := filter (fun c => negb (is_space c)) l.

(** Records that a URI can denote: no field contains white space or the
    character that ends it, protocol, host and keys are not empty, and path or
    extension come with a port (otherwise they are part of the host). *)
Record wf_uri (u : uri) : Prop := mkWf {
  w_prot : u_prot u <> [] /\ plain (is ":") (u_prot u);
  w_host : u_host u <> [] /\ plain (fun c => is ":" c || is "?" c) (u_host u);
  w_port : plain is_punct (u_port u);
  w_path : plain (fun c => is "." c || is "?" c) (u_path u);
  w_ext : plain (is "?") (u_ext u);
  w_tail : u_port u = [] -> u_path u = [] /\ u_ext u = [];
  w_args : Forall (fun kv => fst kv <> [] /\ plain (is "=") (fst kv) /\ plain (is "&") (snd kv)) (u_args u)
}.

Lemma plain_b : forall bad s, forallb (fun c => negb (is_space c) && negb (bad c)) s = true -> plain bad s.
Proof.
  intros bad s H. rewrite forallb_forall in H. apply Forall_forall. intros c Hc. specialize (H c Hc).
  destruct (is_space c), (bad c); cbn in H; auto; discriminate H.
Qed.

(** ** Parsers on text *)

(** [r] is empty or begins with a character that is not white space and stops. *)
Definition stops (stop : ascii -> bool) (r : str) : Prop :=
  match r with [] => True | c :: _ => is_space c = false /\ stop c = true end.

Lemma many_clean : forall stop a r, plain stop a -> stops stop r -> many stop (a ++ r) = (a, r).
Proof.
  intros stop a; induction a as [|c a IH]; intros r H Hr.
  - cbn [app]. destruct r as [|c r]; [reflexivity|]. destruct Hr as [H1 H2]. cbn [many]. rewrite H1, H2. reflexivity.
  - inversion H as [|? ? [H1 H2] H3]; subst. cbn [app many]. rewrite H1, H2, (IH r H3 Hr). reflexivity.
Qed.

Lemma many_split : forall stop l a r, many stop l = (a, r) -> nosp l = a ++ nosp r /\ stops stop r /\ plain stop a.
Proof.
  intros stop l; induction l as [|c t IH]; intros a r H; cbn [many] in H.
  - injection H as <- <-. repeat split. constructor.
  - unfold nosp. cbn [filter]. destruct (is_space c) eqn:E1; cbn [negb].
    + apply IH. exact H.
    + destruct (stop c) eqn:E2.
      * injection H as <- <-. cbn [filter]. rewrite E1. cbn [negb app stops]. repeat split; [exact E1|exact E2|constructor].
      * destruct (many stop t) as [a' r'] eqn:E3. injection H as <- <-. destruct (IH a' r' eq_refl) as (I1 & I2 & I3).
        cbn [app]. split; [f_equal; exact I1|]. split; [exact I2|]. constructor; [auto|exact I3].
Qed.

Lemma many_length : forall stop l a r, many stop l = (a, r) -> (List.length a + List.length r <= List.length l)%nat.
Proof.
  intros stop l; induction l as [|c t IH]; intros a r H; cbn [many] in H.
  - injection H as <- <-. cbn. lia.
  - destruct (is_space c); [apply IH in H; cbn [List.length]; lia|]. destruct (stop c).
    + injection H as <- <-. cbn. lia.
    + destruct (many stop t) as [a' r'] eqn:E3. injection H as <- <-. specialize (IH a' r' eq_refl). cbn [List.length]. lia.
Qed.

Lemma skip_nosp : forall l, nosp (skip l) = nosp l.
Proof.
  intros l; induction l as [|c t IH]; [reflexivity|]. cbn [skip]. destruct (is_space c) eqn:E; [|reflexivity].
  rewrite IH. unfold nosp. cbn [filter]. rewrite E. reflexivity.
Qed.

Lemma skip_stops : forall l, stops (fun _ => true) (skip l).
Proof. intros l; induction l as [|c t IH]; [exact I|]. cbn [skip]. destruct (is_space c) eqn:E; [exact IH|]. split; [exact E|reflexivity]. Qed.

Lemma skip_length : forall l, (List.length (skip l) <= List.length l)%nat.
Proof. intros l; induction l as [|c t IH]; [apply le_n|]. cbn [skip]. destruct (is_space c); cbn [List.length]; lia. Qed.

Lemma prefix_split : forall p l t, prefix p l = Some t -> l = p ++ t.
Proof.
  intros p; induction p as [|x p IH]; intros l t H; cbn [prefix] in H.
  - injection H as <-. reflexivity.
  - destruct l as [|c l]; [discriminate H|]. destruct (Ascii.eqb_spec c x) as [->|]; [|discriminate H].
    cbn [app]. f_equal. apply IH. exact H.
Qed.

Lemma prefix_app : forall p t, prefix p (p ++ t) = Some t.
Proof. intros p t; induction p as [|x p IH]; cbn [prefix app]; [reflexivity|]. rewrite Ascii.eqb_refl. exact IH. Qed.

Lemma nosp_app : forall a b, nosp (a ++ b) = nosp a ++ nosp b.
Proof. intros. apply filter_app. Qed.

Lemma nosp_plain : forall bad a, plain bad a -> nosp a = a.
Proof.
  intros bad a H; induction H as [|c a [H1 H2] H IH]; [reflexivity|].
  unfold nosp. cbn [filter]. rewrite H1. cbn [negb]. f_equal. exact IH.
Qed.

Lemma lit_split : forall p l t, lit p l = Some t -> nosp l = nosp p ++ nosp t /\ (List.length p + List.length t <= List.length l)%nat.
Proof.
  intros p l t H. unfold lit in H. apply prefix_split in H. split.
  - rewrite <- (skip_nosp l), H. apply nosp_app.
  - pose proof (skip_length l) as Z. rewrite H, app_length in Z. exact Z.
Qed.

Lemma lit_one : forall c t, is_space c = false -> lit [c] (c :: t) = Some t.
Proof. intros c t H. unfold lit. cbn [skip]. rewrite H. cbn [prefix]. rewrite Ascii.eqb_refl. reflexivity. Qed.

Lemma lit_miss : forall x l, stops (fun c => negb (Ascii.eqb c x)) l -> lit [x] l = None.
Proof.
  intros x l H. unfold lit. destruct l as [|c t]; [reflexivity|]. destruct H as [H1 H2]. cbn [skip]. rewrite H1. cbn [prefix].
  destruct (Ascii.eqb c x); [discriminate H2|reflexivity].
Qed.

Lemma lit_none : forall x l, lit [x] l = None -> skip l = [] \/ exists c t, skip l = c :: t /\ is_space c = false /\ c <> x.
Proof.
  intros x l H. unfold lit in H. pose proof (skip_stops l) as S. destruct (skip l) as [|c t]; [auto|]. right.
  exists c, t. destruct S as [S _]. repeat split; [exact S|]. intros ->. cbn [prefix] in H. rewrite Ascii.eqb_refl in H. discriminate H.
Qed.

Lemma lit_scheme : forall t, lit [":"; "/"; "/"] ([":"; "/"; "/"] ++ t) = Some t.
Proof. intros t. reflexivity. Qed.

Lemma section_clean : forall lead stop a r, is_space lead = false -> plain stop a -> stops stop r -> a <> [] ->
  section lead stop (lead :: a ++ r) = Some (a, r).
Proof.
  intros lead stop a r Hl Ha Hr Hn. unfold section. rewrite (lit_one lead _ Hl), (many_clean stop a r Ha Hr).
  destruct a; [congruence|reflexivity].
Qed.

Lemma section_none : forall lead stop r, stops (fun c => negb (Ascii.eqb c lead)) r -> section lead stop r = Some ([], r).
Proof. intros lead stop r H. unfold section. rewrite (lit_miss lead r H). reflexivity. Qed.

(** ** C61 *)

Lemma pairs_round : forall args fuel,
  Forall (fun kv => fst kv <> [] /\ plain (is "=") (fst kv) /\ plain (is "&") (snd kv)) args ->
  (List.length args <= fuel)%nat -> pairs fuel "&" (print_args args) = Some (args, []).
Proof.
  intros args; induction args as [|[k v] t IH]; intros fuel H Hf.
  - destruct fuel; reflexivity.
  - inversion H as [|? ? (H1 & H2 & H3) H4]; subst. cbn [fst snd] in *. cbn [List.length] in Hf.
    destruct fuel as [|fuel]; [lia|]. cbn [pairs].
    assert (E : print_args ((k, v) :: t) = k ++ ("=" :: v ++ match t with [] => [] | _ => "&" :: print_args t end)).
    { destruct t; cbn [print_args]; [rewrite app_nil_r|]; reflexivity. }
    rewrite E. rewrite (many_clean (is "=") k _ H2); [|cbn [stops]; split; reflexivity].
    destruct k as [|k0 k]; [congruence|]. rewrite lit_one by reflexivity.
    rewrite (many_clean (is "&") v _ H3); [|destruct t; cbn [stops]; auto].
    destruct t as [|kv t].
    + cbn [lit skip prefix]. destruct fuel; reflexivity.
    + rewrite lit_one by reflexivity. rewrite (IH fuel H4) by lia. reflexivity.
Qed.

Lemma print_args_length : forall args, Forall (fun kv : str * str => fst kv <> []) args ->
  (List.length args <= List.length (print_args args))%nat.
Proof.
  intros args H; induction H as [|[k v] t H1 H2 IH]; [apply le_n|]. cbn [fst] in H1.
  assert (1 <= List.length k)%nat by (destruct k; [congruence|cbn; lia]).
  destruct t as [|kv t].
  - cbn [print_args List.length]. rewrite app_length. lia.
  - change (print_args ((k, v) :: kv :: t)) with (k ++ "=" :: v ++ "&" :: print_args (kv :: t)).
    rewrite app_length. cbn [List.length]. rewrite app_length. cbn [List.length] in *. lia.
Qed.

(** C61: parsing the printed form of a well-formed record gives it back, with
    nothing left over. *)
Theorem C61_round_trip : forall u, wf_uri u -> parse_uri (print_uri u) = POk u [].
Proof.
  intros [p h po pa e args] [[P1 P2] [H1 H2] PO PA E T A]. cbn [u_prot u_host u_port u_path u_ext u_args] in *.
  unfold print_uri, parse_uri. cbn [u_prot u_host u_port u_path u_ext u_args].
  set (qa := match args with [] => [] | x :: l => "?" :: print_args (x :: l) end).
  set (qe := match e with [] => [] | x :: l => "." :: x :: l end).
  set (qp := match pa with [] => [] | x :: l => "/" :: x :: l end).
  set (qo := match po with [] => [] | x :: l => ":" :: x :: l end).
  assert (Sa : qa = [] \/ exists t, qa = "?" :: t) by (subst qa; destruct args; eauto).
  assert (Se : forall s, s "?" = true -> s "." = true -> stops s (qe ++ qa)).
  { intros s Q1 Q2. subst qe. destruct e; cbn [app stops]; [|split; auto]. destruct Sa as [->|[t ->]]; cbn [stops]; auto. }
  assert (Se' : e = [] -> qe ++ qa = qa) by (intros ->; reflexivity).
  rewrite (many_clean (is ":") p); [|exact P2|cbn [app stops]; split; reflexivity].
  destruct p as [|p0 p]; [congruence|].
  rewrite lit_scheme.
  assert (Sh : stops (fun c => is ":" c || is "?" c) (qo ++ qp ++ qe ++ qa)).
  { subst qo. destruct po as [|o0 po]; [|cbn [app stops]; split; reflexivity].
    destruct (T eq_refl) as [-> ->]. subst qp qe. cbn [app]. destruct Sa as [->|[t ->]]; cbn [stops]; auto. }
  rewrite (many_clean _ h _ H2 Sh). destruct h as [|h0 h]; [congruence|].
  assert (Sp : forall s, s "/" = true -> s "." = true -> s "?" = true -> stops s (qp ++ qe ++ qa)).
  { intros s Q1 Q2 Q3. subst qp. destruct pa; cbn [app]; [apply Se; assumption|cbn [stops]; split; auto]. }
  assert (X1 : section ":" is_punct (qo ++ qp ++ qe ++ qa) = Some (po, qp ++ qe ++ qa)).
  { subst qo. destruct po as [|o0 po].
    - cbn [app]. apply section_none. apply Sp; reflexivity.
    - cbn [app]. apply (section_clean ":" is_punct (o0 :: po)); [reflexivity|exact PO|apply Sp; reflexivity|discriminate]. }
  rewrite X1.
  assert (X2 : section "/" (fun c => is "." c || is "?" c) (qp ++ qe ++ qa) = Some (pa, qe ++ qa)).
  { subst qp. destruct pa as [|a0 pa].
    - cbn [app]. apply section_none. apply Se; reflexivity.
    - cbn [app]. apply (section_clean "/" (fun c => is "." c || is "?" c) (a0 :: pa)); [reflexivity|exact PA|apply Se; reflexivity|discriminate]. }
  rewrite X2.
  assert (X3 : section "." (is "?") (qe ++ qa) = Some (e, qa)).
  { subst qe. destruct e as [|e0 e].
    - cbn [app]. apply section_none. destruct Sa as [->|[t ->]]; cbn [stops]; auto.
    - cbn [app]. apply (section_clean "." (is "?") (e0 :: e)); [reflexivity|exact E| |discriminate].
      destruct Sa as [->|[t ->]]; cbn [stops]; auto. }
  rewrite X3.
  assert (X4 : pair_section "?" "&" qa = Some (args, [])).
  { unfold pair_section. subst qa. destruct args as [|kv args].
    - reflexivity.
    - rewrite lit_one by reflexivity. apply pairs_round; [exact A|]. apply print_args_length.
      eapply Forall_impl; [|exact A]. intros ? (Z & _). exact Z. }
  rewrite X4. reflexivity.
Qed.

Definition hub_uri : uri :=
  mkUri (s_ "chtcp-2.0") (s_ "localhost") (s_ "10203") (s_ "a/b") (s_ "xml") [(s_ "target", s_ "192.168.0.1:50001"); (s_ "x", s_ "")].
Example c61_case : wf_uri hub_uri /\
  string_of_list_ascii (print_uri hub_uri) = "chtcp-2.0://localhost:10203/a/b.xml?target=192.168.0.1:50001&x="%string /\
  parse_uri (print_uri hub_uri) = POk hub_uri [].
Proof.
  split; [|vm_compute; auto].
  constructor; cbn [u_prot u_host u_port u_path u_ext u_args hub_uri].
  - split; [discriminate|apply plain_b; vm_compute; reflexivity].
  - split; [discriminate|apply plain_b; vm_compute; reflexivity].
  - apply plain_b; vm_compute; reflexivity.
  - apply plain_b; vm_compute; reflexivity.
  - apply plain_b; vm_compute; reflexivity.
  - discriminate.
  - repeat (apply Forall_cons; [split; [discriminate|split; apply plain_b; vm_compute; reflexivity]|]). apply Forall_nil.
Qed.

(** Without a port the path is not given back: the host takes it. *)
Theorem C61_no_port_refuted : exists u, u_port u = [] /\ u_path u <> [] /\
  plain (fun c => is ":" c || is "?" c) (u_host u) /\ plain (fun c => is "." c || is "?" c) (u_path u) /\
  exists v, parse_uri (print_uri u) = POk v [] /\ u_path v = [] /\ u_host v <> u_host u.
Proof.
  exists (mkUri (s_ "ipbuspcie-2.0") (s_ "dev") [] (s_ "x") [] []). split; [reflexivity|]. split; [discriminate|].
  split; [apply plain_b; vm_compute; reflexivity|].
  split; [apply plain_b; vm_compute; reflexivity|].
  eexists. split; [vm_compute; reflexivity|]. split; [reflexivity|]. discriminate.
Qed.

(** ** C73: what becomes of the characters of a URI *)

Lemma section_split : forall lead stop l a r, is_space lead = false -> section lead stop l = Some (a, r) ->
  nosp l = (match a with [] => [] | x => lead :: x end) ++ nosp r /\
  ((a = [] /\ r = l /\ lit [lead] l = None) \/ (a <> [] /\ stops stop r)).
Proof.
  intros lead stop l a r Hl H. unfold section in H. destruct (lit [lead] l) as [t|] eqn:E1.
  - destruct (many stop t) as [a' r'] eqn:E2. destruct a' as [|c a']; [discriminate H|]. injection H as <- <-.
    destruct (lit_split _ _ _ E1) as [L1 _]. destruct (many_split _ _ _ _ E2) as (M1 & M2 & _).
    split; [|right; split; [discriminate|exact M2]]. rewrite L1, M1. unfold nosp at 1. cbn [filter]. rewrite Hl. reflexivity.
  - injection H as <- <-. split; [reflexivity|left; auto].
Qed.

(** Text of a list of arguments: printed, or with a separator more at the end. *)
Inductive args_text (sep : ascii) : list (str * str) -> str -> Prop :=
| at_nil : args_text sep [] []
| at_last : forall k v, args_text sep [(k, v)] (k ++ "=" :: v)
| at_more : forall k v t q, args_text sep t q -> args_text sep ((k, v) :: t) (k ++ "=" :: v ++ sep :: q).

Lemma pairs_split : forall sep fuel l ps r, is_space sep = false -> pairs fuel sep l = Some (ps, r) ->
  exists q, args_text sep ps q /\ nosp l = q ++ nosp r.
Proof.
  intros sep fuel; induction fuel as [|fuel IH]; intros l ps r Hs H; cbn [pairs] in H.
  - injection H as <- <-. exists []. split; [constructor|reflexivity].
  - destruct (many (is "=") l) as [k r1] eqn:E1. destruct (many_split _ _ _ _ E1) as (M1 & M2 & _).
    destruct k as [|k0 k]; [injection H as <- <-; exists []; split; [constructor|reflexivity]|].
    destruct (lit ["="] r1) as [r2|] eqn:E2; [|discriminate H]. destruct (lit_split _ _ _ E2) as [L1 _].
    destruct (many (is sep) r2) as [v r3] eqn:E3. destruct (many_split _ _ _ _ E3) as (N1 & N2 & _).
    destruct (lit [sep] r3) as [r4|] eqn:E4.
    + destruct (lit_split _ _ _ E4) as [L2 _]. destruct (pairs fuel sep r4) as [[ps' r']|] eqn:E5; [|discriminate H].
      injection H as <- <-. destruct (IH _ _ _ Hs E5) as (q & Q1 & Q2).
      exists ((k0 :: k) ++ "=" :: v ++ sep :: q). split; [constructor; exact Q1|].
      rewrite M1, L1, N1, L2, Q2. unfold nosp at 1 2. cbn [filter]. rewrite Hs. change (is_space "=") with false. cbn [negb].
      rewrite <- !app_assoc. cbn [app]. rewrite <- !app_assoc. reflexivity.
    + assert (r3 = []).
      { destruct r3 as [|c t]; [reflexivity|]. destruct N2 as [N2 N3]. unfold lit in E4. cbn [skip] in E4. rewrite N2 in E4.
        cbn [prefix] in E4. unfold is in N3. rewrite N3 in E4. discriminate E4. }
      subst r3. assert (P : pairs fuel sep [] = Some ([], [])) by (destruct fuel; reflexivity). rewrite P in H. injection H as <- <-.
      exists ((k0 :: k) ++ "=" :: v). split; [constructor|]. rewrite M1, L1, N1. cbn [nosp filter app]. rewrite !app_nil_r. reflexivity.
Qed.

(** C73: no character of an accepted URI other than white space is lost or
    invented: the text is the printed fields, the arguments (with possibly an
    empty list after "?" or a last "&") and what was left unread. *)
Theorem C73_nothing_lost : forall l u rest, parse_uri l = POk u rest ->
  exists q, nosp l = print_uri (mkUri (u_prot u) (u_host u) (u_port u) (u_path u) (u_ext u) []) ++ q ++ nosp rest /\
    ((u_args u = [] /\ q = []) \/ exists t, q = "?" :: t /\ args_text "&" (u_args u) t).
Proof.
  intros l u rest H. unfold parse_uri in H.
  destruct (many (is ":") l) as [p l1] eqn:E1. destruct (many_split _ _ _ _ E1) as (M1 & _ & _). destruct p as [|p0 p]; [discriminate H|].
  destruct (lit [":"; "/"; "/"] l1) as [l2|] eqn:E2; [|discriminate H]. destruct (lit_split _ _ _ E2) as [L2 _].
  destruct (many (fun c => is ":" c || is "?" c) l2) as [h l3] eqn:E3. destruct (many_split _ _ _ _ E3) as (M3 & _ & _). destruct h as [|h0 h]; [discriminate H|].
  destruct (section ":" is_punct l3) as [[po l4]|] eqn:E4; [|discriminate H]. destruct (section_split ":" _ _ _ _ eq_refl E4) as [S4 _].
  destruct (section "/" _ l4) as [[pa l5]|] eqn:E5; [|discriminate H]. destruct (section_split "/" _ _ _ _ eq_refl E5) as [S5 _].
  destruct (section "." _ l5) as [[e l6]|] eqn:E6; [|discriminate H]. destruct (section_split "." _ _ _ _ eq_refl E6) as [S6 _].
  destruct (pair_section "?" "&" l6) as [[args l7]|] eqn:E7; [|discriminate H]. injection H as <- <-.
  assert (Q : exists q, nosp l6 = q ++ nosp l7 /\ ((args = [] /\ q = []) \/ exists t, q = "?" :: t /\ args_text "&" args t)).
  { unfold pair_section in E7. destruct (lit ["?"] l6) as [t|] eqn:E8.
    - destruct (lit_split _ _ _ E8) as [L8 _]. destruct (pairs_split "&" _ _ _ _ eq_refl E7) as (q & Q1 & Q2).
      exists ("?" :: q). split; [rewrite L8, Q2; reflexivity|]. right. eauto.
    - injection E7 as <- <-. exists []. split; [reflexivity|left; auto]. }
  destruct Q as (q & Q1 & Q2). exists q. split; [|exact Q2].
  rewrite M1, L2, M3, S4, S5, S6, Q1. unfold print_uri. cbn [u_prot u_host u_port u_path u_ext u_args].
  cbn [nosp filter]. change (negb (is_space ":")) with true. change (negb (is_space "/")) with true. cbv iota.
  rewrite app_nil_r. cbn [app]. rewrite <- !app_assoc. cbn [app]. rewrite <- !app_assoc. destruct po, pa, e; reflexivity.
Qed.

Lemma stops_nosp : forall stop r, stops stop r -> nosp r = [] \/ exists c t, nosp r = c :: t /\ stop c = true /\ is_space c = false.
Proof.
  intros stop r H. destruct r as [|c t]; [auto|]. right. destruct H as [H1 H2].
  exists c, (nosp t). unfold nosp at 1. cbn [filter]. rewrite H1. auto.
Qed.

Lemma pairs_rest : forall sep fuel l ps r, is_space sep = false -> (List.length l <= fuel)%nat -> pairs fuel sep l = Some (ps, r) ->
  nosp r = [] \/ exists t, nosp r = "=" :: t.
Proof.
  intros sep fuel; induction fuel as [|fuel IH]; intros l ps r Hs Hl H; cbn [pairs] in H.
  - injection H as <- <-. destruct l; [left; reflexivity|cbn in Hl; lia].
  - destruct (many (is "=") l) as [k r1] eqn:E1. destruct (many_split _ _ _ _ E1) as (M1 & M2 & _). pose proof (many_length _ _ _ _ E1) as G1.
    destruct k as [|k0 k].
    { injection H as <- <-. cbn [app] in M1. rewrite M1. destruct (stops_nosp _ _ M2) as [Z|(c & t & Z1 & Z2 & _)]; [auto|].
      right. exists t. unfold is in Z2. apply Ascii.eqb_eq in Z2. subst c. exact Z1. }
    destruct (lit ["="] r1) as [r2|] eqn:E2; [|discriminate H]. destruct (lit_split _ _ _ E2) as [_ G2].
    destruct (many (is sep) r2) as [v r3] eqn:E3. pose proof (many_length _ _ _ _ E3) as G3. cbn [List.length] in *.
    destruct (lit [sep] r3) as [r4|] eqn:E4.
    + destruct (lit_split _ _ _ E4) as [_ G4]. cbn [List.length] in G4. destruct (pairs fuel sep r4) as [[ps' r']|] eqn:E5; [|discriminate H].
      injection H as <- <-. apply (IH r4 ps' r' Hs); [lia|exact E5].
    + destruct (pairs fuel sep r3) as [[ps' r']|] eqn:E5; [|discriminate H].
      injection H as <- <-. apply (IH r3 ps' r' Hs); [lia|exact E5].
Qed.

(** What can be left unread: nothing; text after the port that begins with a
    punctuation character other than "/", "." and "?"; or an argument without a
    name.  It is dropped silently: see [C73_whole_refuted]. *)
Theorem C73_rest : forall l u rest, parse_uri l = POk u rest ->
  nosp rest = [] \/
  exists c t, nosp rest = c :: t /\
    (c = "=" \/
     (u_port u <> [] /\ u_path u = [] /\ u_ext u = [] /\ u_args u = [] /\ is_punct c = true /\ c <> "/" /\ c <> "." /\ c <> "?")).
Proof.
  intros l u rest H. unfold parse_uri in H.
  destruct (many (is ":") l) as [p l1] eqn:E1. destruct p as [|p0 p]; [discriminate H|].
  destruct (lit [":"; "/"; "/"] l1) as [l2|] eqn:E2; [|discriminate H].
  destruct (many (fun c => is ":" c || is "?" c) l2) as [h l3] eqn:E3. destruct (many_split _ _ _ _ E3) as (M3 & T3 & _). destruct h as [|h0 h]; [discriminate H|].
  destruct (section ":" is_punct l3) as [[po l4]|] eqn:E4; [|discriminate H]. destruct (section_split ":" _ _ _ _ eq_refl E4) as [S4 D4].
  destruct (section "/" _ l4) as [[pa l5]|] eqn:E5; [|discriminate H]. destruct (section_split "/" _ _ _ _ eq_refl E5) as [S5 D5].
  destruct (section "." _ l5) as [[e l6]|] eqn:E6; [|discriminate H]. destruct (section_split "." _ _ _ _ eq_refl E6) as [S6 D6].
  destruct (pair_section "?" "&" l6) as [[args l7]|] eqn:E7; [|discriminate H]. injection H as <- <-.
  cbn [u_prot u_host u_port u_path u_ext u_args].
  unfold pair_section in E7. destruct (lit ["?"] l6) as [t|] eqn:E8.
  { destruct (pairs_rest "&" _ _ _ _ eq_refl (le_n _) E7) as [Z|(t' & Z)]; [auto|]. right. exists "=", t'. auto. }
  injection E7 as <- <-.
  (* what can l6 be *)
  destruct D6 as [(-> & -> & L6)|(_ & T6)].
  2:{ destruct (stops_nosp _ _ T6) as [Z|(c & t & Z1 & Z2 & Z3)]; [auto|]. exfalso.
      apply Ascii.eqb_eq in Z2. subst c. destruct l6 as [|c t']; [discriminate Z1|]. destruct T6 as [T6 T7]. apply Ascii.eqb_eq in T7. subst c.
      rewrite lit_one in E8 by reflexivity. discriminate E8. }
  destruct D5 as [(-> & -> & L5)|(_ & T5)].
  2:{ destruct l5 as [|c t']; [left; reflexivity|]. exfalso. destruct T5 as [T5 T7].
      apply orb_true_iff in T7. destruct T7 as [T7|T7]; apply Ascii.eqb_eq in T7; subst c.
      - rewrite lit_one in L6 by reflexivity. discriminate L6.
      - rewrite lit_one in E8 by reflexivity. discriminate E8. }
  destruct D4 as [(-> & -> & L4)|(N4 & T4)].
  { destruct l3 as [|c t']; [left; reflexivity|]. exfalso. destruct T3 as [T3 T7].
    apply orb_true_iff in T7. destruct T7 as [T7|T7]; apply Ascii.eqb_eq in T7; subst c.
    - rewrite lit_one in L4 by reflexivity. discriminate L4.
    - rewrite lit_one in E8 by reflexivity. discriminate E8. }
  destruct l4 as [|c t']; [left; reflexivity|]. right. destruct T4 as [T4 T7].
  exists c, (nosp t'). split; [unfold nosp at 1; cbn [filter]; rewrite T4; reflexivity|]. right.
  repeat split; try assumption; intros ->.
  - rewrite lit_one in L5 by reflexivity. discriminate L5.
  - rewrite lit_one in L6 by reflexivity. discriminate L6.
  - rewrite lit_one in E8 by reflexivity. discriminate E8.
Qed.

(** A URI with rubbish after the port creates a client. *)
Theorem C73_whole_refuted : exists us id text k u,
  get_client (registered us) id text [] = CNew k id u /\ print_uri u <> nosp text /\
  exists rest, parse_uri text = POk u rest /\ rest <> [].
Proof.
  exists [], (s_ "dev"), (s_ "ipbusudp-2.0://host:50001_1?x=1"). do 2 eexists.
  split; [vm_compute; reflexivity|]. split; [vm_compute; discriminate|].
  eexists. split; [vm_compute; reflexivity|discriminate].
Qed.

Example c73_case : exists u rest, parse_uri (s_ "ipbustcp-2.0 ://ho st:50 001 ? a = b & c=") = POk u rest /\ rest = [] /\
  u = mkUri (s_ "ipbustcp-2.0") (s_ "host") (s_ "50001") [] [] [(s_ "a", s_ "b"); (s_ "c", [])].
Proof. do 2 eexists. split; [vm_compute; reflexivity|]. split; reflexivity. Qed.

(** ** C62: the client factory *)

(** The registrations in the order in which they take place: the built-in ones
    first. *)
Definition history (us : list (str * nat)) : list (str * (klass * bool)) :=
  map (fun e => (snd e, (KBuiltin (fst e), false))) (combine (seq 0 8) builtins) ++
  map (fun e => (fst e, (KUser (snd e), true))) us.
(** The first registration of a protocol. *)
Fixpoint first_reg (h : list (str * (klass * bool))) (p : str) : option (klass * bool) :=
  match h with
  | [] => None
  | (q, i) :: t => if list_eq_dec Ascii.ascii_dec q p then Some i else first_reg t p
  end.

Lemma find_add : forall h r p,
  find_client (fold_left (fun r e => add_client r (fst e) (fst (snd e)) (snd (snd e))) h r) p =
  match find_client r p with Some x => Some x | None => first_reg h p end.
Proof.
  intros h; induction h as [|[q [k b]] t IH]; intros r p; cbn [fold_left fst snd].
  - destruct (find_client r p); reflexivity.
  - rewrite IH. unfold add_client. cbn [first_reg]. destruct (find_client r q) as [x|] eqn:E.
    + destruct (list_eq_dec ascii_dec q p) as [->|]; [rewrite E|]; destruct (find_client r p); reflexivity.
    + cbn [find_client]. unfold str_eqb. destruct (list_eq_dec ascii_dec q p) as [->|]; [rewrite E|]; reflexivity.
Qed.

Lemma fold_left_map' : forall A B C (f : C -> B -> C) (g : A -> B) l c, fold_left f (map g l) c = fold_left (fun x a => f x (g a)) l c.
Proof. intros A B C f g l; induction l as [|a l IH]; intros c; cbn [map fold_left]; [reflexivity|apply IH]. Qed.

Lemma find_registered : forall us p, find_client (registered us) p = first_reg (history us) p.
Proof.
  intros us p. transitivity (find_client (fold_left (fun r e => add_client r (fst e) (fst (snd e)) (snd (snd e))) (history us) []) p).
  - f_equal. unfold registered, instance, history. rewrite fold_left_app, !fold_left_map'. reflexivity.
  - rewrite find_add. reflexivity.
Qed.

(** The URI a text denotes: what was parsed, or nothing when there is no
    protocol. *)
Definition denotes (text : str) (u : uri) : Prop :=
  (exists rest, parse_uri text = POk u rest) \/ (parse_uri text = PFail /\ u = mkUri [] [] [] [] [] []).

Lemma denotes_or_throws : forall text, parse_uri text = PThrow \/ exists u, denotes text u.
Proof. intros text. unfold denotes. destruct (parse_uri text) as [u rest| |]; eauto. Qed.

Lemma denotes_unique : forall text u v, denotes text u -> denotes text v -> u = v.
Proof. intros text u v [[r H]|[H ->]] [[r' H']|[H' ->]]; rewrite H in H'; congruence. Qed.

Lemma get_client_eq : forall r id text act u, denotes text u ->
  get_client r id text act =
  match find_client r (u_prot u) with
  | None => CNoProtocol
  | Some (k, user) => if user && negb (existsb (str_eqb (u_prot u)) act) then CNotEnabled else CNew k id u
  end.
Proof. intros r id text act u [[rest H]|[H ->]]; unfold get_client; rewrite H; reflexivity. Qed.

Lemma existsb_str : forall p act, existsb (str_eqb p) act = true <-> In p act.
Proof.
  intros p act. rewrite existsb_exists. unfold str_eqb. split.
  - intros (x & H & E). destruct (list_eq_dec ascii_dec p x) as [->|]; [exact H|discriminate E].
  - intros H. exists p. split; [exact H|]. destruct (list_eq_dec ascii_dec p p); congruence.
Qed.

(** C62: for every history of user registrations, the client created is of the
    class registered first for the protocol of the URI, which is built in or
    activated; and every other call raises the right exception. *)
Theorem C62_created : forall us id text act k i u,
  get_client (registered us) id text act = CNew k i u <->
  i = id /\ denotes text u /\
  exists user, first_reg (history us) (u_prot u) = Some (k, user) /\ (user = true -> In (u_prot u) act).
Proof.
  intros us id text act k i u. split.
  - intros H. destruct (denotes_or_throws text) as [T|[v D]]; [unfold get_client in H; rewrite T in H; discriminate H|].
    rewrite (get_client_eq _ _ _ _ v D), find_registered in H. destruct (first_reg (history us) (u_prot v)) as [[k' user]|] eqn:F; [|discriminate H].
    destruct (user && negb (existsb (str_eqb (u_prot v)) act)) eqn:E; [discriminate H|]. injection H as <- <- <-.
    split; [reflexivity|]. split; [exact D|]. exists user. split; [exact F|]. intros ->. cbn [andb] in E.
    apply existsb_str. destruct (existsb _ act); [reflexivity|discriminate E].
  - intros (-> & D & user & F & A). rewrite (get_client_eq _ _ _ _ u D), find_registered, F.
    destruct user; cbn [andb]; [|reflexivity]. rewrite (proj2 (existsb_str _ _) (A eq_refl)). reflexivity.
Qed.

Theorem C62_refused : forall us id text act,
  (get_client (registered us) id text act = CNoParse <-> parse_uri text = PThrow) /\
  (get_client (registered us) id text act = CNoProtocol <-> exists u, denotes text u /\ first_reg (history us) (u_prot u) = None) /\
  (get_client (registered us) id text act = CNotEnabled <->
   exists u k, denotes text u /\ first_reg (history us) (u_prot u) = Some (k, true) /\ ~ In (u_prot u) act).
Proof.
  intros us id text act. destruct (denotes_or_throws text) as [T|[v D]].
  - assert (E : get_client (registered us) id text act = CNoParse) by (unfold get_client; rewrite T; reflexivity).
    assert (Z : forall u, ~ denotes text u) by (intros u [[r H]|[H _]]; rewrite T in H; discriminate H).
    split; [tauto|]. rewrite E. split; (split; [discriminate|]).
    + intros (u & D & _). destruct (Z u D).
    + intros (u & k & D & _). destruct (Z u D).
  - assert (T : parse_uri text <> PThrow) by (destruct D as [[r H]|[H _]]; rewrite H; discriminate).
    rewrite (get_client_eq _ _ _ _ v D), find_registered. destruct (first_reg (history us) (u_prot v)) as [[k user]|] eqn:F.
    + destruct (user && negb (existsb (str_eqb (u_prot v)) act)) eqn:E.
      * split; [split; [discriminate|tauto]|]. split.
        { split; [discriminate|]. intros (u & D' & F'). rewrite (denotes_unique _ _ _ D' D) in F'. congruence. }
        { split; [|reflexivity]. intros _. apply andb_true_iff in E. destruct E as [-> E]. exists v, k. split; [exact D|]. split; [exact F|].
          intros I. apply existsb_str in I. rewrite I in E. discriminate E. }
      * split; [split; [discriminate|tauto]|]. split.
        { split; [discriminate|]. intros (u & D' & F'). rewrite (denotes_unique _ _ _ D' D) in F'. congruence. }
        { split; [discriminate|]. intros (u & k' & D' & F' & N'). rewrite (denotes_unique _ _ _ D' D) in *. rewrite F in F'. injection F' as -> ->.
          cbn [andb] in E. destruct (existsb _ act) eqn:X; [|discriminate E]. apply existsb_str in X. tauto. }
    + split; [split; [discriminate|tauto]|]. split.
      { split; [|reflexivity]. eauto. }
      { split; [discriminate|]. intros (u & k' & D' & F' & N'). rewrite (denotes_unique _ _ _ D' D) in *. congruence. }
Qed.

(** No registration replaces a built-in client. *)
Theorem C62_builtin_kept : forall us n p, nth_error builtins n = Some p -> first_reg (history us) p = Some (KBuiltin n, false).
Proof.
  intros us n p H. unfold history. do 8 (destruct n as [|n]; [injection H as <-; reflexivity|]). destruct n; discriminate H.
Qed.

Example c62_case :
  let us := [(s_ "my-1.0", 5%nat); (s_ "ipbusudp-2.0", 6%nat); (s_ "my-1.0", 7%nat)] in
  let c t act := get_client (registered us) (s_ "d") (s_ t) act in
  c "my-1.0://h:1"%string [s_ "my-1.0"] = CNew (KUser 5) (s_ "d") (mkUri (s_ "my-1.0") (s_ "h") (s_ "1") [] [] []) /\
  c "my-1.0://h:1"%string [] = CNotEnabled /\
  c "ipbusudp-2.0://h:1"%string [] = CNew (KBuiltin 1) (s_ "d") (mkUri (s_ "ipbusudp-2.0") (s_ "h") (s_ "1") [] [] []) /\
  c "my-2.0://h:1"%string [s_ "my-2.0"] = CNoProtocol /\ c ""%string [] = CNoProtocol /\ c "my-1.0:h"%string [] = CNoParse.
Proof. vm_compute. repeat split. Qed.

(** ** C74: lists of files *)

(** protocol://expression, joined by semicolons. *)
Fixpoint join_files (l : list (str * str)) : str :=
  match l with
  | [] => []
  | [(k, v)] => k ++ [":"; "/"; "/"] ++ v
  | (k, v) :: t => k ++ [":"; "/"; "/"] ++ v ++ ";" :: join_files t
  end.

Lemma until_clean : forall k r, plain (is ":") k -> prefix [":"; "/"; "/"] r <> None -> until_scheme (k ++ r) = (k, r).
Proof.
  intros k; induction k as [|c k IH]; intros r H Hr.
  - cbn [app]. destruct r as [|c r]; [reflexivity|].
    assert (E : c = ":"). { cbn [prefix] in Hr. destruct (Ascii.eqb_spec c ":"); [assumption|congruence]. }
    subst c. cbn [until_scheme]. change (is_space ":") with false. cbv iota. destruct (prefix [":"; "/"; "/"] (":" :: r)); [reflexivity|congruence].
  - inversion H as [|? ? [H1 H2] H3]; subst. cbn [app until_scheme]. rewrite H1, (IH r H3 Hr).
    cbn [prefix]. unfold is in H2. rewrite H2. reflexivity.
Qed.

(** C74: for expressions without white space, and protocols without ":" and ";",
    the list is split into the same protocols and expressions.  Missing: white
    space ([C74_space_refuted]). *)
Theorem C74_files_partial : forall l,
  Forall (fun kv => fst kv <> [] /\ plain (fun c => is ":" c || is ";" c) (fst kv) /\ plain (is ";") (snd kv)) l ->
  parse_uri_list (join_files l) = Some l.
Proof.
  intros l H. unfold parse_uri_list.
  assert (G : forall l fuel, Forall (fun kv => fst kv <> [] /\ plain (fun c => is ":" c || is ";" c) (fst kv) /\ plain (is ";") (snd kv)) l ->
    (List.length l <= fuel)%nat -> uri_list fuel (join_files l) = Some l).
  { clear. intros l; induction l as [|[k v] t IH]; intros fuel H Hf; [destruct fuel; reflexivity|].
    inversion H as [|? ? (H1 & H2 & H3) H4]; subst. cbn [fst snd] in *. cbn [List.length] in Hf. destruct fuel as [|fuel]; [lia|]. cbn [uri_list].
    assert (E : join_files ((k, v) :: t) = k ++ ":" :: "/" :: "/" :: (v ++ match t with [] => [] | _ => ";" :: join_files t end)).
    { destruct t; cbn [join_files app]; [rewrite app_nil_r|]; reflexivity. }
    rewrite E. clear E.
    assert (P : plain (is ":") k). { eapply Forall_impl; [|exact H2]. intros c [Q1 Q2]. apply orb_false_iff in Q2. tauto. }
    assert (L : forall r, lits ";" (k ++ r) = k ++ r).
    { intros r. destruct k as [|c k]; [congruence|]. inversion H2 as [|? ? [Q1 Q2] Q3]; subst. apply orb_false_iff in Q2. destruct Q2 as [_ Q2].
      cbn [app lits]. unfold is in Q2. rewrite Q1, Q2. reflexivity. }
    rewrite L, (until_clean k _ P); [|cbn [prefix]; rewrite !Ascii.eqb_refl; discriminate].
    destruct k as [|k0 k]; [congruence|].
    unfold lit. cbn [skip]. change (is_space ":") with false. cbv iota. cbn [prefix]. rewrite !Ascii.eqb_refl.
    rewrite (many_clean (is ";") v _ H3); [|destruct t; cbn [stops]; auto].
    destruct t as [|[k' v'] t].
    - cbn [lits]. destruct fuel; reflexivity.
    - assert (LL : lits ";" (";" :: join_files ((k', v') :: t)) = join_files ((k', v') :: t)).
      { inversion H4 as [|? ? (G1 & G2 & _) _]; subst. cbn [fst] in *. destruct k' as [|c k']; [congruence|].
        inversion G2 as [|? ? [Q1 Q2] Q3]; subst. apply orb_false_iff in Q2. destruct Q2 as [_ Q2]. unfold is in Q2.
        destruct t; cbn [join_files app lits]; change (is_space ";") with false; cbv iota; rewrite Ascii.eqb_refl, Q1, Q2; reflexivity. }
      rewrite LL, (IH fuel H4) by lia. reflexivity. }
  apply G; [exact H|]. clear G.
  induction H as [|[k v] t (H1 & _) H4 IH]; [apply le_n|]. cbn [fst] in H1. destruct k; [congruence|].
  destruct t as [|kv t].
  - cbn [join_files List.length app]. lia.
  - change (join_files ((a :: k, v) :: kv :: t)) with (a :: k ++ ":" :: "/" :: "/" :: v ++ ";" :: join_files (kv :: t)).
    cbn [List.length]. rewrite app_length. cbn [List.length]. rewrite app_length. cbn [List.length] in *. lia.
Qed.

(** White space in a file name is dropped: another file is opened. *)
Theorem C74_space_refuted : exists v w, v <> w /\ parse_uri_list (join_files [(s_ "file", v)]) = Some [(s_ "file", w)] /\ ~ In ";" v.
Proof.
  exists (s_ "/tmp/my conn.xml"), (s_ "/tmp/myconn.xml"). split; [discriminate|]. split; [vm_compute; reflexivity|].
  vm_compute. intuition discriminate.
Qed.

Example c74_case : parse_uri_list (s_ "file://a/b*.xml;;http://host:80/c.xml;") =
  Some [(s_ "file", s_ "a/b*.xml"); (s_ "http", s_ "host:80/c.xml")] /\
  join_files [(s_ "file", s_ "a/b*.xml"); (s_ "http", s_ "host:80/c.xml")] = s_ "file://a/b*.xml;http://host:80/c.xml" /\
  parse_uri_list (s_ "a.xml") = None.
Proof. vm_compute. auto. Qed.

(** ** White space *)

(** The result of a parser with the white space of the rest removed. *)
Definition squeeze {A} (p : parsed A) : parsed A := match p with POk x r => POk x (nosp r) | PFail => PFail | PThrow => PThrow end.

Lemma many_nosp : forall stop l, many stop (nosp l) = (fst (many stop l), nosp (snd (many stop l))).
Proof.
  intros stop l. induction l as [|c t IH]; [reflexivity|]. unfold nosp. cbn [filter many]. destruct (is_space c) eqn:E; cbn [negb].
  - exact IH.
  - cbn [many]. rewrite E. destruct (stop c); [cbn [fst snd nosp filter]; rewrite E; reflexivity|]. fold (nosp t). rewrite IH. destruct (many stop t). reflexivity.
Qed.

Lemma skip_nosp_id : forall l, skip (nosp l) = nosp l.
Proof.
  induction l as [|c t IH]; [reflexivity|]. unfold nosp. cbn [filter]. destruct (is_space c) eqn:E; cbn [negb]; [exact IH|]. cbn [skip]. rewrite E. reflexivity.
Qed.

Lemma lit_nosp : forall x l, is_space x = false -> lit [x] (nosp l) = option_map nosp (lit [x] l).
Proof.
  intros x l X. unfold lit. rewrite skip_nosp_id. induction l as [|c t IH]; [reflexivity|]. unfold nosp. cbn [filter skip]. destruct (is_space c) eqn:E; cbn [negb]; [exact IH|].
  cbn [prefix]. destruct (Ascii.eqb c x); reflexivity.
Qed.

Lemma lit_length : forall p l t, lit p l = Some t -> (List.length p + List.length t <= List.length l)%nat.
Proof. intros p l t H. apply (lit_split _ _ _ H). Qed.

Lemma nosp_length : forall l, (List.length (nosp l) <= List.length l)%nat.
Proof. induction l as [|c t IH]; [apply le_n|]. unfold nosp. cbn [filter]. destruct (is_space c); cbn [negb List.length]; fold (nosp t); lia. Qed.

Lemma pairs_nosp : forall sep, is_space sep = false -> forall fuel l fuel', (List.length l <= fuel)%nat -> (List.length (nosp l) <= fuel')%nat ->
  pairs fuel' sep (nosp l) = match pairs fuel sep l with Some (ps, r) => Some (ps, nosp r) | None => None end.
Proof.
  intros sep Hs. induction fuel as [|fuel IH]; intros l fuel' L L'.
  - destruct l; [|cbn in L; lia]. destruct fuel'; reflexivity.
  - destruct fuel' as [|fuel'].
    + assert (Z : nosp l = []) by (destruct (nosp l); [reflexivity|cbn in L'; lia]). cbn [pairs]. assert (M := many_nosp (is "=") l). rewrite Z in M. cbn [many] in M.
      destruct (many (is "=") l) as [k r]. cbn [fst snd] in M. injection M as <- _. reflexivity.
    + cbn [pairs]. rewrite many_nosp. destruct (many (is "=") l) as [k r] eqn:M. cbn [fst snd]. destruct k as [|k0 k]; [reflexivity|].
      rewrite lit_nosp by reflexivity. destruct (lit ["="] r) as [r1|] eqn:L1; cbn [option_map]; [|reflexivity].
      rewrite many_nosp. destruct (many (is sep) r1) as [v r2] eqn:M2. cbn [fst snd]. rewrite lit_nosp by exact Hs.
      assert (Q1 := many_length _ _ _ _ M). assert (Q2 := lit_length _ _ _ L1). assert (Q3 := many_length _ _ _ _ M2). cbn [List.length] in Q1, Q2.
      set (r3 := match lit [sep] r2 with Some t => t | None => r2 end).
      assert (Q4 : (List.length r3 <= List.length r2)%nat).
      { unfold r3. destruct (lit [sep] r2) eqn:L2; [|apply le_n]. assert (Q4 := lit_length _ _ _ L2). cbn [List.length] in Q4. unfold str in *. lia. }
      replace (match option_map nosp (lit [sep] r2) with Some t => t | None => nosp r2 end) with (nosp r3) by (unfold r3; destruct (lit [sep] r2); reflexivity).
      assert (Q5 : (List.length (nosp r3) <= fuel')%nat).
      { assert (N1 : nosp l = (k0 :: k) ++ nosp r) by apply (many_split _ _ _ _ M). assert (N2 := proj1 (lit_split _ _ _ L1)). change (nosp ["="]) with ["="] in N2.
        assert (N3 : nosp r1 = v ++ nosp r2) by apply (many_split _ _ _ _ M2).
        assert (Q6 : (List.length (nosp r3) <= List.length (nosp r2))%nat).
        { unfold r3. destruct (lit [sep] r2) eqn:L2; [|apply le_n]. rewrite (proj1 (lit_split _ _ _ L2)), app_length. lia. }
        rewrite N1, N2, N3 in L'. cbn [app List.length] in L'. rewrite !app_length in L'. cbn [List.length app] in L'. rewrite ?app_length in L'. unfold str in *. lia. }
      rewrite (IH r3 fuel'); [|unfold str in *; lia|exact Q5]. destruct (pairs fuel sep r3) as [[ps r4]|]; reflexivity.
Qed.

Lemma pair_section_nosp : forall lead sep l, is_space lead = false -> is_space sep = false ->
  pair_section lead sep (nosp l) = match pair_section lead sep l with Some (ps, r) => Some (ps, nosp r) | None => None end.
Proof.
  intros lead sep l H1 H2. unfold pair_section. rewrite lit_nosp by exact H1. destruct (lit [lead] l) as [t|]; [|reflexivity]. cbn [option_map].
  apply pairs_nosp; [exact H2|apply le_n|apply le_n].
Qed.

Lemma section_nosp : forall lead stop l, is_space lead = false ->
  section lead stop (nosp l) = match section lead stop l with Some (a, r) => Some (a, nosp r) | None => None end.
Proof.
  intros lead stop l H. unfold section. rewrite lit_nosp by exact H. destruct (lit [lead] l) as [t|]; [|reflexivity]. cbn [option_map].
  rewrite many_nosp. destruct (many stop t) as [[|c a] r]; reflexivity.
Qed.

(** C61 and C80: white space does not matter.  It does matter inside "://". *)
Theorem C80_spaces : forall text, parse_fwinfo (nosp text) = squeeze (parse_fwinfo text).
Proof.
  intros text. unfold parse_fwinfo. rewrite many_nosp. destruct (many (is ";") text) as [[|c e] l]; [reflexivity|]. cbn [fst snd].
  rewrite pair_section_nosp by reflexivity. destruct (pair_section ";" ";" l) as [[ps r]|]; reflexivity.
Qed.

Lemma scheme_nosp : forall l t, lit [":"; "/"; "/"] l = Some t -> lit [":"; "/"; "/"] (nosp l) = Some (nosp t).
Proof.
  intros l t H. assert (N := proj1 (lit_split _ _ _ H)). rewrite N. apply lit_scheme.
Qed.

Theorem C61_spaces : forall text u r, parse_uri text = POk u r -> parse_uri (nosp text) = POk u (nosp r).
Proof.
  intros text u r H. unfold parse_uri in *. rewrite many_nosp. destruct (many (is ":") text) as [[|c p] l]; [discriminate|]. cbn [fst snd].
  destruct (lit [":"; "/"; "/"] l) as [l1|] eqn:L; [|discriminate]. rewrite (scheme_nosp _ _ L).
  rewrite many_nosp. destruct (many (fun c0 => is ":" c0 || is "?" c0) l1) as [[|h0 h] l2]; [discriminate|]. cbn [fst snd].
  rewrite section_nosp by reflexivity. destruct (section ":" is_punct l2) as [[po l3]|]; [|discriminate].
  rewrite section_nosp by reflexivity. destruct (section "/" _ l3) as [[pa l4]|]; [|discriminate].
  rewrite section_nosp by reflexivity. destruct (section "." _ l4) as [[e l5]|]; [|discriminate].
  rewrite pair_section_nosp by reflexivity. destruct (pair_section "?" "&" l5) as [[args l6]|]; [|discriminate].
  injection H as <- <-. reflexivity.
Qed.

Example c80_spaces_case : nosp (s_ "end point ; width =4; x= ") = s_ "endpoint;width=4;x=" /\
  parse_fwinfo (s_ "end point ; width =4; x= ") = POk (s_ "endpoint", [(s_ "width", s_ "4"); (s_ "x", [])]) [] /\
  parse_uri (s_ "chtcp-2.0 ://ho st:10 203") = POk (mkUri (s_ "chtcp-2.0") (s_ "host") (s_ "10203") [] [] []) [] /\
  parse_uri (s_ "chtcp-2.0: //host:10203") = PThrow.
Proof. vm_compute. auto. Qed.

(** ** C75: node parameters *)

(** A parameter without a value is its name; each further one comes after a
    semicolon or an ampersand. *)
Definition print_param (kv : str * str) : str := match snd kv with [] => fst kv | v => fst kv ++ "=" :: v end.
Definition print_more (l : list (bool * (str * str))) : str :=
  flat_map (fun x : bool * (str * str) => (if fst x then ";" else "&") :: print_param (snd x)) l.
Definition letter_digit (c : ascii) : Prop :=
  exists n, N_of_ascii c = n /\ (65 <= n <= 90 \/ 97 <= n <= 122 \/ n = 95 \/ 48 <= n <= 57)%N.
Definition digit (c : ascii) : Prop := (48 <= N_of_ascii c <= 57)%N.
Definition wf_param (kv : str * str) : Prop :=
  Forall letter_digit (fst kv) /\ Forall letter_digit (snd kv) /\
  match fst kv with c :: _ => ~ digit c | [] => False end.
Definition blank (s : str) : Prop := Forall (fun c => is_space c = true) s.

Lemma word_spec : forall c, is_word c = true <-> letter_digit c.
Proof.
  intros c. unfold is_word, letter_digit. rewrite !orb_true_iff, !andb_true_iff, !N.leb_le, N.eqb_eq. split.
  - intros H. exists (N_of_ascii c). split; [reflexivity|]. lia.
  - intros (n & <- & H). lia.
Qed.

Lemma first_spec : forall c, is_first c = true <-> letter_digit c /\ ~ digit c.
Proof.
  intros c. unfold is_first. rewrite andb_true_iff, word_spec, negb_true_iff. unfold digit.
  split; intros (H1 & H2); (split; [exact H1|]).
  - intros (A & B). apply andb_false_iff in H2. rewrite !N.leb_gt in H2. lia.
  - apply andb_false_iff. rewrite !N.leb_gt. lia.
Qed.

Lemma word_not_space : forall c, is_word c = true -> is_space c = false.
Proof.
  intros c. unfold is_word, is_space. generalize (N_of_ascii c). intros n H.
  apply not_true_is_false. intros Z. rewrite !orb_true_iff, !andb_true_iff, !N.leb_le, !N.eqb_eq in *. lia.
Qed.

(** The text goes on with a character that is not of a word. *)
Definition ends (r : str) : Prop := match r with c :: _ => is_word c = false | [] => True end.

Lemma words_app : forall a r, Forall letter_digit a -> ends r -> words (a ++ r) = (a, r).
Proof.
  intros a r H E. induction H as [|c a Hc H IH]; cbn [app words].
  - destruct r as [|c r]; [reflexivity|]. cbn [words ends] in *. rewrite E. reflexivity.
  - rewrite (proj2 (word_spec c) Hc), IH. reflexivity.
Qed.

Lemma words_split : forall l a r, words l = (a, r) -> l = a ++ r /\ Forall letter_digit a.
Proof.
  induction l as [|c t IH]; intros a r H; cbn [words] in H; [injection H as <- <-; auto|].
  destruct (is_word c) eqn:E; [|injection H as <- <-; auto]. destruct (words t) as [b q]. injection H as <- <-.
  destruct (IH b q eq_refl) as (-> & F). split; [reflexivity|]. constructor; [apply word_spec; exact E|exact F].
Qed.

Lemma param_round : forall kv r, wf_param kv -> ends r -> match r with c :: _ => c <> "=" | [] => True end ->
  param (print_param kv ++ r) = Some (kv, r).
Proof.
  intros [k v] r (H1 & H2 & H3) Hr Hq. cbn [fst snd] in *. unfold print_param, param. cbn [fst snd].
  destruct k as [|c k]; [destruct H3|].
  assert (F : is_first c = true) by (apply first_spec; inversion H1; auto).
  destruct v as [|v0 v].
  - cbn [app]. rewrite F. change (c :: k ++ r) with ((c :: k) ++ r). rewrite (words_app _ _ H1 Hr).
    destruct r as [|x r]; [reflexivity|]. cbn [prefix]. destruct (Ascii.eqb_spec x "="); [contradiction|reflexivity].
  - rewrite <- app_assoc. cbn [app]. rewrite F. change (c :: k ++ "=" :: v0 :: v ++ r) with ((c :: k) ++ ("=" :: v0 :: v ++ r)).
    rewrite words_app by (trivial; reflexivity). cbn [prefix]. rewrite Ascii.eqb_refl.
    change (v0 :: v ++ r) with ((v0 :: v) ++ r). rewrite (words_app _ _ H2 Hr). reflexivity.
Qed.

Lemma param_split : forall l kv r, param l = Some (kv, r) -> wf_param kv /\ l = print_param kv ++ r.
Proof.
  intros l kv r H. unfold param in H. destruct l as [|c t]; [discriminate|]. destruct (is_first c) eqn:F; [|discriminate].
  destruct (words (c :: t)) as [k q] eqn:W. destruct (words_split _ _ _ W) as (E & K).
  assert (KF : match k with x :: _ => ~ digit x | [] => False end).
  { apply first_spec in F. cbn [words] in W. rewrite (proj2 (word_spec c) (proj1 F)) in W. destruct (words t).
    injection W as <- <-. tauto. }
  destruct (prefix ["="] q) as [u|] eqn:P.
  - apply prefix_split in P. destruct (words u) as [v q'] eqn:V. destruct (words_split _ _ _ V) as (E' & K').
    destruct v as [|v0 v]; injection H as <- <-.
    + split; [repeat split; auto; constructor|exact E].
    + split; [repeat split; auto|]. unfold print_param. cbn [fst snd]. rewrite E, P, E', <- app_assoc. reflexivity.
  - injection H as <- <-. split; [repeat split; auto; constructor|exact E].
Qed.

(** The text goes on with a character that has no place in a parameter list. *)
Definition foreign (r : str) : Prop :=
  match r with c :: _ => ~ letter_digit c /\ c <> "=" /\ c <> ";" /\ c <> "&" | [] => True end.

Lemma foreign_ends r : foreign r -> ends r /\ match r with c :: _ => c <> "=" | [] => True end.
Proof.
  destruct r as [|c r]; [split; exact I|]. cbn [foreign ends]. intros (H1 & H2 & _). split; [|exact H2].
  apply not_true_is_false. intros Z. apply H1, word_spec, Z.
Qed.

Lemma more_ends l r : foreign r -> ends (print_more l ++ r) /\ match print_more l ++ r with c :: _ => c <> "=" | [] => True end.
Proof.
  intros H. destruct l as [|[b x] l]; [apply foreign_ends; exact H|]. cbn [print_more flat_map app fst ends].
  destruct b; (split; [reflexivity|discriminate]).
Qed.

Lemma more_round : forall l fuel r, Forall (fun x => wf_param (snd x)) l -> (List.length l <= fuel)%nat ->
  foreign r -> params_more fuel (print_more l ++ r) = (map snd l, r).
Proof.
  intros l; induction l as [|[b kv] t IH]; intros fuel r H Hf Hr; cbn [map print_more flat_map app].
  - destruct fuel; [reflexivity|]. cbn [params_more]. destruct r as [|c r]; [reflexivity|].
    destruct Hr as (_ & _ & H1 & H2). unfold is. destruct (Ascii.eqb_spec c ";"); [contradiction|].
    destruct (Ascii.eqb_spec c "&"); [contradiction|reflexivity].
  - inversion H as [|? ? H1 H2]; subst. cbn [List.length] in Hf. destruct fuel as [|fuel]; [lia|]. cbn [params_more fst snd].
    replace (is ";" (if b then ";" else "&") || is "&" (if b then ";" else "&")) with true by (destruct b; reflexivity).
    cbn [snd] in H1. rewrite <- app_assoc. fold (print_more t). destruct (more_ends t r Hr) as (E1 & E2).
    rewrite param_round by assumption. rewrite (IH fuel r H2) by (lia || exact Hr). reflexivity.
Qed.

Lemma skip_blank : forall w l, blank w -> skip (w ++ l) = skip l.
Proof. intros w l H. induction H as [|c w Hc H IH]; [reflexivity|]. cbn [app skip]. rewrite Hc. exact IH. Qed.

Lemma skip_all : forall w, blank w -> skip w = [].
Proof. intros w H. rewrite <- (app_nil_r w), skip_blank by exact H. reflexivity. Qed.

Lemma skip_split : forall l, exists w, blank w /\ l = w ++ skip l.
Proof.
  induction l as [|c t (w & B & E)]; [exists []; split; [constructor|reflexivity]|]. cbn [skip].
  destruct (is_space c) eqn:S; [|exists []; split; [constructor|reflexivity]].
  exists (c :: w). split; [constructor; assumption|]. cbn [app]. rewrite <- E. reflexivity.
Qed.

Lemma blank_foreign w : blank w -> foreign w.
Proof.
  intros H. destruct H as [|c w Hc H]; [exact I|]. cbn [foreign]. split; [|repeat split; intros ->; discriminate Hc].
  intros Z. apply word_spec, word_not_space in Z. congruence.
Qed.

(** What is read of a text that begins with parameters: all of them, up to the
    first character that has no place there; the rest is not read. *)
Theorem C75_read : forall w kv l r, blank w -> wf_param kv -> Forall (fun x => wf_param (snd x)) l -> foreign r ->
  parse_params (w ++ print_param kv ++ print_more l ++ r) = POk (kv :: map snd l) (skip r).
Proof.
  intros w kv l r B H HL B'. unfold parse_params. rewrite skip_blank by exact B.
  assert (SK : skip (print_param kv ++ print_more l ++ r) = print_param kv ++ print_more l ++ r).
  { destruct kv as [k v]. destruct H as (H1 & _ & H3). cbn [fst] in *. destruct k as [|c k]; [contradiction|].
    assert (S : is_space c = false) by (apply word_not_space, word_spec; inversion H1; assumption).
    unfold print_param. cbn [fst snd]. destruct v; cbn [app skip]; rewrite S; reflexivity. }
  destruct (more_ends l r B') as (E1 & E2). rewrite SK, param_round by assumption. rewrite more_round; trivial.
  rewrite app_length. apply Nat.le_trans with (m := List.length (print_more l)); [|lia]. clear.
  induction l as [|[b kv] l IH]; [apply le_n|]. cbn [print_more flat_map]. fold (print_more l).
  cbn [app List.length]. rewrite app_length. lia.
Qed.

(** C75: parameters whose names and values are letters, digits and underscores
    (names not beginning with a digit), joined by semicolons or ampersands, with
    white space around the whole, are all found. *)
Theorem C75_params : forall w kv l w', blank w -> wf_param kv -> Forall (fun x => wf_param (snd x)) l -> blank w' ->
  parse_params (w ++ print_param kv ++ print_more l ++ w') = POk (kv :: map snd l) [].
Proof. intros w kv l w' B H HL B'. rewrite C75_read by auto using blank_foreign. rewrite skip_all by exact B'. reflexivity. Qed.

Lemma more_split : forall fuel l ps r, params_more fuel l = (ps, r) ->
  exists m, ps = map snd m /\ Forall (fun x => wf_param (snd x)) m /\ l = print_more m ++ r.
Proof.
  induction fuel as [|fuel IH]; intros l ps r H; cbn [params_more] in H.
  - injection H as <- <-. exists []. auto.
  - destruct l as [|c t]; [injection H as <- <-; exists []; auto|].
    destruct (is ";" c || is "&" c) eqn:S; [|injection H as <- <-; exists []; auto].
    destruct (param t) as [[kv q]|] eqn:P; [|injection H as <- <-; exists []; auto].
    destruct (params_more fuel q) as [qs q'] eqn:M. injection H as <- <-.
    destruct (IH _ _ _ M) as (m & -> & F & E). destruct (param_split _ _ _ P) as (W & ->).
    exists ((is ";" c, kv) :: m). split; [reflexivity|]. split; [constructor; [exact W|exact F]|].
    cbn [print_more flat_map fst snd app]. fold (print_more m). rewrite <- app_assoc, <- E. f_equal.
    unfold is in *. destruct (Ascii.eqb_spec c ";"); [congruence|]. cbn [orb] in S. apply Ascii.eqb_eq in S. congruence.
Qed.

(** Nothing is found that is not written: a text is accepted if it begins with
    such parameters, and what is given back is what they say. *)
Theorem C75_found : forall text ps rest, parse_params text = POk ps rest ->
  exists w kv l w', blank w /\ wf_param kv /\ Forall (fun x => wf_param (snd x)) l /\ blank w' /\
    ps = kv :: map snd l /\ text = w ++ print_param kv ++ print_more l ++ w' ++ rest.
Proof.
  intros text ps rest H. unfold parse_params in H. destruct (skip_split text) as (w & B & E).
  destruct (param (skip text)) as [[kv r]|] eqn:P; [|discriminate]. destruct (param_split _ _ _ P) as (W & S).
  destruct (params_more (List.length r) r) as [qs q] eqn:M. injection H as <- <-.
  destruct (more_split _ _ _ _ M) as (m & -> & F & R). destruct (skip_split q) as (w' & B' & E').
  exists w, kv, m, w'. repeat (split; [assumption || reflexivity|]). rewrite <- E', <- R, <- S. exact E.
Qed.

(** Text that is not of this form is not refused but cut, also at white space:
    for every such list and whatever follows, the text is accepted. *)
Theorem C75_cut_refuted : forall kv l c t, wf_param kv -> Forall (fun x => wf_param (snd x)) l ->
  is_space c = true \/ ~ letter_digit c /\ c <> "=" /\ c <> ";" /\ c <> "&" ->
  exists rest, parse_params (print_param kv ++ print_more l ++ c :: t) = POk (kv :: map snd l) rest.
Proof.
  intros kv l c t H HL C. exists (skip (c :: t)). apply (C75_read [] kv l (c :: t)); [constructor|exact H|exact HL|].
  destruct C as [C|C]; [|exact C]. apply (blank_foreign [c]). repeat constructor. exact C.
Qed.

Example c75_cut_case :
  parse_params (s_ "a=1; b=2") = POk [(s_ "a", s_ "1")] (s_ "; b=2") /\
  parse_params (s_ "a=1 ;b=2") = POk [(s_ "a", s_ "1")] (s_ ";b=2") /\
  parse_params (s_ "a=1;b=x-y;c=3") = POk [(s_ "a", s_ "1"); (s_ "b", s_ "x")] (s_ "-y;c=3").
Proof. vm_compute. auto. Qed.

Example c75_case :
  parse_params (s_ " nbits=8;signed&_x1=0xFF ") = POk [(s_ "nbits", s_ "8"); (s_ "signed", []); (s_ "_x1", s_ "0xFF")] [] /\
  s_ " nbits=8;signed&_x1=0xFF " =
    [" "] ++ print_param (s_ "nbits", s_ "8") ++ print_more [(true, (s_ "signed", [])); (false, (s_ "_x1", s_ "0xFF"))] ++ [" "] /\
  wf_param (s_ "signed", []) /\
  parse_fwinfo (s_ "endpoint;width=4;x=") = POk (s_ "endpoint", [(s_ "width", s_ "4"); (s_ "x", [])]) [].
Proof.
  split; [vm_compute; reflexivity|]. split; [reflexivity|]. split; [|vm_compute; reflexivity].
  split; [|split; [constructor|cbn; unfold digit; cbn; lia]].
  repeat (apply Forall_cons; [apply word_spec; reflexivity|]). apply Forall_nil.
Qed.

(** ** C80: firmware information *)

(** The type, then name=value items each after a semicolon, and perhaps a last
    semicolon. *)
Definition print_fw (e : str) (ps : list (str * str)) (last : bool) : str :=
  e ++ flat_map (fun kv : str * str => ";" :: fst kv ++ "=" :: snd kv) ps ++ (if last then [";"] else []).
Definition wf_fw (e : str) (ps : list (str * str)) : Prop :=
  e <> [] /\ plain (is ";") e /\ Forall (fun kv => fst kv <> [] /\ plain (is "=") (fst kv) /\ plain (is ";") (snd kv)) ps.

(** A text after the items that adds none. *)
Definition fw_end (tail rest : str) : Prop :=
  stops (is ";") tail /\ forall fuel, pairs fuel ";" (match lit [";"] tail with Some t => t | None => tail end) = Some ([], rest).

Lemma fw_end_last last : fw_end (if last : bool then [";"] else []) [].
Proof. split; [destruct last; cbn; auto|]. intros fuel. destruct last, fuel; reflexivity. Qed.

Lemma fw_end_cut t : fw_end (";" :: "=" :: t) ("=" :: t).
Proof. split; [cbn; auto|]. intros fuel. rewrite lit_one by reflexivity. destruct fuel; reflexivity. Qed.

Lemma fw_pairs : forall ps fuel tail rest k v, (List.length ps < fuel)%nat ->
  k <> [] -> plain (is "=") k -> plain (is ";") v ->
  Forall (fun kv => fst kv <> [] /\ plain (is "=") (fst kv) /\ plain (is ";") (snd kv)) ps -> fw_end tail rest ->
  pairs fuel ";" (k ++ "=" :: v ++ flat_map (fun kv : str * str => ";" :: fst kv ++ "=" :: snd kv) ps ++ tail)
    = Some ((k, v) :: ps, rest).
Proof.
  induction ps as [|[k' v'] ps IH]; intros fuel tail rest k v Hf Hk Pk Pv F T; (destruct fuel as [|fuel]; [cbn in Hf; lia|]); cbn [pairs].
  - rewrite (many_clean (is "=") k _ Pk) by (split; reflexivity). destruct k as [|k0 k]; [congruence|].
    rewrite lit_one by reflexivity. cbn [flat_map app]. destruct T as (T1 & T2).
    rewrite (many_clean (is ";") v _ Pv T1), T2. reflexivity.
  - inversion F as [|? ? (F1 & F2 & F3) F4]; subst. cbn [fst snd] in *.
    rewrite (many_clean (is "=") k _ Pk) by (split; reflexivity). destruct k as [|k0 k]; [congruence|].
    rewrite lit_one by reflexivity. cbn [flat_map app fst snd].
    rewrite (many_clean (is ";") v _ Pv) by (split; reflexivity). rewrite lit_one by reflexivity.
    rewrite <- !app_assoc. cbn [app]. cbn [List.length] in Hf.
    rewrite (IH fuel tail rest k' v' ltac:(lia) F1 F2 F3 F4 T). reflexivity.
Qed.

Lemma fw_text : forall e ps tail rest, wf_fw e ps -> fw_end tail rest ->
  (ps = [] -> exists r, pair_section ";" ";" tail = Some ([], r) /\ r = rest) ->
  parse_fwinfo (e ++ flat_map (fun kv : str * str => ";" :: fst kv ++ "=" :: snd kv) ps ++ tail) = POk (e, ps) rest.
Proof.
  intros e ps tail rest (He & Pe & F) T T0. unfold parse_fwinfo.
  rewrite (many_clean (is ";") e _ Pe).
  2:{ destruct ps as [|kv ps]; [apply T|cbn; auto]. }
  destruct e as [|e0 e]; [congruence|]. destruct ps as [|[k v] ps].
  - destruct (T0 eq_refl) as (r & Q & ->). cbn [flat_map app]. rewrite Q. reflexivity.
  - unfold pair_section. inversion F as [|? ? (F1 & F2 & F3) F4]; subst. cbn [fst snd] in *. cbn [flat_map app fst snd]. rewrite lit_one by reflexivity.
    rewrite <- !app_assoc. cbn [app]. rewrite fw_pairs with (rest := rest); trivial.
    rewrite !app_length. cbn [List.length]. rewrite !app_length.
    assert (List.length ps <= List.length (flat_map (fun kv : str * str => ";" :: fst kv ++ "=" :: snd kv) ps))%nat as Z; [|unfold str in *; lia].
    clear. induction ps as [|kv ps IH]; [apply le_n|]. cbn [flat_map]. rewrite app_length. cbn [List.length]. unfold str in *. lia.
Qed.

(** C80: firmware information of this form is read completely. *)
Theorem C80_read : forall e ps last, wf_fw e ps -> parse_fwinfo (print_fw e ps last) = POk (e, ps) [].
Proof.
  intros e ps last W. unfold print_fw. apply fw_text; [exact W|apply fw_end_last|].
  intros _. destruct last; eexists; split; reflexivity.
Qed.

Lemma fw_pairs_split : forall fuel l ps r, (List.length l <= fuel)%nat -> pairs fuel ";" l = Some (ps, r) ->
  Forall (fun kv => fst kv <> [] /\ plain (is "=") (fst kv) /\ plain (is ";") (snd kv)) ps /\
  (nosp r = [] \/ exists t, nosp r = "=" :: t) /\
  exists last, ";" :: nosp l = flat_map (fun kv : str * str => ";" :: fst kv ++ "=" :: snd kv) ps ++ (if last : bool then [";"] else []) ++ nosp r /\
               (last = false -> nosp r = []).
Proof.
  induction fuel as [|fuel IH]; intros l ps r L H; cbn [pairs] in H.
  - injection H as <- <-. destruct l; [|cbn in L; lia]. split; [constructor|]. split; [auto|]. exists true. cbn. split; [reflexivity|discriminate].
  - destruct (many (is "=") l) as [k q] eqn:M. destruct (many_split _ _ _ _ M) as (E & S & P). assert (ML := many_length _ _ _ _ M).
    destruct k as [|k0 k].
    + injection H as <- <-. split; [constructor|]. split.
      * rewrite E. destruct q as [|c q]; [left; reflexivity|]. right. destruct S as (S1 & S2). unfold is in S2. apply Ascii.eqb_eq in S2. subst c.
        exists (nosp q). reflexivity.
      * exists true. split; [reflexivity|discriminate].
    + destruct (lit ["="] q) as [u|] eqn:Q; [|discriminate]. destruct (lit_split _ _ _ Q) as (E2 & L2).
      destruct (many (is ";") u) as [v w] eqn:V. destruct (many_split _ _ _ _ V) as (E3 & S3 & P3). assert (ML3 := many_length _ _ _ _ V).
      cbn [List.length] in *. destruct (lit [";"] w) as [x|] eqn:X.
      * destruct (lit_split _ _ _ X) as (E4 & L4). cbn [List.length] in L4.
        destruct (pairs fuel ";" x) as [[qs r']|] eqn:R; [|discriminate]. injection H as <- <-.
        destruct (IH x qs r' ltac:(lia) R) as (F & N & last & EQ & NL).
        split; [constructor; [cbn [fst snd]; repeat split; [discriminate|exact P|exact P3]|exact F]|]. split; [exact N|].
        exists last. split; [|exact NL]. rewrite E, E2, E3, E4. change (nosp ["="]) with ["="]. change (nosp [";"]) with [";"].
        cbn [flat_map fst snd app]. rewrite <- !app_assoc. cbn [app]. rewrite <- EQ. reflexivity.
      * (* no semicolon: the value took the whole text *)
        assert (W : nosp w = []).
        { destruct (lit_none _ _ X) as [Z|(c & t & Z & Z1 & Z2)]; [rewrite <- (skip_nosp w), Z; reflexivity|].
          destruct w as [|c' w']; [reflexivity|]. destruct S3 as (S3 & S4). cbn [skip] in Z. rewrite S3 in Z. injection Z as -> ->.
          unfold is in S4. apply Ascii.eqb_eq in S4. congruence. }
        destruct (pairs fuel ";" w) as [[qs r']|] eqn:R; [|discriminate]. injection H as <- <-.
        destruct (IH w qs r' ltac:(lia) R) as (F & N & last & EQ & NL). rewrite W in EQ.
        assert (QS : qs = []).
        { destruct qs as [|[k' v'] qs]; [reflexivity|]. cbn [flat_map fst snd app] in EQ. injection EQ as EQ.
          inversion F as [|? ? (F1 & _) _]; subst. cbn [fst] in F1. destruct k'; [congruence|discriminate EQ]. }
        subst qs. cbn [flat_map app] in EQ.
        assert (R0 : nosp r' = []).
        { destruct last; [cbn [app] in EQ; injection EQ as EQ; congruence|]. apply NL. reflexivity. }
        split; [constructor; [cbn [fst snd]; repeat split; [discriminate|exact P|exact P3]|constructor]|]. split; [auto|].
        exists false. split; [|auto]. rewrite E, E2, E3, W, R0. change (nosp ["="]) with ["="].
        cbn [flat_map fst snd app]. rewrite !app_nil_r. reflexivity.
Qed.

(** Nothing is found that is not written, and nothing is left unread but a text
    that begins with "=" (white space does not count). *)
Theorem C80_found : forall text e ps rest, parse_fwinfo text = POk (e, ps) rest ->
  wf_fw e ps /\ (nosp rest = [] \/ exists t, nosp rest = "=" :: t) /\
  exists last, nosp text = print_fw e ps last ++ nosp rest.
Proof.
  intros text e ps rest H. unfold parse_fwinfo in H. destruct (many (is ";") text) as [a l] eqn:M.
  destruct (many_split _ _ _ _ M) as (E & S & P). destruct a as [|a0 a]; [discriminate|].
  unfold pair_section in H. destruct (lit [";"] l) as [u|] eqn:L.
  - destruct (lit_split _ _ _ L) as (E2 & _). destruct (pairs (List.length u) ";" u) as [[qs r]|] eqn:R; [|discriminate].
    injection H as <- <- <-. destruct (fw_pairs_split _ _ _ _ (le_n _) R) as (F & N & last & EQ & NL).
    split; [split; [discriminate|split; assumption]|]. split; [exact N|]. exists last. unfold print_fw.
    rewrite E, E2. change (nosp [";"]) with [";"]. cbn [app]. rewrite EQ. cbn [app]. rewrite <- !app_assoc. reflexivity.
  - injection H as <- <- <-.
    assert (W : nosp l = []).
    { destruct (lit_none _ _ L) as [Z|(c & t & Z & Z1 & Z2)]; [rewrite <- (skip_nosp l), Z; reflexivity|].
      destruct l as [|c' l']; [reflexivity|]. destruct S as (S3 & S4). cbn [skip] in Z. rewrite S3 in Z. injection Z as -> ->.
      unfold is in S4. apply Ascii.eqb_eq in S4. congruence. }
    split; [split; [discriminate|split; [exact P|constructor]]|]. split; [auto|]. exists false. unfold print_fw.
    cbn [flat_map app]. rewrite E, W, !app_nil_r. reflexivity.
Qed.

(** Text that is not of this form is not always refused: an item without a name
    ends the reading. *)
Theorem C80_cut_refuted : forall e ps t, wf_fw e ps -> exists rest,
  parse_fwinfo (print_fw e ps true ++ "=" :: t) = POk (e, ps) rest.
Proof.
  intros e ps t W. exists ("=" :: t). unfold print_fw. rewrite <- !app_assoc. cbn [app].
  apply fw_text; [exact W|apply fw_end_cut|]. intros _. eexists. split; reflexivity.
Qed.

Lemma pairs_throw : forall ps k v fuel last, (List.length ps < fuel)%nat -> k <> [] -> plain (is "=") k -> plain (is ";") v ->
  Forall (fun kv => fst kv <> [] /\ plain (is "=") (fst kv) /\ plain (is ";") (snd kv)) ps -> last <> [] -> plain (is "=") last -> (List.length ps + 1 < fuel)%nat ->
  pairs fuel ";" (k ++ "=" :: v ++ flat_map (fun kv : str * str => ";" :: fst kv ++ "=" :: snd kv) ps ++ ";" :: last) = None.
Proof.
  induction ps as [|[k' v'] ps IH]; intros k v fuel last Hf Hk Pk Pv F NL PL Hf'; (destruct fuel as [|fuel]; [cbn in Hf; lia|]); cbn [pairs].
  - rewrite (many_clean (is "=") k _ Pk) by (split; reflexivity). destruct k as [|k0 k]; [congruence|]. rewrite lit_one by reflexivity. cbn [flat_map app].
    rewrite (many_clean (is ";") v _ Pv) by (split; reflexivity). rewrite lit_one by reflexivity. destruct fuel as [|fuel]; [cbn in Hf'; lia|]. cbn [pairs].
    assert (M : many (is "=") last = (last, [])) by (rewrite <- (app_nil_r last) at 1; apply many_clean; [exact PL|exact I]). rewrite M.
    destruct last; [congruence|]. reflexivity.
  - inversion F as [|? ? (F1 & F2 & F3) F4]; subst. cbn [fst snd] in *.
    rewrite (many_clean (is "=") k _ Pk) by (split; reflexivity). destruct k as [|k0 k]; [congruence|].
    rewrite lit_one by reflexivity. cbn [flat_map app fst snd]. rewrite (many_clean (is ";") v _ Pv) by (split; reflexivity). rewrite lit_one by reflexivity.
    rewrite <- !app_assoc. cbn [app]. cbn [List.length] in *. rewrite IH; trivial; lia.
Qed.

(** What is refused: a last item that has no "=". *)
Theorem C80_refused : forall e ps last, wf_fw e ps -> last <> [] -> plain (is "=") last -> parse_fwinfo (print_fw e ps true ++ last) = PThrow.
Proof.
  intros e ps last (He & Pe & F) NL PL. unfold print_fw, parse_fwinfo. rewrite <- !app_assoc. cbn [app].
  rewrite (many_clean (is ";") e _ Pe) by (destruct ps; cbn; auto). destruct e as [|e0 e]; [congruence|]. destruct ps as [|[k v] ps].
  - cbn [flat_map app]. unfold pair_section. rewrite lit_one by reflexivity. destruct last as [|c t]; [congruence|]. cbn [List.length pairs].
    assert (M : many (is "=") (c :: t) = (c :: t, [])) by (rewrite <- (app_nil_r (c :: t)) at 1; apply many_clean; [exact PL|exact I]). rewrite M. reflexivity.
  - unfold pair_section. inversion F as [|? ? (F1 & F2 & F3) F4]; subst. cbn [fst snd] in *. cbn [flat_map app fst snd]. rewrite lit_one by reflexivity.
    rewrite <- !app_assoc. cbn [app].
    assert (Z : (List.length ps <= List.length (flat_map (fun kv : str * str => ";" :: fst kv ++ "=" :: snd kv) ps))%nat).
    { clear. induction ps as [|kv ps IH]; [apply le_n|]. cbn [flat_map]. rewrite app_length. cbn [List.length]. unfold str in *. lia. }
    rewrite pairs_throw; trivial; rewrite !app_length; cbn [List.length]; rewrite !app_length; cbn [List.length]; unfold str in *; lia.
Qed.

Example c80_case : wf_fw (s_ "endpoint") [(s_ "width", s_ "4"); (s_ "x", [])] /\
  print_fw (s_ "endpoint") [(s_ "width", s_ "4"); (s_ "x", [])] true = s_ "endpoint;width=4;x=;" /\
  parse_fwinfo (s_ "end point; width=4;x=") = POk (s_ "endpoint", [(s_ "width", s_ "4"); (s_ "x", [])]) [] /\
  parse_fwinfo (s_ "endpoint;width") = PThrow /\ parse_fwinfo (s_ ";width=4") = PFail /\
  parse_fwinfo (s_ "endpoint;width=4;=5;y=6") = POk (s_ "endpoint", [(s_ "width", s_ "4")]) (s_ "=5;y=6").
Proof.
  split; [|vm_compute; auto 10]. split; [discriminate|]. split; [apply plain_b; vm_compute; reflexivity|].
  repeat (apply Forall_cons; [split; [discriminate|split; apply plain_b; vm_compute; reflexivity]|]). apply Forall_nil.
Qed.

Print Assumptions C80_spaces.
Print Assumptions C80_refused.
Print Assumptions C61_spaces.
Print Assumptions C61_round_trip.
Print Assumptions C61_no_port_refuted.
Print Assumptions C62_created.
Print Assumptions C62_refused.
Print Assumptions C62_builtin_kept.
Print Assumptions C73_nothing_lost.
Print Assumptions C73_rest.
Print Assumptions C73_whole_refuted.
Print Assumptions C74_files_partial.
Print Assumptions C74_space_refuted.
Print Assumptions C75_params.
Print Assumptions C75_found.
Print Assumptions C75_read.
Print Assumptions C75_cut_refuted.
Print Assumptions C80_read.
Print Assumptions C80_found.
Print Assumptions C80_cut_refuted.
