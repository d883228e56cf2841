(** C121: the programs that read all registers of a device. *)
From Coq Require Import NArith ZArith List Bool String Ascii Lia Sorted Permutation ZifyBool ZifyNat ZifyN.
From Verif Require Import Word ValMem Client Spec NodeTree NodeProofs Prop_Node Prop_Masks RegDump.
Import ListNotations.
Open Scope N_scope.

(** ** Specification *)

(** [s] comes before [r] in the order of the character codes. *)
Inductive earlier : string -> string -> Prop :=
| e_end c r : earlier EmptyString (String c r)
| e_less a b s r : N_of_ascii a < N_of_ascii b -> earlier (String a s) (String b r)
| e_same a s r : earlier s r -> earlier (String a s) (String a r).

(** [m] is a node below [n], at this path. *)
Inductive node_below (n : node) : string -> node -> Prop :=
| nb_child c : In c (n_ch n) -> node_below n (a_id (n_at c)) c
| nb_deeper c path m : In c (n_ch n) -> node_below c path m -> node_below n (a_id (n_at c) ++ "." ++ path) m.

(** The bits of [w] that the mask selects, moved down. *)
Definition field_of (w m v : N) : Prop :=
  forall i, N.testbit v i = N.testbit w (i + lowest_bit m) && N.testbit m (i + lowest_bit m).

(** Every node has a permission and a mask. *)
Definition usable (n : node) : Prop :=
  forall path m, node_below n path m -> (a_r (n_at m) || a_w (n_at m) = true) /\ 0 < a_mask (n_at m) < 2 ^ 32.

(** What a dump shows of the nodes chosen: nothing but an exception if one of them does not
    answer, otherwise each of them with its value and nothing else. *)
Definition shows (mem : N -> option N) (chosen : string -> node -> Prop) (d : dump) : Prop :=
  (d = Raised /\ exists path m, chosen path m /\ mem (a_addr (n_at m)) = None) \/
  (exists l, d = Values l /\ NoDup (map fst l) /\
     (forall path m, chosen path m -> mem (a_addr (n_at m)) <> None) /\
     (forall path v, In (path, v) l <-> exists m w, chosen path m /\ mem (a_addr (n_at m)) = Some w /\ field_of w (a_mask (n_at m)) v)).

(** ** Sorting *)

Lemma sleb_total s : forall r, sleb s r = false -> sleb r s = true.
Proof. induction s as [|a s IH]; intros [|b r] H; cbn [sleb] in *; try reflexivity; try discriminate. specialize (IH r). destruct (sleb s r), (sleb r s); lia. Qed.
Lemma sleb_trans s : forall r t, sleb s r = true -> sleb r t = true -> sleb s t = true.
Proof. induction s as [|a s IH]; intros [|b r] [|c t] H K; cbn [sleb] in *; try reflexivity; try discriminate. specialize (IH r t). destruct (sleb s r), (sleb r t), (sleb s t); lia. Qed.
Lemma ascii_N a b : N_of_ascii a = N_of_ascii b -> a = b.
Proof. intros H. rewrite <- (ascii_N_embedding a), H. apply ascii_N_embedding. Qed.
Lemma sleb_earlier s : forall r, sleb s r = true -> s = r \/ earlier s r.
Proof.
  induction s as [|a s IH]; intros [|b r] H; cbn [sleb] in H; try discriminate; [left; reflexivity|right; constructor|].
  apply orb_true_iff in H. destruct H as [H|H]; [right; constructor; apply N.ltb_lt; exact H|].
  apply andb_true_iff in H. destruct H as (A & B). apply N.eqb_eq, ascii_N in A. subst b. destruct (IH r B) as [->|X]; [left; reflexivity|right; constructor; exact X].
Qed.
Lemma sinsert_perm s l : Permutation (s :: l) (sinsert s l).
Proof. induction l as [|x l IH]; cbn [sinsert]; [reflexivity|]. destruct (sleb s x); [reflexivity|]. rewrite perm_swap. constructor. exact IH. Qed.
Lemma ssort_perm l : Permutation l (ssort l).
Proof. induction l as [|x l IH]; cbn [ssort fold_right]; [constructor|]. rewrite <- sinsert_perm. constructor. exact IH. Qed.
Lemma sinsert_sorted s l : StronglySorted (fun a b => sleb a b = true) l -> StronglySorted (fun a b => sleb a b = true) (sinsert s l).
Proof.
  induction 1 as [|x l S IH F]; cbn [sinsert]; [repeat constructor|]. destruct (sleb s x) eqn:E.
  - constructor; [constructor; assumption|]. constructor; [exact E|]. eapply Forall_impl; [|exact F]. intros y. apply sleb_trans. exact E.
  - constructor; [exact IH|]. rewrite Forall_forall in *. intros y Y. apply (Permutation_in _ (Permutation_sym (sinsert_perm s l))) in Y.
    destruct Y as [<-|Y]; [apply sleb_total; exact E|apply F; exact Y].
Qed.
Lemma ssort_sorted l : StronglySorted (fun a b => sleb a b = true) (ssort l).
Proof. induction l as [|x l IH]; cbn [ssort fold_right]; [constructor|apply sinsert_sorted; exact IH]. Qed.
Lemma sorted_earlier l : StronglySorted (fun a b => sleb a b = true) l -> NoDup l -> StronglySorted earlier l.
Proof.
  induction 1 as [|x l S IH F]; intros D; [constructor|]. inversion D; subst. constructor; [apply IH; assumption|].
  rewrite Forall_forall in *. intros y Y. destruct (sleb_earlier _ _ (F y Y)) as [->|E]; [contradiction|exact E].
Qed.

(** ** Names *)

Lemma all_some_map l : all_some (map Some l) = Some l.
Proof. induction l as [|x l IH]; cbn [map all_some]; [reflexivity|rewrite IH; reflexivity]. Qed.

Lemma below_ids n : forall x m, node_below n x m <-> exists q, q <> [] /\ get n q = Some m /\ x = join (ids_along n q).
Proof.
  intros x m. split.
  - induction 1 as [n c I|n c path m I B (q & Q & G & E)]; apply In_nth_error in I; destruct I as (i & I).
    + exists [i]. cbn [get ids_along]. rewrite I. split; [discriminate|]. split; reflexivity.
    + exists (i :: q). cbn [get ids_along]. rewrite I. split; [discriminate|]. split; [exact G|]. rewrite E. destruct q as [|j q]; [contradiction|].
      cbn [get] in G. cbn [ids_along]. destruct (nth_error (n_ch c) j); [reflexivity|discriminate].
  - intros (q & Q & G & E). subst x. revert n m G Q. induction q as [|i q IH]; intros n m G Q; [contradiction|].
    cbn [get ids_along] in *. destruct (nth_error (n_ch n) i) as [c|] eqn:I; [|discriminate]. apply nth_error_In in I. destruct q as [|j q].
    + cbn [get ids_along join] in *. injection G as <-. constructor. exact I.
    + specialize (IH c m G ltac:(discriminate)). cbn [get ids_along] in *. destruct (nth_error (n_ch c) j); [|discriminate].
      exact (nb_deeper n c _ m I IH).
Qed.

Lemma below_found n x m : wf n -> distinct_ids n -> linked_below n -> node_below n x m -> exists q, get_node n x = Found q /\ get n q = Some m.
Proof.
  intros W D L B. apply below_ids in B. destruct B as (q & Q & G & ->). exists q. split; [|exact G].
  destruct (C31_round_trip n [] q n m W D L eq_refl G) as (path & R & F). rewrite (relative_path_spec n [] q n m L W eq_refl G) in R. injection R as <-. exact F.
Qed.
Lemma below_one n x m m' : wf n -> distinct_ids n -> linked_below n -> node_below n x m -> node_below n x m' -> m = m'.
Proof.
  intros W D L A B. destruct (below_found n x m W D L A) as (q & Q & G). destruct (below_found n x m' W D L B) as (q' & Q' & G'). congruence.
Qed.

Lemma names_ok t p n : wf t -> distinct_ids t -> linked_below t -> get t p = Some n ->
  exists l, names t p = Some l /\ NoDup l /\ forall x, In x l <-> exists m, node_below n x m.
Proof.
  intros W D K G. assert (Wn := wf_get _ _ _ W G). assert (Dn := distinct_get _ _ _ D G).
  destruct (tl_preorder n) as (qs & E). exists (map (fun q => join (ids_along n q)) qs).
  assert (IN : forall q, In q qs <-> q <> [] /\ exists m, get n q = Some m).
  { intros q. assert (ND := preorder_nodup n). rewrite E in ND. inversion ND; subst. rewrite <- preorder_in, E. cbn [In]. split.
    - intros X. split; [intros ->; contradiction|auto].
    - intros (A & [B|B]); [congruence|exact B]. }
  assert (IT : iterate (size n) n (next n (Some [])) = qs).
  { assert (X : tl (iterate (S (size n)) n (Some [])) = firstn (size n) qs) by (rewrite iterate_all, E; reflexivity).
    change (iterate (size n) n (next n (Some [])) = firstn (size n) qs) in X. rewrite X. apply firstn_all2. rewrite <- (preorder_length n), E. cbn. lia. }
  assert (GN : get_nodes t p = Some (map Some (map (fun q => join (ids_along n q)) qs))).
  { unfold get_nodes. rewrite G. cbn [option_map]. rewrite IT, map_map. f_equal. apply map_ext_in. intros q X.
    apply IN in X. destruct X as (_ & m & Q). apply (relative_path_spec t p q n m); assumption. }
  destruct (C30_get_nodes t p n W D K G) as (_ & paths & E' & _ & _ & _ & ND & _). rewrite GN in E'. injection E' as E'.
  unfold names. rewrite GN, all_some_map. split; [reflexivity|]. split.
  - assert (X : map (fun q => join (ids_along n q)) qs = paths); [|rewrite X; exact ND].
    assert (Y := f_equal (fun l => all_some l) E'). rewrite !all_some_map in Y. congruence.
  - intros x. rewrite in_map_iff. split.
    + intros (q & <- & I). apply IN in I. destruct I as (Q & m & M). exists m. apply below_ids. exists q. auto.
    + intros (m & B). apply below_ids in B. destruct B as (q & Q & M & ->). exists q. split; [reflexivity|]. apply IN. split; [exact Q|exists m; exact M].
Qed.

(** ** The loops *)

Lemma node_read_ok a : a_r a = true -> node_read a = inr (ORead (a_addr a) (a_mask a)).
Proof. intros R. unfold node_read. rewrite R. destruct (N.eqb_spec (a_mask a) NOMASK) as [->|]; reflexivity. Qed.

(** The entries of a list of reads are those of the nodes chosen. *)
Definition reads (chosen : string -> node -> Prop) (a : list (string * op)) : Prop :=
  NoDup (map fst a) /\ forall x o, In (x, o) a <-> exists m, chosen x m /\ o = ORead (a_addr (n_at m)) (a_mask (n_at m)).

Lemma dispatch_fst mem a : forall l, dispatch mem a = Values l -> map fst l = map fst a.
Proof.
  induction a as [|(x, o) a IH]; intros l H; cbn [dispatch] in H; [injection H as <-; reflexivity|].
  destruct (answer mem o); [|discriminate]. destruct (dispatch mem a) as [l'| |] eqn:E; try discriminate. injection H as <-. cbn [map fst]. rewrite (IH l' eq_refl). reflexivity.
Qed.
Lemma dispatch_cases mem a :
  (dispatch mem a = Raised /\ exists x o, In (x, o) a /\ answer mem o = None) \/
  (exists l, dispatch mem a = Values l /\ forall x v, In (x, v) l <-> exists o, In (x, o) a /\ answer mem o = Some v) /\ (forall x o, In (x, o) a -> answer mem o <> None).
Proof.
  induction a as [|(x, o) a IH]; cbn [dispatch]; [right; split; [exists []; split; [reflexivity|]|]|].
  - intros x v. split; [intros []|intros (o & [] & _)].
  - intros x o [].
  - destruct (answer mem o) as [v|] eqn:A; [|left; split; [reflexivity|exists x, o; split; [left; reflexivity|exact A]]].
    destruct IH as [(-> & x' & o' & I & B)|((l & -> & H) & F)]; [left; split; [reflexivity|exists x', o'; split; [right; exact I|exact B]]|right].
    split; [|intros x' o' [X|X]; [injection X as <- <-; congruence|exact (F x' o' X)]].
    exists ((x, v) :: l). split; [reflexivity|]. intros x' v'. split.
    + intros [X|X]; [injection X as <- <-; exists o; split; [left; reflexivity|exact A]|]. apply H in X. destruct X as (o' & I & B). exists o'. split; [right; exact I|exact B].
    + intros (o' & [X|X] & B); [injection X as <- <-; left; congruence|]. right. apply H. exists o'. auto.
Qed.

Lemma field_det w m v : 0 < m < 2 ^ 32 -> (word_value (CWord true w m) = Some v <-> field_of w m v).
Proof.
  intros M. destruct (C02_masked_read w m M) as (y & E & B). rewrite E. split.
  - intros X. injection X as <-. exact B.
  - intros F. f_equal. apply N.bits_inj. intros i. rewrite B, F. reflexivity.
Qed.

Lemma reads_shows mem chosen a : reads chosen a -> (forall x m, chosen x m -> 0 < a_mask (n_at m) < 2 ^ 32) -> shows mem chosen (dispatch mem a).
Proof.
  intros (ND & R) MK.
  assert (AN : forall m, answer mem (ORead (a_addr (n_at m)) (a_mask (n_at m))) = None <-> mem (a_addr (n_at m)) = None).
  { intros m. cbn [answer]. destruct (mem (a_addr (n_at m))); [cbn [word_value]; split; discriminate|tauto]. }
  destruct (dispatch_cases mem a) as [(E & x & o & I & A)|((l & E & H) & F)]; [left|right].
  - split; [exact E|]. apply R in I. destruct I as (m & C & ->). exists x, m. split; [exact C|]. apply AN. exact A.
  - exists l. split; [exact E|]. split; [rewrite (dispatch_fst mem a l E); exact ND|]. split.
    + intros x m C X. apply AN in X. exact (F x _ (proj2 (R x _) (ex_intro _ m (conj C eq_refl))) X).
    + intros x v. rewrite H. split.
      * intros (o & I & A). apply R in I. destruct I as (m & C & ->). cbn [answer] in A. destruct (mem (a_addr (n_at m))) as [w|] eqn:W; [|discriminate].
        exists m, w. split; [exact C|]. split; [exact W|]. apply field_det; [exact (MK x m C)|exact A].
      * intros (m & w & C & W & FO). exists (ORead (a_addr (n_at m)) (a_mask (n_at m))). split; [apply R; exists m; auto|].
        cbn [answer]. rewrite W. apply field_det; [exact (MK x m C)|exact FO].
Qed.

(** ** The script *)

(** The nodes the script reads: below the node given, matching, not write-only. *)
Definition inspected (keep : string -> bool) (n : node) (path : string) (m : node) : Prop :=
  node_below n path m /\ keep path = true /\ a_r (n_at m) = true.

Lemma queue_ok n l : wf n -> distinct_ids n -> linked_below n -> usable n -> NoDup l -> (forall x, In x l -> exists m, node_below n x m) ->
  exists a, queue n l = inr a /\ reads (fun x m => In x l /\ node_below n x m /\ a_r (n_at m) = true) a /\
    (StronglySorted earlier l -> StronglySorted earlier (map fst a)) /\ (forall x, In x (map fst a) -> In x l).
Proof.
  intros W D L U ND. induction ND as [|x l NI ND IH]; intros H; cbn [queue].
  - exists []. split; [reflexivity|]. split; [|split; [intros _; constructor|intros x []]]. split; [constructor|]. intros x o. split; [intros []|intros (m & ([] & _) & _)].
  - destruct (IH (fun y Y => H y (or_intror Y))) as (a & -> & (NA & R) & S & SUB). destruct (H x (or_introl eq_refl)) as (m & B).
    destruct (below_found n x m W D L B) as (q & Q & G). destruct (U x m B) as (PM & _). unfold queue_one. rewrite Q, G.
    assert (NX : ~ In x (map fst a)) by (intros X; apply NI, SUB, X).
    destruct (a_r (n_at m)) eqn:AR.
    + rewrite andb_false_r, (node_read_ok _ AR). eexists. split; [reflexivity|]. cbn [app map fst]. split; [split|split].
      * constructor; assumption.
      * intros y o. split.
        -- intros [X|X]; [injection X as <- <-; exists m; repeat split; [left; reflexivity|exact B|exact AR]|]. apply R in X. destruct X as (m' & (I & C) & E). exists m'. repeat split; [right; exact I|apply C|apply C|exact E].
        -- intros (m' & ([<-|I] & C & E) & ->); [left; rewrite (below_one n x m' m W D L C B); reflexivity|]. right. apply R. exists m'. auto.
      * intros X. inversion X as [|? ? S' F]; subst. constructor; [exact (S S')|]. rewrite Forall_forall in *. intros y Y. apply F, SUB, Y.
      * intros y [<-|Y]; [left; reflexivity|right; exact (SUB y Y)].
    + cbn [orb] in PM. rewrite PM. cbn [andb negb app]. exists a. split; [reflexivity|]. split; [split|split].
      * exact NA.
      * intros y o. rewrite R. split; intros (m' & (I & C & E) & X); exists m'; repeat split; auto; [right; exact I|].
        destruct I as [<-|I]; [|exact I]. rewrite (below_one n x m' m W D L C B) in E. congruence.
      * intros X. inversion X; subst. auto.
      * intros y Y. right. exact (SUB y Y).
Qed.

(** C121, the script: with any expression and any device, uhal_inspect_registers shows exactly the
    matching nodes below the one given that are not write-only, in the order of their paths, each
    with the field of the word at its address; if one of these does not answer it shows nothing. *)
Theorem C121_snapshot : forall keep mem t p n, wf t -> distinct_ids t -> linked_below t -> get t p = Some n -> usable n ->
  shows mem (inspected keep n) (snapshot keep mem t p) /\
  forall l, snapshot keep mem t p = Values l -> StronglySorted earlier (map fst l).
Proof.
  intros keep mem t p n W D L G U. assert (Wn := wf_get _ _ _ W G). assert (Dn := distinct_get _ _ _ D G). assert (Ln := linked_below_get _ _ _ L G).
  destruct (names_ok t p n W D L G) as (l & E & ND & I). unfold snapshot, names_matching. rewrite G, E. cbn [option_map].
  set (k := ssort (ssort (filter keep l))).
  assert (PK : Permutation (filter keep l) k) by (unfold k; rewrite <- !ssort_perm; reflexivity).
  assert (NK : NoDup k) by (apply (Permutation_NoDup PK), NoDup_filter, ND).
  assert (IK : forall x, In x k <-> In x l /\ keep x = true).
  { intros x. rewrite <- filter_In. split; apply Permutation_in; [apply Permutation_sym|]; exact PK. }
  destruct (queue_ok n k Wn Dn Ln U NK) as (a & EQ & R & S & _); [intros x X; apply I, IK, X|]. rewrite EQ. split.
  - apply reads_shows; [|intros x m (B & _); apply (U x m B)]. destruct R as (NA & R). split; [exact NA|]. intros x o. rewrite R. unfold inspected. split.
    + intros (m & (A & B & C) & X). exists m. apply IK in A. destruct A. auto.
    + intros (m & (A & B & C) & X). exists m. repeat split; auto. apply IK. split; [apply I; exists m; exact A|exact B].
  - intros v X. rewrite (dispatch_fst mem a v X). apply S, sorted_earlier; [apply ssort_sorted|exact NK].
Qed.

(** ** The polling thread *)

(** The nodes the thread reads: readable ones with nothing below them. *)
Definition polled (n : node) (path : string) (m : node) : Prop :=
  node_below n path m /\ n_ch m = [] /\ a_r (n_at m) = true.

Lemma names_leaf m : wf m -> distinct_ids m -> linked_below m -> (names m [] = Some [] <-> n_ch m = []).
Proof.
  intros W D L. destruct (names_ok m [] m W D L eq_refl) as (l & E & _ & I). rewrite E. split.
  - intros X. injection X as ->. destruct (n_ch m) as [|c r] eqn:C; [reflexivity|]. exfalso. apply (I (a_id (n_at c))). exists c. constructor. rewrite C. left. reflexivity.
  - intros C. destruct l as [|x l]; [reflexivity|]. exfalso. destruct (proj1 (I x) (or_introl eq_refl)) as (m' & B). inversion B; subst; rewrite C in *; contradiction.
Qed.

(** C121, the GUI: one round of its thread shows exactly the readable nodes of the device with
    nothing below them, each with the field of the word at its address; if one of these does not
    answer the device is left out. *)
Theorem C121_poll : forall mem t, wf t -> distinct_ids t -> linked_below t -> usable t -> shows mem (polled t) (poll mem t).
Proof.
  intros mem t W D L U. destruct (names_ok t [] t W D L eq_refl) as (l & E & ND & I). unfold poll. rewrite E.
  apply reads_shows; [|intros x m (B & _); apply (U x m B)].
  assert (ONE : forall x m, node_below t x m -> (poll_one t x = [] /\ ~ (n_ch m = [] /\ a_r (n_at m) = true)) \/ (poll_one t x = [(x, ORead (a_addr (n_at m)) (a_mask (n_at m)))] /\ n_ch m = [] /\ a_r (n_at m) = true)).
  { intros x m B. destruct (below_found t x m W D L B) as (q & Q & G). unfold poll_one. rewrite Q, G.
    assert (NL := names_leaf m (wf_get _ _ _ W G) (distinct_get _ _ _ D G) (linked_below_get _ _ _ L G)).
    destruct (names m []) as [[|y r]|]; [|left; split; [reflexivity|]; intros (X & _); apply NL in X; discriminate|left; split; [reflexivity|]; intros (X & _); apply NL in X; discriminate].
    destruct (a_r (n_at m)) eqn:AR; [right|left; split; [reflexivity|]; intros (_ & X); discriminate]. rewrite (node_read_ok _ AR). split; [reflexivity|]. split; [apply NL; reflexivity|reflexivity]. }
  assert (SUB : forall x y o, In (y, o) (poll_one t x) -> In x l -> y = x).
  { intros x y o X Y. apply I in Y. destruct Y as (m & B). destruct (ONE x m B) as [(Z & _)|(Z & _)]; rewrite Z in X; [destruct X|]. destruct X as [X|[]]. congruence. }
  split.
  - assert (IL : forall x, In x l -> exists m, node_below t x m) by (intros x; apply I). clear I E. induction ND as [|x l NI ND IH]; [constructor|]. cbn [flat_map]. rewrite map_app.
    assert (IH' := IH (fun a b c X Y => SUB a b c X (or_intror Y)) (fun y Y => IL y (or_intror Y))).
    destruct (IL x (or_introl eq_refl)) as (m & B). destruct (ONE x m B) as [(-> & _)|(-> & _)]; [exact IH'|]. cbn [map fst app]. constructor; [|exact IH'].
    intros X. apply in_map_iff in X. destruct X as ((y & o) & X & Y). cbn [fst] in X. subst y. apply in_flat_map in Y. destruct Y as (z & Z & Y).
    assert (x = z) by (apply (SUB z x o Y); right; exact Z). subst z. contradiction.
  - intros x o. rewrite in_flat_map. split.
    + intros (y & Y & X). assert (x = y) by exact (SUB y x o X Y). subst y. apply I in Y. destruct Y as (m & B).
      destruct (ONE x m B) as [(Z & _)|(Z & C)]; rewrite Z in X; [destruct X|]. destruct X as [X|[]]. injection X as <-. exists m. split; [split; [exact B|exact C]|reflexivity].
    + intros (m & (B & C & AR) & ->). exists x. split; [apply I; exists m; exact B|]. destruct (ONE x m B) as [(_ & Z)|(Z & _)]; [exfalso; apply Z; auto|]. rewrite Z. left. reflexivity.
Qed.

(** ** A node that is no register *)

(** A block of two registers that does not begin with one of them. *)
Definition gap_status : node := Node (ex_at "status" 0x24 NOMASK true false SINGLE 1 2) [] [].
Definition gap_ctrl : node := Node (ex_at "ctrl" 0x28 0xF0 true true SINGLE 1 3) [] [].
Definition gap_sub : node := Node (ex_at "sub" 0x20 NOMASK true true HIERARCHICAL 1 1) [("ctrl"%string, 3%nat); ("status"%string, 2%nat)] [gap_status; gap_ctrl].
Definition gap_tree : node := Node default_attrs [("sub"%string, 1%nat)] [gap_sub].
Definition gap_mem (a : N) : option N := if a =? 0x24 then Some 0xCAFE else if a =? 0x28 then Some 0x35 else None.

Lemma map_ok_of a m ch : NoDup (map (fun c => a_ptr (n_at c)) ch) ->
  Forall (fun kx => exists c, In c ch /\ a_ptr (n_at c) = snd kx /\ a_id (n_at c) = fst kx) m ->
  Forall (fun c => assoc (a_id (n_at c)) m <> None) ch -> map_ok (Node a m ch).
Proof.
  intros N S C. constructor; cbn [n_ch n_map]; trivial.
  - intros k x. clear C. induction S as [|[k' x'] r H S IH]; cbn [assoc]; [discriminate|].
    destruct (String.eqb_spec k k'); [|exact IH]. intros E. injection E as <-. subst. exact H.
  - rewrite Forall_forall in C. exact C.
Qed.
Lemma gap_wf : wf gap_tree /\ distinct_ids gap_tree /\ linked_below gap_tree.
Proof.
  assert (LF : forall a, wf (Node a [] []) /\ distinct_ids (Node a [] []) /\ linked_below (Node a [] [])).
  { intros a. split; [|split]; constructor; try constructor; cbn; try constructor; try discriminate; contradiction. }
  assert (SUB : wf gap_sub /\ distinct_ids gap_sub /\ linked_below gap_sub).
  { split; [|split].
    - constructor; [apply map_ok_of| |repeat (constructor; try apply LF)].
      + repeat constructor; cbn; intuition discriminate.
      + repeat constructor; [exists gap_ctrl|exists gap_status]; cbn; auto.
      + repeat constructor; discriminate.
      + repeat constructor; discriminate.
    - constructor; [repeat constructor; cbn; intuition discriminate|repeat (constructor; try apply LF)].
    - constructor; [repeat constructor|repeat (constructor; try apply LF)]. }
  split; [|split].
  - constructor; [apply map_ok_of| |constructor; [apply SUB|constructor]].
    + repeat constructor; cbn; intuition discriminate.
    + repeat constructor; exists gap_sub; cbn; auto.
    + repeat constructor; discriminate.
    + repeat constructor; discriminate.
  - constructor; [repeat constructor; cbn; intuition discriminate|constructor; [apply SUB|constructor]].
  - constructor; [repeat constructor|constructor; [apply SUB|constructor]].
Qed.
Lemma gap_below path m : node_below gap_tree path m -> m = gap_sub \/ m = gap_status \/ m = gap_ctrl.
Proof.
  intros B. inversion B as [c I|c p m' I B1]; subst; destruct I as [<-|[]]; [auto|].
  inversion B1 as [c I|c p' m' I B2]; subst; destruct I as [<-|[<-|[]]]; auto; inversion B2 as [c I|c p'' m' I B3]; destruct I.
Qed.
Lemma gap_usable : usable gap_tree.
Proof. intros path m B. destruct (gap_below path m B) as [->|[->| ->]]; split; try reflexivity; split; reflexivity. Qed.

(** That the script shows the registers of a device that answers for all of them is not so: it
    also reads the nodes that only group others, at the address where the group begins. *)
Theorem C121_groups_refuted : exists mem t, wf t /\ distinct_ids t /\ linked_below t /\ usable t /\
  (forall path m, node_below t path m -> n_ch m = [] -> mem (a_addr (n_at m)) <> None) /\
  snapshot (fun _ => true) mem t [] = Raised /\ exists l, poll mem t = Values l /\ List.length l = 2%nat.
Proof.
  exists gap_mem, gap_tree. destruct gap_wf as (A & B & C). split; [exact A|]. split; [exact B|]. split; [exact C|]. split; [exact gap_usable|]. split.
  - intros path m X E. destruct (gap_below path m X) as [->|[->| ->]]; [discriminate E|discriminate|discriminate].
  - split; [vm_compute; reflexivity|]. eexists. split; [vm_compute; reflexivity|reflexivity].
Qed.

(** C121_snapshot: the registers below the group, and from the top only those that match. *)
Example C121_snapshot_ex : get gap_tree [0%nat] = Some gap_sub /\
  shows gap_mem (inspected (fun _ => true) gap_sub) (snapshot (fun _ => true) gap_mem gap_tree [0%nat]) /\
  snapshot (fun _ => true) gap_mem gap_tree [0%nat] = Values [("ctrl"%string, 3); ("status"%string, 0xCAFE)] /\
  snapshot (fun s => negb (String.eqb s "sub")) gap_mem gap_tree [] = Values [("sub.ctrl"%string, 3); ("sub.status"%string, 0xCAFE)].
Proof.
  destruct gap_wf as (A & B & C). split; [reflexivity|]. split; [|split; vm_compute; reflexivity].
  apply (C121_snapshot (fun _ => true) gap_mem gap_tree [0%nat] gap_sub A B C eq_refl).
  intros path m X. exact (gap_usable _ m (nb_deeper gap_tree gap_sub path m (or_introl eq_refl) X)).
Qed.

(** C121_poll. *)
Example C121_poll_ex : shows gap_mem (polled gap_tree) (poll gap_mem gap_tree) /\ poll gap_mem gap_tree = Values [("sub.status"%string, 0xCAFE); ("sub.ctrl"%string, 3)] /\
  poll (fun a => if a =? 0x24 then Some 1 else None) gap_tree = Raised.
Proof.
  destruct gap_wf as (A & B & C). split; [exact (C121_poll gap_mem gap_tree A B C gap_usable)|]. split; vm_compute; reflexivity.
Qed.

Print Assumptions C121_snapshot.
Print Assumptions C121_poll.
Print Assumptions C121_groups_refuted.
