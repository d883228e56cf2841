(** C122: the tree of the GUI is that of the device. *)
From Coq Require Import NArith ZArith List Bool String Ascii Lia Sorted Permutation ZifyBool ZifyNat ZifyN.
From Verif Require Import Word ValMem Client Spec NodeTree NodeProofs Prop_Node RegDump Prop_RegDump GuiTree.
Import ListNotations.

(** ** Specification *)

(** The node of the GUI shows a node of the device under a path: its attributes are those of
    the node, its children show the node's children, in the order of their ids, under the path
    and their ids. *)
Inductive mirrors : string -> string -> node -> gnode -> Prop :=
| mirrors_node path parent n cs gs :
    Permutation (n_ch n) cs -> StronglySorted earlier (map (fun c => a_id (n_at c)) cs) ->
    Forall2 (fun c g => mirrors (path ++ "." ++ a_id (n_at c)) path c g) cs gs ->
    mirrors path parent n (GNode path parent (a_addr (n_at n)) (a_mask (n_at n)) (a_r (n_at n)) (a_w (n_at n)) (a_mode (n_at n)) (a_size (n_at n)) (a_tags (n_at n)) gs).

(** At any depth. *)
Inductive inside (g : gnode) : gnode -> Prop :=
| in_self : inside g g
| in_child h k : In h (g_children g) -> inside h k -> inside g k.

(** ** The first level *)

Lemma first_level_ok s : first_level s = true <-> dot_free s.
Proof.
  unfold first_level. induction s as [|c s IH]; cbn [list_ascii_of_string forallb dot_free]; [tauto|].
  rewrite andb_true_iff, IH, negb_true_iff, Ascii.eqb_neq. tauto.
Qed.
Lemma first_level_app a b : first_level (a ++ "." ++ b) = false.
Proof. unfold first_level. induction a as [|c a IH]; cbn [append list_ascii_of_string forallb]; [reflexivity|]. cbn [append] in IH. rewrite IH. apply andb_false_r. Qed.

Lemma level_ok n : wf n -> distinct_ids n -> linked_below n ->
  exists cs, names_matching first_level n [] = Some (map (fun c => a_id (n_at c)) cs) /\ Permutation (n_ch n) cs /\ StronglySorted earlier (map (fun c => a_id (n_at c)) cs).
Proof.
  intros W D L. destruct (names_ok n [] n W D L eq_refl) as (l & E & ND & I). unfold names_matching. rewrite E. cbn [option_map].
  assert (NF : NoDup (filter first_level l)) by (apply NoDup_filter; exact ND).
  assert (NC : NoDup (map (fun c => a_id (n_at c)) (n_ch n))) by (destruct D; assumption).
  assert (ID : forall c, In c (n_ch n) -> first_level (a_id (n_at c)) = true).
  { destruct W as [a m ch _ F _]. rewrite Forall_forall in F. intros c C. apply first_level_ok, (F c C). }
  assert (P : Permutation (ssort (filter first_level l)) (map (fun c => a_id (n_at c)) (n_ch n))).
  { rewrite <- ssort_perm. apply NoDup_Permutation; [exact NF|exact NC|]. intros x. rewrite filter_In, I, in_map_iff. split.
    - intros ((m & B) & F). inversion B; subst; [exists m; auto|]. rewrite first_level_app in F. discriminate.
    - intros (c & <- & C). split; [exists c; constructor; exact C|exact (ID c C)]. }
  destruct (Permutation_map_inv _ _ P) as (cs & Y & Q). exists cs. rewrite Y. split; [reflexivity|]. split; [exact Q|]. rewrite <- Y.
  apply sorted_earlier; [apply ssort_sorted|]. apply (Permutation_NoDup (ssort_perm _)). exact NF.
Qed.

Lemma child_at_ok n c : wf n -> distinct_ids n -> linked_below n -> In c (n_ch n) -> child_at n (a_id (n_at c)) = Some c.
Proof. intros W D L C. destruct (below_found n _ c W D L (nb_child n c C)) as (q & Q & G). unfold child_at. rewrite Q. exact G. Qed.

Lemma in_size n c : In c (n_ch n) -> (size c < size n)%nat.
Proof.
  destruct n as [a m ch]. cbn [n_ch size]. induction ch as [|d ch IH]; intros I; [destruct I|].
  change (list_sum (map size (d :: ch))) with (size d + list_sum (map size ch))%nat. destruct I as [->|I]; [lia|]. specialize (IH I). lia.
Qed.
Lemma children_ok n c : wf n -> distinct_ids n -> linked_below n -> In c (n_ch n) -> wf c /\ distinct_ids c /\ linked_below c /\ a_id (n_at c) <> EmptyString.
Proof.
  intros W D L C. destruct W as [a m ch _ F W]. inversion D; subst. inversion L; subst. cbn [n_ch] in C. rewrite Forall_forall in *.
  split; [auto|]. split; [auto|]. split; [auto|]. apply (F c C).
Qed.

Lemma each_ok {A B C} (f : A -> option B) (h : C -> A) (R : C -> B -> Prop) l :
  (forall c, In c l -> exists g, f (h c) = Some g /\ R c g) -> exists gs, each f (map h l) = Some gs /\ Forall2 R l gs.
Proof.
  induction l as [|c l IH]; intros H; cbn [map each]; [exists []; split; [reflexivity|constructor]|].
  destruct (H c (or_introl eq_refl)) as (g & -> & G). destruct IH as (gs & -> & F); [intros d I; apply H; right; exact I|].
  exists (g :: gs). split; [reflexivity|constructor; assumption].
Qed.

Lemma gui_node_ok f : forall n parent path, (size n <= f)%nat -> wf n -> distinct_ids n -> linked_below n ->
  path = match parent with EmptyString => a_id (n_at n) | _ => (parent ++ "." ++ a_id (n_at n))%string end -> path <> EmptyString ->
  exists g, gui_node f n parent = Some g /\ mirrors path parent n g.
Proof.
  induction f as [|f IH]; intros n parent path S W D L P NE; [destruct n; cbn [size] in S; lia|]. cbn [gui_node]. rewrite <- P.
  destruct (level_ok n W D L) as (cs & -> & Q & SO).
  destruct (each_ok (fun x => match child_at n x with Some c => gui_node f c path | None => None end) (fun c => a_id (n_at c))
    (fun c g => mirrors (path ++ "." ++ a_id (n_at c)) path c g) cs) as (gs & -> & F).
  - intros c I. assert (C : In c (n_ch n)) by (apply (Permutation_in _ (Permutation_sym Q)); exact I). rewrite (child_at_ok n c W D L C).
    destruct (children_ok n c W D L C) as (W' & D' & L' & _). apply IH; auto; [assert (X := in_size n c C); lia|destruct path; [contradiction|reflexivity]|destruct path; [contradiction|discriminate]].
  - eexists. split; [reflexivity|]. econstructor; eassumption.
Qed.

(** C122, the tree: for every device the GUI builds a tree of the shape of the device's, with the
    attributes of its nodes, their paths as ids, and children in the order of their ids. *)
Theorem C122_tree : forall t, wf t -> distinct_ids t -> linked_below t ->
  exists cs gs, gui_device t = Some gs /\ Permutation (n_ch t) cs /\ StronglySorted earlier (map (fun c => a_id (n_at c)) cs) /\
  Forall2 (fun c g => mirrors (a_id (n_at c)) "" c g) cs gs.
Proof.
  intros t W D L. destruct (level_ok t W D L) as (cs & E & Q & SO). exists cs. unfold gui_device. rewrite E.
  destruct (each_ok (fun x => match child_at t x with Some c => gui_node (size t) c "" | None => None end) (fun c => a_id (n_at c))
    (fun c g => mirrors (a_id (n_at c)) "" c g) cs) as (gs & X & F).
  - intros c I. assert (C : In c (n_ch t)) by (apply (Permutation_in _ (Permutation_sym Q)); exact I). rewrite (child_at_ok t c W D L C).
    destruct (children_ok t c W D L C) as (W' & D' & L' & N). apply gui_node_ok; auto. assert (X := in_size t c C). lia.
  - exists gs. auto.
Qed.

(** ** Paths *)

Lemma Forall2_in_r {A B} (R : A -> B -> Prop) l k : Forall2 R l k -> forall y, In y k -> exists x, In x l /\ R x y.
Proof. induction 1 as [|x y l k H F IH]; intros z I; [destruct I|]. destruct I as [<-|I]; [exists x; split; [left; reflexivity|exact H]|]. destruct (IH z I) as (u & U & V). exists u. split; [right; exact U|exact V]. Qed.
Lemma Forall2_in_l {A B} (R : A -> B -> Prop) l k : Forall2 R l k -> forall x, In x l -> exists y, In y k /\ R x y.
Proof. induction 1 as [|x y l k H F IH]; intros z I; [destruct I|]. destruct I as [<-|I]; [exists y; split; [left; reflexivity|exact H]|]. destruct (IH z I) as (u & U & V). exists u. split; [right; exact U|exact V]. Qed.

Lemma append_assoc a b c : ((a ++ b) ++ c)%string = (a ++ b ++ c)%string.
Proof. induction a as [|x a IH]; cbn [append]; [reflexivity|rewrite IH; reflexivity]. Qed.

Lemma inside_ok g k : inside g k -> forall path parent n, mirrors path parent n g ->
  exists m par, mirrors (g_id k) par m k /\ ((g_id k = path /\ m = n) \/ exists rel, g_id k = (path ++ "." ++ rel)%string /\ node_below n rel m).
Proof.
  induction 1 as [g|g h k C I IH]; intros path parent n M.
  - exists n, parent. inversion M; subst. cbn [g_id]. split; [exact M|left; auto].
  - inversion M as [? ? ? cs gs Q SO F]; subst. cbn [g_children] in C. destruct (Forall2_in_r _ _ _ F h C) as (c & IC & MC).
    assert (C' : In c (n_ch n)) by (apply (Permutation_in _ (Permutation_sym Q)); exact IC).
    destruct (IH _ _ _ MC) as (m & par & MM & [(E & ->)|(rel & E & B)]); exists m || exists c; exists par; (split; [exact MM|]); right.
    + exists (a_id (n_at c)). split; [exact E|constructor; exact C'].
    + exists (a_id (n_at c) ++ "." ++ rel)%string. split; [rewrite E, !append_assoc; reflexivity|]. apply nb_deeper; assumption.
Qed.
Lemma shown_ok rel m n : node_below n rel m -> forall path parent g, mirrors path parent n g -> exists k, inside g k /\ g_id k = (path ++ "." ++ rel)%string.
Proof.
  induction 1 as [n c C|n c rel m C B IH]; intros path parent g M; inversion M as [? ? ? cs gs Q SO F]; subst.
  - assert (IC : In c cs) by (apply (Permutation_in _ Q); exact C). destruct (Forall2_in_l _ _ _ F c IC) as (h & H & MH).
    exists h. split; [apply (in_child _ h); [exact H|constructor]|]. inversion MH; reflexivity.
  - assert (IC : In c cs) by (apply (Permutation_in _ Q); exact C). destruct (Forall2_in_l _ _ _ F c IC) as (h & H & MH).
    destruct (IH _ _ _ MH) as (k & I & E). exists k. split; [apply (in_child _ h); [exact H|exact I]|]. rewrite E, !append_assoc. reflexivity.
Qed.

(** C122, the ids: the ids in the GUI's tree are exactly the paths of the nodes of the device, and
    what is shown under a path is the node that getNode finds there. *)
Theorem C122_paths : forall t gs, wf t -> distinct_ids t -> linked_below t -> gui_device t = Some gs ->
  (forall path m, node_below t path m -> exists g k, In g gs /\ inside g k /\ g_id k = path) /\
  (forall g k, In g gs -> inside g k -> exists m q parent, get_node t (g_id k) = Found q /\ get t q = Some m /\ mirrors (g_id k) parent m k).
Proof.
  intros t gs W D L E. destruct (C122_tree t W D L) as (cs & gs' & E' & Q & _ & F). rewrite E in E'. injection E' as <-. split.
  - intros path m B. inversion B as [c C|c rel m' C B']; subst; assert (IC := C); apply (Permutation_in _ Q) in IC; destruct (Forall2_in_l _ _ _ F _ IC) as (g & G & M).
    + exists g, g. split; [exact G|]. split; [constructor|]. inversion M; reflexivity.
    + destruct (shown_ok rel m c B' _ _ _ M) as (k & I & X). exists g, k. auto.
  - intros g k G I. destruct (Forall2_in_r _ _ _ F g G) as (c & IC & M). assert (C : In c (n_ch t)) by (apply (Permutation_in _ (Permutation_sym Q)); exact IC).
    destruct (inside_ok g k I _ _ _ M) as (m & par & MM & H).
    assert (B : node_below t (g_id k) m) by (destruct H as [(-> & ->)|(rel & -> & B)]; [constructor; exact C|apply nb_deeper; assumption]).
    destruct (below_found t _ m W D L B) as (q & X & Y). exists m, q, par. auto.
Qed.

(** ** Several devices *)

(** C122, all devices: if every device can be had, each has its entry, in their order. *)
Theorem C122_devices : forall devices,
  (forall name d, In (name, d) devices -> exists t, d = Some t /\ wf t /\ distinct_ids t /\ linked_below t) ->
  exists r, gui_load devices = Some r /\ Forall2 (fun d e => fst d = fst e /\ exists t, snd d = Some t /\ gui_device t = Some (snd e)) devices r.
Proof.
  intros devices H. unfold gui_load.
  destruct (each_ok (fun d => match snd d with Some t => option_map (pair (fst d)) (gui_device t) | None => None end) (fun d : string * option node => d)
    (fun d e => fst d = fst e /\ exists t, snd d = Some t /\ gui_device t = Some (snd e)) devices) as (r & E & F).
  - intros (name, d) I. destruct (H name d I) as (t & -> & W & D & L). cbn [fst snd]. destruct (C122_tree t W D L) as (_ & gs & E & _). rewrite E. cbn [option_map].
    eexists. split; [reflexivity|]. cbn [fst snd]. split; [reflexivity|]. exists t. auto.
  - rewrite map_id in E. exists r. auto.
Qed.

Lemma each_none {A B} (f : A -> option B) l x : In x l -> f x = None -> each f l = None.
Proof. intros I E. induction l as [|y l IH]; [destruct I|]. cbn [each]. destruct I as [->|I]; [rewrite E; reflexivity|]. rewrite (IH I). destruct (f y); reflexivity. Qed.

(** That a device that cannot be had is left out, as the comment on the function says, is not so:
    whatever the other devices, nothing is shown. *)
Theorem C122_left_out_refuted : forall devices name, In (name, None) devices -> gui_load devices = None.
Proof. intros devices name I. exact (each_none _ devices (name, None) I eq_refl). Qed.

(** ** Examples *)

Example C122_tree_ex : exists cs gs, gui_device gap_tree = Some gs /\ Permutation (n_ch gap_tree) cs /\ StronglySorted earlier (map (fun c => a_id (n_at c)) cs) /\
  Forall2 (fun c g => mirrors (a_id (n_at c)) "" c g) cs gs.
Proof. destruct gap_wf as (A & B & C). exact (C122_tree gap_tree A B C). Qed.
Example C122_tree_ex2 : gui_device gap_tree =
  Some [GNode "sub" "" 0x20 NOMASK true true HIERARCHICAL 1 ""
          [GNode "sub.ctrl" "sub" 0x28 0xF0 true true SINGLE 1 "" []; GNode "sub.status" "sub" 0x24 NOMASK true false SINGLE 1 "" []]].
Proof. vm_compute. reflexivity. Qed.
Example C122_paths_ex : exists gs, gui_device gap_tree = Some gs /\ exists g k, In g gs /\ inside g k /\ g_id k = "sub.status"%string.
Proof.
  destruct gap_wf as (A & B & C). destruct (C122_tree gap_tree A B C) as (_ & gs & E & _). exists gs. split; [exact E|].
  apply (proj1 (C122_paths gap_tree gs A B C E) "sub.status"%string gap_status).
  apply (nb_deeper gap_tree gap_sub "status" gap_status); [left; reflexivity|]. apply (nb_child gap_sub gap_status). left. reflexivity.
Qed.

Example C122_devices_ex : exists r, gui_load [("b"%string, Some gap_tree); ("a"%string, Some ex_tree)] = Some r /\
  Forall2 (fun d e => fst d = fst e /\ exists t, snd d = Some t /\ gui_device t = Some (snd e)) [("b"%string, Some gap_tree); ("a"%string, Some ex_tree)] r.
Proof.
  apply C122_devices. intros name d [X|[X|[]]]; injection X as <- <-; [exists gap_tree; split; [reflexivity|exact gap_wf]|exists ex_tree; split; [reflexivity|exact ex_wf]].
Qed.
Example C122_left_out_ex : gui_load [("b"%string, Some gap_tree); ("a"%string, None)] = None /\ gui_load [("b"%string, Some gap_tree)] <> None.
Proof. split; [apply (C122_left_out_refuted _ "a"); right; left; reflexivity|vm_compute; discriminate]. Qed.

Print Assumptions C122_tree.
Print Assumptions C122_devices.
Print Assumptions C122_left_out_refuted.
Print Assumptions C122_paths.
