(** C123: the tables of the GUI, from the nodes of the devices. *)
From Coq Require Import NArith ZArith List Bool String Ascii Lia Sorted Permutation ZifyBool ZifyNat ZifyN.
From Verif Require Import Word ValMem Client Spec NodeTree NodeProofs Prop_Node RegDump Prop_RegDump GuiTree Prop_GuiTree Widget Prop_Widget PollTree.
Import ListNotations.

(** The item has the id of the node and an item for each of its children. *)
Inductive item_of : node -> item -> Prop :=
  ItemOf n cs below : Permutation (n_ch n) cs -> Forall2 item_of cs below -> item_of n (Item (a_id (n_at n)) below).

Lemma loop_ok n : wf n -> distinct_ids n -> linked_below n ->
  exists l first cs, names n [] = Some l /\ names_matching first_level n [] = Some first /\
    filter (fun x => existsb (String.eqb x) first) l = map (fun c => a_id (n_at c)) cs /\ Permutation (n_ch n) cs.
Proof.
  intros W D L. destruct (names_ok n [] n W D L eq_refl) as (l & E & ND & I). destruct (level_ok n W D L) as (ds & F & Q & _).
  exists l, (map (fun c => a_id (n_at c)) ds).
  assert (NC : NoDup (map (fun c => a_id (n_at c)) (n_ch n))) by (destruct D; assumption).
  assert (P : Permutation (filter (fun x => existsb (String.eqb x) (map (fun c => a_id (n_at c)) ds)) l) (map (fun c => a_id (n_at c)) (n_ch n))).
  { apply NoDup_Permutation; [apply NoDup_filter; exact ND|exact NC|]. intros x. rewrite filter_In, existsb_exists, I. split.
    - intros (_ & y & Y & X). apply String.eqb_eq in X. subst y. apply (Permutation_in _ (Permutation_map _ (Permutation_sym Q))). exact Y.
    - intros X. split; [apply in_map_iff in X; destruct X as (c & <- & C); exists c; constructor; exact C|]. exists x. split; [apply (Permutation_in _ (Permutation_map _ Q)); exact X|apply String.eqb_refl]. }
  destruct (Permutation_map_inv _ _ P) as (cs & Y & Q'). exists cs. auto.
Qed.

Lemma no_names n : wf n -> distinct_ids n -> linked_below n -> exists l, names n [] = Some l /\ (l = [] -> n_ch n = []).
Proof.
  intros W D L. destruct (names_ok n [] n W D L eq_refl) as (l & E & _ & I). exists l. split; [exact E|]. intros ->.
  destruct (n_ch n) as [|c r] eqn:C; [reflexivity|]. exfalso. apply (proj2 (I (a_id (n_at c)))). exists c. constructor. rewrite C. left. reflexivity.
Qed.

Lemma build_ok f : forall n, (size n <= f)%nat -> wf n -> distinct_ids n -> linked_below n ->
  exists cs below, build_tree f n = Some below /\ Permutation (n_ch n) cs /\ Forall2 item_of cs below.
Proof.
  induction f as [|f IH]; intros n S W D L; [destruct n; cbn [size] in S; lia|]. cbn [build_tree].
  destruct (loop_ok n W D L) as (l & first & cs & -> & -> & -> & Q). exists cs.
  destruct (each_ok (fun x => match child_at n x with None => None | Some c => match names c [] with None => None | Some [] => Some (Item (a_id (n_at c)) [])
    | Some _ => option_map (Item (a_id (n_at c))) (build_tree f c) end end) (fun c => a_id (n_at c)) item_of cs) as (gs & -> & F).
  - intros c I. assert (C : In c (n_ch n)) by (apply (Permutation_in _ (Permutation_sym Q)); exact I). rewrite (child_at_ok n c W D L C).
    destruct (children_ok n c W D L C) as (W' & D' & L' & _). destruct (no_names c W' D' L') as (lc & -> & NN).
    assert (X := in_size n c C). destruct lc as [|x lc].
    + eexists. split; [reflexivity|]. apply (ItemOf c []); [rewrite NN; constructor|constructor].
    + destruct (IH c ltac:(lia) W' D' L') as (ds & b & -> & Q' & F'). eexists. split; [reflexivity|]. exact (ItemOf c ds b Q' F').
  - exists gs. auto.
Qed.

Lemma leads_below_ok below p : leads_to below p -> forall n cs, Permutation (n_ch n) cs -> Forall2 item_of cs below -> exists m, node_below n (dotted p) m.
Proof.
  induction 1 as [id b items I|id b items p I A IH]; intros n cs Q F; destruct (Forall2_in_r _ _ _ F _ I) as (c & IC & M);
    assert (C : In c (n_ch n)) by (apply (Permutation_in _ (Permutation_sym Q)); exact IC); inversion M as [? ds ? Q' F']; subst.
  - exists c. cbn [dotted]. constructor. exact C.
  - destruct (IH c ds Q' F') as (m & B). exists m. destruct p as [|x p]; [inversion A|]. change (dotted (a_id (n_at c) :: x :: p)) with (a_id (n_at c) ++ "." ++ dotted (x :: p))%string. apply nb_deeper; assumption.
Qed.
Lemma below_leads n path m : node_below n path m -> forall cs below, Permutation (n_ch n) cs -> Forall2 item_of cs below -> exists p, leads_to below p /\ path = dotted p.
Proof.
  induction 1 as [n c C|n c path m C B IH]; intros cs below Q F; assert (IC := C); apply (Permutation_in _ Q) in IC; destruct (Forall2_in_l _ _ _ F _ IC) as (g & G & M); inversion M as [? ds b Q' F']; subst.
  - exists [a_id (n_at c)]. split; [eapply leads_here; exact G|reflexivity].
  - destruct (IH ds b Q' F') as (p & P & ->). exists (a_id (n_at c) :: p). split; [eapply leads_below; [exact G|exact P]|]. destruct p; [inversion P|reflexivity].
Qed.
Lemma item_named t : forall n, item_of n t -> wf n -> a_id (n_at n) <> EmptyString -> named t.
Proof.
  induction t as [id below IH] using item_ind'. intros n M W N. inversion M as [? cs ? Q F]; subst. constructor; [exact N|]. rewrite Forall_forall in *. intros t I.
  destruct (Forall2_in_r _ _ _ F t I) as (c & IC & MC). assert (C : In c (n_ch n)) by (apply (Permutation_in _ (Permutation_sym Q)); exact IC).
  destruct W as [a m ch _ FI FW]. cbn [n_ch] in C. rewrite Forall_forall in FI, FW. apply (IH t I c MC (FW c C)). apply (FI c C).
Qed.

Lemma forall2_ids (cs : list node) ts : Forall2 item_of cs ts -> map id_of ts = map (fun c => a_id (n_at c)) cs.
Proof. induction 1 as [|c t cs ts M F IH]; [reflexivity|]. cbn [map]. rewrite IH. inversion M; subst. reflexivity. Qed.
Lemma item_distinct t : forall n, item_of n t -> distinct_ids n -> match t with Item _ below => distinct below end.
Proof.
  induction t as [id below IH] using item_ind'. intros n M D. inversion M as [? cs ? Q F]; subst. destruct D as [a m ch ND DD]. cbn [n_ch] in Q. constructor.
  - rewrite (forall2_ids _ _ F). apply (Permutation_NoDup (Permutation_map _ Q)). exact ND.
  - rewrite Forall_forall in *. intros i b I. destruct (Forall2_in_r _ _ _ F _ I) as (c & IC & MC).
    exact (IH _ I c MC (DD c (Permutation_in _ (Permutation_sym Q) IC))).
Qed.

(** C123, from the devices: for any devices with different names the thread makes its tree, and the table
    that is added for one of them is a new table of that device, whose rows are the paths of its
    nodes. *)
Theorem C123_devices : forall devices, NoDup (map fst devices) ->
  (forall e t, In (e, t) devices -> e <> EmptyString /\ wf t /\ distinct_ids t /\ linked_below t) ->
  exists tree, hw_tree devices = Some tree /\ forall e t k, In (e, t) devices ->
    exists rows, add_table [e] tree k = Some (new_widget e k rows) /\ forall r, In r rows <-> exists m, node_below t r m.
Proof.
  intros devices ND H.
  destruct (each_ok (fun d => option_map (Item (fst d)) (build_tree (size (snd d)) (snd d))) (fun d : string * node => d)
    (fun d i => exists cs below, i = Item (fst d) below /\ Permutation (n_ch (snd d)) cs /\ Forall2 item_of cs below) devices) as (tree & E & F).
  - intros (e, t) I. destruct (H e t I) as (_ & W & D & L). cbn [fst snd]. destruct (build_ok (size t) t (Nat.le_refl _) W D L) as (cs & b & -> & Q & F). eexists. split; [reflexivity|]. exists cs, b. auto.
  - rewrite map_id in E. exists tree. split; [exact E|].
    assert (OK : forall e b, In (Item e b) tree -> e <> EmptyString /\ Forall named b /\ distinct b).
    { intros e b I. destruct (Forall2_in_r _ _ _ F _ I) as ((e', t) & ID & cs & b' & X & Q & FB). cbn [fst snd] in *. injection X as <- <-. destruct (H e t ID) as (N & W & D & L). split; [exact N|]. split.
      - rewrite Forall_forall. intros i II. destruct (Forall2_in_r _ _ _ FB i II) as (c & IC & MC). assert (C := Permutation_in _ (Permutation_sym Q) IC). destruct (children_ok t c W D L C) as (W' & _ & _ & N'). exact (item_named i c MC W' N').
      - exact (item_distinct (Item (a_id (n_at t)) b) t (ItemOf t cs b Q FB) D). }
    assert (DT : distinct tree).
    { constructor; [|intros e b I; apply (OK e b I)]. replace (map id_of tree) with (map fst devices); [exact ND|]. clear -F. induction F as [|d i ds is (cs & b & -> & _) F IH]; [reflexivity|]. cbn [map id_of]. rewrite IH. reflexivity. }
    assert (NT : Forall named tree).
    { rewrite Forall_forall. intros [e b] I. destruct (OK e b I) as (N & B & _). constructor; assumption. }
    intros e t k I. destruct (Forall2_in_l _ _ _ F _ I) as (i & II & cs & b & -> & Q & FB). cbn [fst snd] in *.
    destruct (C123_add_partial tree k DT NT) as (A & _). destruct (A e b II) as (rows & R & P & _). exists rows. split; [exact R|]. intros r. rewrite P. split.
    + intros (p & LP & ->). exact (leads_below_ok b p LP t cs Q FB).
    + intros (m & B). exact (below_leads t r m B cs b Q FB).
Qed.

(** ** Examples *)

Example C123_devices_ex : exists tree, hw_tree [("hub"%string, ex_tree); ("board"%string, gap_tree)] = Some tree /\
  (exists rows, add_table ["board"%string] tree 1 = Some (new_widget "board" 1 rows) /\ forall r, In r rows <-> exists m, node_below gap_tree r m) /\
  add_table ["board"%string] tree 1 = Some (new_widget "board" 1 ["sub"; "sub.status"; "sub.ctrl"]%string).
Proof.
  destruct (C123_devices [("hub"%string, ex_tree); ("board"%string, gap_tree)]) as (tree & E & A).
  - repeat constructor; cbn; intuition discriminate.
  - intros e t [X|[X|[]]]; injection X as <- <-; (split; [discriminate|]); [exact ex_wf|exact gap_wf].
  - exists tree. split; [exact E|]. split; [apply A; right; left; reflexivity|]. vm_compute in E. injection E as <-. vm_compute. reflexivity.
Qed.

Print Assumptions C123_devices.
