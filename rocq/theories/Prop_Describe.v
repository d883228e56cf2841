(** C102: the nodes named by the exception after a bus error. *)
From Coq Require Import NArith ZArith List Bool String Sorted Lia PeanoNat ZifyBool ZifyNat ZifyN.
From Verif Require Import Word WordLemmas Header Client Spec NodeTree NodeProofs Prop_Node Builder BuildSpec BuilderProofs Prop_Builder.
From Verif Require Import Overlap Describe DescribeSpec DescribeProofs.
Import ListNotations.
Open Scope N_scope.

(** The nodes named are those that have the address, in depth-first order; if there
    are several, the ancestor named is the closest one they have in common, and the
    names start below it.  If the root is one of several, there is no text:
    std::runtime_error is thrown. *)
Theorem C102_text : forall t x most, wf t -> linked_below t -> blocks_inside t ->
  exists ms, at_address t x ms /\
    match ms with
    | [] => describe t x most = DText "no matching nodes"
    | [p] => describe t x most = DText ("node " ++ in_quotes (full_name t p))
    | _ => (In [] ms -> describe t x most = DNoAncestor) /\
           (~ In [] ms -> exists anc, closest anc ms /\ describe t x most = DText (text t most ms anc))
    end.
Proof.
  intros t x most W L B. assert (A := matching_at t x B). exists (matching t x). split; [exact A|].
  unfold describe. destruct (matching t x) as [|p [|q r]] eqn:M; [reflexivity| |].
  - destruct A as (_ & A). destruct (proj1 (A p) (or_introl eq_refl)) as (n & G & _). rewrite (path_full _ _ _ W L G). reflexivity.
  - rewrite <- M in *. assert (AT : forall s, In s (matching t x) -> exists n, get t s = Some n) by (intros s I; apply A in I; destruct I as (n & G & _); eauto).
    split.
    + intros I. destruct A as (SS & _). rewrite M in SS, I. destruct I as [->|I]; [reflexivity|]. inversion SS as [|? ? _ F]; subst.
      rewrite Forall_forall in F. specialize (F _ I). inversion F.
    + intros NI. rewrite M in *. assert (F : Forall (fun s => s <> [] /\ exists n, get t s = Some n) (p :: q :: r)).
      { apply Forall_forall. intros s I. split; [intros ->; exact (NI I)|apply AT, I]. }
      inversion F as [|? ? (P1 & n & P2) F']; subst.
      assert (E : lineage t p = Some (chain (removelast p))).
      { rewrite (app_removelast_last 0%nat P1) in P2. rewrite (app_removelast_last 0%nat P1) at 1. exact (lineage_chain _ _ _ _ L P2). }
      rewrite E, (common_fold t L (q :: r) (removelast p) F' ltac:(discriminate)). set (anc := fold_left _ _ _).
      assert (C : closest anc (p :: q :: r)) by (apply fold_closest; eapply Forall_impl; [|exact F]; intros s (Z & _); exact Z).
      exists anc. split; [exact C|].
      assert (N : forall s, In s (p :: q :: r) -> substr (if pos_eqb anc [] then 0%nat else (String.length (path_at t anc) + 1)%nat) (path_at t s) = Some (name_below t anc s)).
      { intros s I. destruct (AT s I) as (m & G). apply (name_cut _ _ _ _ W L G). apply C, I. }
      assert (PA : path_at t anc = full_name t anc).
      { destruct (proj1 C p (or_introl eq_refl)) as (u & _ & U). rewrite U in P2. destruct (get_prefix _ _ _ _ P2) as (m & G). exact (path_full _ _ _ W L G). }
      assert (PE : pos_eqb anc [] = match anc with [] => true | _ => false end).
      { destruct anc as [|i a]; [reflexivity|]. unfold pos_eqb. destruct (list_eq_dec Nat.eq_dec (i :: a) []); [discriminate|reflexivity]. }
      destruct (others_concat t _ (name_below t anc) (q :: r) (fun s I => N s (or_intror I)) p (N p (or_introl eq_refl))) as (o & O1 & O2).
      rewrite (N p (or_introl eq_refl)), O1. rewrite PA, PE in *. unfold text. rewrite <- O2.
      destruct most as [|k]; cbn [Nat.eqb negb andb].
      * destruct anc; rewrite ?append_assoc; reflexivity.
      * destruct (Nat.ltb _ _); [|destruct anc; rewrite ?append_assoc; reflexivity].
        destruct anc; [reflexivity|]. rewrite !append_assoc. reflexivity.
Qed.

(** The exception of the library is raised unless the root and another node have
    the address of the failed access; then the process is ended instead. *)
Theorem C102_ends_partial : forall t ty base wc, wf t -> linked_below t -> blocks_inside t ->
  report_bus_error (Some t) ty base wc = BTerminate <->
  covers (n_at t) (error_address ty base wc) /\ exists p n, p <> [] /\ get t p = Some n /\ covers (n_at n) (error_address ty base wc).
Proof.
  intros t ty base wc W L B. unfold report_bus_error, describe_client. set (x := error_address ty base wc).
  destruct (C102_text t x 5 W L B) as (ms & (SS & A) & H).
  assert (R : In [] ms <-> covers (n_at t) x).
  { rewrite A. split; [intros (n & G & C); injection G as <-; exact C|intros C; exists t; split; [reflexivity|exact C]]. }
  destruct ms as [|p [|q r]].
  - rewrite H. split; [discriminate|]. intros (C & _). apply R in C. destruct C.
  - rewrite H. split; [discriminate|]. intros (C & s & n & NE & G & D). apply R in C. destruct C as [->|[]].
    destruct (proj2 (A s)) as [E|[]]; [exists n; auto|congruence].
  - destruct H as (H1 & H2). destruct (in_dec (list_eq_dec Nat.eq_dec) [] (p :: q :: r)) as [I|NI].
    + rewrite (H1 I). split; [|reflexivity]. intros _. split; [apply R, I|].
      assert (X : exists s, In s (p :: q :: r) /\ s <> []).
      { destruct p; [|eexists; split; [left; reflexivity|discriminate]]. destruct q as [|i q]; [|eexists; split; [right; left; reflexivity|discriminate]].
        exfalso. inversion SS as [|? ? _ F]; subst. inversion F as [|? ? Z _]; subst. inversion Z. }
      destruct X as (s & S1 & NE). apply A in S1. destruct S1 as (n & G & C). exists s, n. auto.
    + destruct (H2 NI) as (anc & _ & E). rewrite E. split; [discriminate|]. intros (C & _). apply R in C. tauto.
Qed.

(** The address of which the nodes are named is that of the word at which the transaction
    failed: [i] words of it were carried out before, as the word count of the reply
    says. *)
Theorem C102_failed_word : forall t ty base n i x inc, wf t -> linked_below t -> blocks_inside t ->
  ((ty = READ \/ ty = WRITE) /\ inc = true \/ (ty = NI_READ \/ ty = NI_WRITE) /\ inc = false) ->
  nth_error (block_addrs base n inc) i = Some x ->
  exists ms, at_address t x ms /\
    match ms with
    | [] => report_bus_error (Some t) ty base (N.of_nat i) = BRaised "no matching nodes"
    | [p] => report_bus_error (Some t) ty base (N.of_nat i) = BRaised ("node " ++ in_quotes (full_name t p))
    | _ => (In [] ms -> report_bus_error (Some t) ty base (N.of_nat i) = BTerminate) /\
           (~ In [] ms -> exists anc, closest anc ms /\ report_bus_error (Some t) ty base (N.of_nat i) = BRaised (text t 5 ms anc))
    end.
Proof.
  intros t ty base n i x inc W L B TY X.
  assert (E : error_address ty base (N.of_nat i) = x).
  { unfold block_addrs in X. rewrite nth_error_map in X. destruct (nth_error (seq 0 n) i) as [k|] eqn:K; [|discriminate].
    assert (K' : k = i).
    { assert (I : (i < n)%nat). { rewrite <- (seq_length n 0). apply nth_error_Some. congruence. }
      apply nth_error_nth with (d := 0%nat) in K. rewrite seq_nth in K by exact I. cbn in K. congruence. }
    subst k. cbn [option_map] in X. assert (Y := f_equal (fun o => match o with Some z => z | None => 0 end) X). cbn in Y. subst x.
    destruct TY as [([-> | ->] & ->)|([-> | ->] & ->)]; reflexivity. }
  destruct (C102_text t x 5 W L B) as (ms & A & H). exists ms. split; [exact A|].
  unfold report_bus_error, describe_client. rewrite E. destruct ms as [|p [|q r]]; [rewrite H; reflexivity..|].
  destruct H as (H1 & H2). split; [intros I; rewrite (H1 I); reflexivity|].
  intros NI. destruct (H2 NI) as (anc & C & D). exists anc. split; [exact C|]. rewrite D. reflexivity.
Qed.

(** An access through a node, at whichever of its words it fails: the node is one of
    those named or counted (the exceptions are those of C28). *)
Theorem C102_own_partial : forall t p n o c x ms, get t p = Some n -> a_addr (n_at n) < 2 ^ 32 ->
  a_mode (n_at n) <> HIERARCHICAL -> (a_mode (n_at n) = SINGLE -> a_size (n_at n) = 1) ->
  (a_mode (n_at n) = INCREMENTAL -> 1 <= a_size (n_at n) /\ a_addr (n_at n) + a_size (n_at n) <= 2 ^ 32) ->
  match o with
  | NReadBlockOffset k off => k + off < 2 ^ 32
  | NReadBlock _ | NWriteBlock _ => a_size (n_at n) <> 1 \/ a_mode (n_at n) <> INCREMENTAL
  | _ => True
  end ->
  node_op (n_at n) o = inr c -> In x (touched c) -> at_address t x ms -> In p ms.
Proof.
  intros t p n o c x ms G A NH SZ FI BD E X (_ & M). apply M. exists n. split; [exact G|].
  assert (F := C28_bounds_partial _ _ _ A E BD). rewrite Forall_forall in F. specialize (F x X). clear X M BD E. unfold covers.
  destruct F as [->|(NN & i & I & ->)].
  - destruct (a_mode (n_at n)); try congruence; try reflexivity. destruct (FI eq_refl). lia.
  - destruct (a_mode (n_at n)); try congruence.
    + rewrite (SZ eq_refl) in I. replace i with 0 by lia. rewrite N.add_0_r, N.mod_small by exact A. reflexivity.
    + destruct (FI eq_refl). rewrite N.mod_small by lia. lia.
Qed.

(** Trees made from address tables meet the conditions on ids and links. *)
Theorem C102_built : forall parse_pars parse_fw files sort is_class fuel path expr t x most, sort_ok sort ->
  get_node_tree parse_pars parse_fw files sort is_class fuel path expr = BOk t -> blocks_inside t ->
  exists ms, at_address t x ms /\
    (~ In [] ms \/ (List.length ms <= 1)%nat -> exists s, describe t x most = DText s) /\
    (In [] ms -> (2 <= List.length ms)%nat -> describe t x most = DNoAncestor).
Proof.
  intros parse_pars parse_fw files sort is_class fuel path expr t x most SO E B.
  destruct (C31_built_trees _ _ _ _ _ SO _ _ _ _ E) as (W & L). destruct (C102_text t x most W L B) as (ms & A & H). exists ms. split; [exact A|].
  destruct ms as [|p [|q r]]; cbn [List.length].
  - split; [eauto|lia].
  - split; [eauto|lia].
  - destruct H as (H1 & H2). split; [|auto]. intros [NI|LE]; [|lia]. destruct (H2 NI) as (anc & _ & D). eauto.
Qed.

(** *** Refuted *)

(** A file that describes one register by its fields, as its root: when an access to
    it fails, the process is ended. *)
Definition fields_file : xml :=
  (Xml [("id", "CTRL"); ("address", "0x10")] [Xml [("id", "go"); ("mask", "0x1")] []; Xml [("id", "stop"); ("mask", "0x2")] []])%string.
Theorem C102_root_refuted : exists t, ex_build (fun _ _ => Some ("ctrl.xml"%string, fields_file)) "file://ctrl.xml" = BOk t /\
  get_node t "go" = Found [0%nat] /\ touched (ORead 0x10 1) = [0x10] /\ describe t 0x10 5 = DNoAncestor /\
  report_bus_error (Some t) READ 0x10 0 = BTerminate.
Proof. eexists. split; [vm_compute; reflexivity|]. vm_compute. repeat split. Qed.

(** A block that ends with the address space is never named. *)
Theorem C102_top_refuted : forall t p n x most, linked_below t -> get t p = Some n -> a_mode (n_at n) = INCREMENTAL ->
  a_addr (n_at n) + a_size (n_at n) = 2 ^ 32 -> (forall q m, q <> p -> get t q = Some m -> hit (n_at m) x = false) ->
  describe t x most = DText "no matching nodes".
Proof.
  intros t p n x most L G M E O. unfold describe. rewrite matching_all.
  replace (filter _ _) with (@nil (list nat)); [reflexivity|]. symmetry.
  assert (K : forall l, (forall q, In q l -> exists m, get t q = Some m) -> filter (fun q => hit (at_pos t q) x) l = []).
  { induction l as [|q l IH]; intros H; [reflexivity|]. cbn [filter]. rewrite IH by (intros; apply H; right; assumption).
    destruct (H q (or_introl eq_refl)) as (m & Gm). rewrite (at_pos_get _ _ _ Gm).
    destruct (list_eq_dec Nat.eq_dec q p) as [->|NE]; [|rewrite (O q m NE Gm); reflexivity].
    rewrite G in Gm. injection Gm as <-. unfold hit. rewrite M. unfold add32, W32. change 4294967296 with (2 ^ 32). rewrite E.
    change (2 ^ 32 mod 2 ^ 32) with 0. destruct (a_addr (n_at n) <=? x); [|reflexivity]. cbn [andb]. replace (x <? 0) with false by lia. reflexivity. }
  apply K. intros q I. apply preorder_in. exact I.
Qed.
Example C102_top_case : exists t, ex_build (one_child [("id", "mem"); ("address", "0xFFFFFFF0"); ("mode", "block"); ("size", "16")]%string) "x" = BOk t /\
  touched (OReadBlock 0xFFFFFFF0 6 true) = [0xFFFFFFF0; 0xFFFFFFF1; 0xFFFFFFF2; 0xFFFFFFF3; 0xFFFFFFF4; 0xFFFFFFF5] /\
  report_bus_error (Some t) READ 0xFFFFFFF0 5 = BRaised "no matching nodes".
Proof. eexists. split; [vm_compute; reflexivity|]. vm_compute. repeat split. Qed.

(** A bus error in a read of the configuration space, which accesses no register: the
    registers with the same number as their address are named. *)
Theorem C102_config_refuted : forall t a m wc,
  fst (direct_op (list N) (fun d x => (d ++ [x], 0)) (fun d x _ => d ++ [x]) (fun d x => (d, 0)) V2 [] (OReadCfg a m)) = [] /\
  report_bus_error (Some t) CONFIG_SPACE_READ a wc = report_bus_error (Some t) READ a wc.
Proof. intros t a m wc. split; reflexivity. Qed.
Example C102_config_case : exists t, ex_build (one_child [("id", "mem"); ("address", "0x10")]%string) "x" = BOk t /\
  report_bus_error (Some t) CONFIG_SPACE_READ 0x10 0 = BRaised "node ""TOP.mem""".
Proof. eexists. split; [vm_compute; reflexivity|]. vm_compute. repeat split. Qed.

(** *** Examples *)
Definition more_files (path expr : string) : option (string * xml) :=
  Some ("t.xml"%string, (Xml [("id", "TOP")]
    [Xml [("id", "sub"); ("address", "0x100")]
       [Xml [("id", "reg"); ("address", "4")] [Xml [("id", "lo"); ("mask", "0xF")] []; Xml [("id", "hi"); ("mask", "0xF0")] []];
        Xml [("id", "mem"); ("address", "0x20"); ("mode", "block"); ("size", "8")] []];
     Xml [("id", "port"); ("address", "0x80"); ("mode", "port")] []])%string).
Definition said (x : N) (most : nat) : option described :=
  match ex_build more_files "x" with BOk t => Some (describe t x most) | _ => None end.
Example C102_case :
  said 0x27 5 = Some (DText "no matching nodes") /\ said 0x127 5 = Some (DText "node ""TOP.sub.mem""") /\
  said 0x128 5 = Some (DText "no matching nodes") /\ said 0x80 5 = Some (DText "node ""TOP.port""") /\ said 0x100 5 = Some (DText "no matching nodes") /\
  said 0x104 5 = Some (DText "nodes ""reg"", ""reg.lo"", ""reg.hi"" under ""TOP.sub""") /\
  said 0x104 2 = Some (DText "3 nodes under ""TOP.sub"" match").
Proof. vm_compute. repeat split. Qed.

Lemma blocks_inside_check t : forallb (fun p => match a_mode (at_pos t p) with INCREMENTAL => a_addr (at_pos t p) + a_size (at_pos t p) <? 2 ^ 32 | _ => true end) (preorder t) = true -> blocks_inside t.
Proof.
  intros H p n G M. rewrite forallb_forall in H. specialize (H p (proj2 (preorder_in t p) (ex_intro _ n G))). rewrite (at_pos_get _ _ _ G), M in H. apply N.ltb_lt. exact H.
Qed.
(** The trees of the two files. *)
Definition more_tree : node := Eval vm_compute in match ex_build more_files "x" with BOk t => t | _ => Node default_attrs [] [] end.
Definition fields_tree : node := Eval vm_compute in match ex_build (fun _ _ => Some ("ctrl.xml"%string, fields_file)) "x" with BOk t => t | _ => Node default_attrs [] [] end.
Lemma more_built : get_node_tree (fun _ => []) (fun s => Some (s, [])) more_files sort_nodes (fun _ => false) 3 EmptyString "x" = BOk more_tree.
Proof. vm_compute. reflexivity. Qed.
Lemma fields_built : get_node_tree (fun _ => []) (fun s => Some (s, [])) (fun _ _ => Some ("ctrl.xml"%string, fields_file)) sort_nodes (fun _ => false) 3 EmptyString "x" = BOk fields_tree.
Proof. vm_compute. reflexivity. Qed.
Example C102_case_hyps : sort_ok sort_nodes /\ wf more_tree /\ linked_below more_tree /\ blocks_inside more_tree /\
  ~ covers (n_at more_tree) 0x104 /\
  (exists n c, get more_tree [1; 1]%nat = Some n /\ a_addr (n_at n) = 0x120 /\ a_size (n_at n) = 8 /\ a_mode (n_at n) = INCREMENTAL /\
     node_op (n_at n) (NReadBlockOffset 3 5) = inr c /\ touched c = [0x125; 0x126; 0x127]) /\
  report_bus_error (Some more_tree) READ 0x125 2 = BRaised "node ""TOP.sub.mem""" /\ report_bus_error (Some more_tree) NI_READ 0x80 2 = BRaised "node ""TOP.port""".
Proof.
  split; [apply sort_nodes_ok|]. destruct (C31_built_trees _ _ _ _ _ sort_nodes_ok _ _ _ _ more_built) as (W & L).
  split; [exact W|]. split; [exact L|]. split; [apply blocks_inside_check; vm_compute; reflexivity|].
  split; [intros []|]. split; [|vm_compute; split; reflexivity]. do 2 eexists. split; [reflexivity|]. repeat split.
Qed.
(** The root is a register with fields. *)
Example C102_ends_case : wf fields_tree /\ linked_below fields_tree /\ blocks_inside fields_tree /\ covers (n_at fields_tree) (error_address RMW_BITS 0x10 0) /\
  exists p n, p <> [] /\ get fields_tree p = Some n /\ covers (n_at n) (error_address RMW_BITS 0x10 0).
Proof.
  destruct (C31_built_trees _ _ _ _ _ sort_nodes_ok _ _ _ _ fields_built) as (W & L). split; [exact W|]. split; [exact L|].
  split; [apply blocks_inside_check; vm_compute; reflexivity|]. split; [reflexivity|].
  exists [1%nat]. eexists. split; [discriminate|]. split; reflexivity.
Qed.

Print Assumptions C102_text.
Print Assumptions C102_failed_word.
Print Assumptions C102_ends_partial.
Print Assumptions C102_own_partial.
Print Assumptions C102_built.
Print Assumptions C102_root_refuted.
Print Assumptions C102_top_refuted.
Print Assumptions C102_config_refuted.
