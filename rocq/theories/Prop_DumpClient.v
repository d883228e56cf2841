(** C121 through the client: what the script shows when its reads go through the client library,
    packets and a target. *)
From Coq Require Import NArith ZArith List Bool String Ascii Lia ZifyBool ZifyNat ZifyN.
From Verif Require Import Word Header ValMem Client Validate Target Spec System E2E Prop_E2E NodeTree NodeProofs Prop_Node RegDump Prop_RegDump.
Import ListNotations.
Open Scope N_scope.

(** The calls that the script makes on the client. *)
Definition script_calls (keep : string -> bool) (t : node) (p : list nat) : list op :=
  match get t p, names_matching keep t p with
  | Some n, Some l => match queue n (ssort l) with inr a => map snd a | inl _ => [] end
  | _, _ => []
  end.

Section Device.
(** A device whose registers are not changed by being read. *)
Variable D : Type.
Variable mem : D -> N -> N.
Variable wr : D -> N -> N -> D.
Variable cf : D -> N -> D * N.

Lemma direct_reads v d a : (forall x o, In (x, o) a -> exists b m, o = ORead b m) ->
  exists l cells, direct D (fun d x => (d, mem d x)) wr cf v d (map snd a) = (d, cells) /\
    dispatch (fun x => Some (mem d x)) a = Values l /\ map word_value cells = map (fun e => Some (snd e)) l.
Proof.
  induction a as [|(x, o) a IH]; intros H; cbn [map snd direct dispatch]; [exists [], []; auto|].
  destruct (H x o (or_introl eq_refl)) as (b & m & ->). destruct IH as (l & cells & E & S & M); [intros y q I; apply (H y q); right; exact I|].
  cbn [direct_op answer word_value]. rewrite E, S. eexists _, _. split; [reflexivity|]. split; [reflexivity|]. cbn [map word_value snd]. rewrite M. reflexivity.
Qed.
End Device.

(** C121, end to end: whatever the schedule, when the dispatch that follows the script's calls
    returns, the device is as it was, and the values of the handles, in their order, are those that
    the script shows for a memory with the contents of the device. *)
Theorem C121_client : forall D mem wr cf g (d0 : D) keep t p n ls y,
  wf t -> distinct_ids t -> linked_below t -> get t p = Some n -> usable n -> cfg_ok g ->
  calls ls = script_calls keep t p ->
  run D (fun d a => (d, mem d a)) wr cf g (init_sys D d0) (ls ++ [LReturn]) = Some y ->
  y_dev D y = d0 /\ y_bad D y = false /\
  exists l, snapshot keep (fun a => Some (mem d0 a)) t p = Values l /\
    map word_value (s_heap (y_c D y)) = map (fun e => Some (snd e)) l.
Proof.
  intros D mem wr cf g d0 keep t p n ls y W DI L G U GO C R.
  assert (Wn := wf_get _ _ _ W G). assert (Dn := distinct_get _ _ _ DI G). assert (Ln := linked_below_get _ _ _ L G).
  destruct (names_ok t p n W DI L G) as (l & E & ND & I). unfold script_calls, snapshot, names_matching in *. rewrite G, E in *. cbn [option_map] in *.
  set (k := ssort (ssort (filter keep l))) in *.
  assert (PK : Permutation.Permutation (filter keep l) k) by (unfold k; rewrite <- !ssort_perm; reflexivity).
  assert (NK : NoDup k) by (apply (Permutation.Permutation_NoDup PK), NoDup_filter, ND).
  assert (IK : forall x, In x k -> exists m, node_below n x m).
  { intros x X. apply I. apply (Permutation.Permutation_in _ (Permutation.Permutation_sym PK)), filter_In in X. apply X. }
  destruct (queue_ok n k Wn Dn Ln U NK IK) as (a & EQ & (_ & RD) & _ & _). rewrite EQ in *.
  assert (RO : forall x o, In (x, o) a -> exists b m, o = ORead b m) by (intros x o X; apply RD in X; destruct X as (m & _ & ->); eauto).
  assert (F : Forall op_ok (calls ls)).
  { rewrite C, Forall_forall. intros o O. apply in_map_iff in O. destruct O as ((x & o') & X & O). cbn [snd] in X. subst o'. destruct (RO x o O) as (b & m & ->). exact Logic.I. }
  destruct (C14_end_to_end D _ wr cf g d0 ls y GO F R) as (X & _ & B). rewrite C in X.
  destruct (direct_reads D mem wr cf (g_ver g) d0 a RO) as (v & cells & Y & S & M). rewrite Y in X. injection X as X1 X2.
  split; [exact X1|]. split; [exact B|]. exists v. split; [exact S|]. rewrite X2. exact M.
Qed.

(** ** Example *)

(** The two registers of the group, each in a packet of its own or both in one. *)
Definition gap_ls : list label := [LOp (ORead 0x28 0xF0); LOp (ORead 0x24 NOMASK); LDispatch; LTarget; LReply].
Definition gap_cfg : cfg := mkCfg V2 1024 1024 None.
Definition gap_words (d : N) (a : N) : N := if a =? 0x28 then d + 0x30 else d.
Example C121_client_ex : exists y, run N (fun d a => (d, gap_words d a)) (fun d _ _ => d) (fun d _ => (d, 0)) gap_cfg (init_sys N 5) (gap_ls ++ [LReturn]) = Some y /\
  calls gap_ls = script_calls (fun _ => true) gap_tree [0%nat] /\ y_dev N y = 5 /\
  exists l, snapshot (fun _ => true) (fun a => Some (gap_words 5 a)) gap_tree [0%nat] = Values l /\
    map word_value (s_heap (y_c N y)) = map (fun e => Some (snd e)) l /\ l = [("ctrl"%string, 3); ("status"%string, 5)].
Proof.
  destruct (run N (fun d a => (d, gap_words d a)) (fun d _ _ => d) (fun d _ => (d, 0)) gap_cfg (init_sys N 5) (gap_ls ++ [LReturn])) as [y|] eqn:E; [|vm_compute in E; discriminate E].
  exists y. split; [reflexivity|]. assert (C : calls gap_ls = script_calls (fun _ => true) gap_tree [0%nat]) by (vm_compute; reflexivity). split; [exact C|].
  destruct gap_wf as (A & B & L).
  destruct (C121_client N gap_words (fun d _ _ => d) (fun d _ => (d, 0)) gap_cfg 5 (fun _ => true) gap_tree [0%nat] gap_sub gap_ls y A B L eq_refl) as (X & _ & l & S & M).
  - intros path m I. exact (gap_usable _ m (nb_deeper gap_tree gap_sub path m (or_introl eq_refl) I)).
  - unfold cfg_ok; cbn; repeat split; try lia; discriminate.
  - exact C.
  - exact E.
  - split; [exact X|]. exists l. split; [exact S|]. split; [exact M|]. assert (V : snapshot (fun _ => true) (fun a => Some (gap_words 5 a)) gap_tree [0%nat] = Values [("ctrl"%string, 3); ("status"%string, 5)]) by (vm_compute; reflexivity).
    rewrite V in S. injection S as <-. reflexivity.
Qed.

Print Assumptions C121_client.
