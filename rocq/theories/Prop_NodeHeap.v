(** C108: nodes as objects in memory. *)
From Coq Require Import List Bool PeanoNat String Lia.
From Verif Require Import NodeHeap NodeHeapSpec NodeHeapProofs.
Import ListNotations.
Open Scope nat_scope.

Section C108.
Variables (A cls : Type) (uid : A -> string) (assigned : A -> A -> A) (keep : cls -> cls) (plain : cls).
Notation krun := (krun A cls uid assigned keep plain).
Notation kstep := (kstep A cls uid assigned keep plain).
Notation empty := (empty A cls).
Notation get m x := (get A cls (m_heap A cls m) x).
Notation under m q x := (under A cls (m_heap A cls m) q x).
Notation holds m q t := (holds A cls (m_heap A cls m) q t).
Notation linked m q := (linked A cls uid (m_heap A cls m) q).

(** Whatever is done with nodes, no deleted node is used and memory is in order, unless
    a node is assigned one of its own descendants. *)
Theorem C108_runs : forall ks r, krun empty ks = Some r ->
  (exists m, r = Done m /\ sound A cls m (thrown A cls ks)) \/
  (r = Bad /\ exists ks1 q p ks2 m, ks = ks1 ++ KAssign A cls q p :: ks2 /\ krun empty ks1 = Some (Done m) /\ under m q p /\ p <> q).
Proof.
  intros ks r E. destruct (run_inv A cls uid assigned keep plain ks empty [] r (empty_inv A cls) E) as [(m & -> & HI) | H]; [left|right; exact H].
  exists m. split; [reflexivity|]. apply (sound_of A cls uid assigned keep plain). rewrite app_nil_r in HI. exact HI.
Qed.

(** When all nodes that have an owner have been deleted and no exception happened, none is left. *)
Theorem C108_freed : forall ks m, krun empty ks = Some (Done m) -> m_own A cls m = [] -> thrown A cls ks = [] -> forall x, get m x = None.
Proof.
  intros ks m E Ho Ht x. pose proof (sound_of A cls uid assigned keep plain m _ (reach_inv A cls uid assigned keep plain ks m E)) as HS.
  destruct (get m x) as [o|] eqn:Ex; [|reflexivity]. destruct (s_owner _ _ _ _ HS x o Ex) as (r & Hr & _). rewrite Ho, Ht in Hr. destruct Hr.
Qed.

(** delete: the node and its descendants, and nothing else. *)
Theorem C108_delete : forall ks m p, krun empty ks = Some (Done m) -> In p (m_own A cls m) ->
  exists m', kstep m (KDelete A cls p) = Some (Done m') /\ m_own A cls m' = drop p (m_own A cls m) /\
    (forall x, under m p x -> get m' x = None) /\ (forall x, ~ under m p x -> get m' x = get m x).
Proof.
  intros ks m p E Hp. pose proof (reach_inv A cls uid assigned keep plain ks m E) as HI.
  destruct (own_live A cls uid assigned keep plain _ _ p HI) as (o & Ho); [apply in_app_iff; auto|].
  eapply delete_spec; eauto.
Qed.

(** clone(): the same contents in new nodes, linked; nothing else changes. *)
Theorem C108_clone : forall ks m p o, krun empty ks = Some (Done m) -> get m p = Some o ->
  exists m' q t, kstep m (KClone A cls p) = Some (Done m') /\ m_own A cls m' = m_own A cls m ++ [q] /\
    holds m p t /\ holds m' q (classes A cls keep t) /\ linked m' q /\
    (forall x o, get m x = Some o -> get m' x = Some o) /\ (forall x, under m' q x -> get m x = None).
Proof.
  intros ks m p o E Ho. eapply clone_spec; [|exact Ho]. eapply reach_inv; eauto.
Qed.

(** convertToClassType: the same, and the old nodes are deleted. *)
Theorem C108_convert : forall ks m p o c, krun empty ks = Some (Done m) -> In p (m_own A cls m) -> get m p = Some o ->
  exists m' q ts, kstep m (KConvert A cls p c) = Some (Done m') /\ m_own A cls m' = drop p (m_own A cls m) ++ [q] /\
    holds m p (Tr A cls (o_at A cls o) (o_class A cls o) ts) /\ holds m' q (Tr A cls (o_at A cls o) c (map (classes A cls keep) ts)) /\ linked m' q /\
    (forall x, under m p x -> get m' x = None) /\ (forall x o, get m x = Some o -> under m p x \/ get m' x = Some o) /\
    (forall x, under m' q x -> get m x = None).
Proof.
  intros ks m p o c E Hp Ho. eapply convert_spec; [|exact Hp|exact Ho]. eapply reach_inv; eauto.
Qed.

(** operator= for two nodes neither of which is a descendant of the other. *)
Theorem C108_assign_partial : forall ks m q p o s, krun empty ks = Some (Done m) -> get m q = Some o -> get m p = Some s -> ~ under m q p -> ~ under m p q ->
  exists m' ts, kstep m (KAssign A cls q p) = Some (Done m') /\ m_own A cls m' = m_own A cls m /\
    holds m p (Tr A cls (o_at A cls s) (o_class A cls s) ts) /\
    holds m' q (Tr A cls (assigned (o_at A cls o) (o_at A cls s)) (o_class A cls o) (map (classes A cls keep) ts)) /\ linked m' q /\
    (forall x, under m q x -> x <> q -> get m' x = None) /\ (forall x o, get m x = Some o -> under m q x \/ get m' x = Some o).
Proof.
  intros ks m q p o s E. eapply assign_spec. eapply reach_inv; eauto.
Qed.

(** A node that is assigned to itself loses its children. *)
Theorem C108_self_refuted : forall ks m q o, krun empty ks = Some (Done m) -> get m q = Some o ->
  exists m' o', kstep m (KAssign A cls q q) = Some (Done m') /\ get m' q = Some o' /\ o_kids A cls o' = [] /\
    (forall x, under m q x -> x <> q -> get m' x = None).
Proof.
  intros ks m q o E. eapply self_spec. eapply reach_inv; eauto.
Qed.

(** A descendant that is assigned to a node is used after it was deleted. *)
Theorem C108_descendant_refuted : forall ks m q p, krun empty ks = Some (Done m) -> under m q p -> p <> q ->
  (exists o, get m q = Some o) -> kstep m (KAssign A cls q p) = Some Bad.
Proof.
  intros ks m q p E Hu Hn (o & Ho). pose proof (reach_inv A cls uid assigned keep plain ks m E) as HI.
  assert (Hp : exists s, get m p = Some s).
  { destruct Hu as [|x ox k _ Hx Hk]; [congruence|]. destruct (s_kids _ _ _ _ (sound_of A cls uid assigned keep plain m _ HI) x ox Hx) as (_ & H).
    destruct (H k Hk) as (_ & c & Hc & _). eauto. }
  destruct Hp as (s & Hs). assert (Ek : exists r, kstep m (KAssign A cls q p) = Some r).
  { cbn [NodeHeap.kstep]. unfold live. rewrite Ho, Hs. cbn [andb]. eauto. }
  destruct Ek as (r & Ek). rewrite Ek. destruct (step_inv A cls uid assigned keep plain m _ _ r HI Ek) as [(m' & _ & _ & H) | (-> & _)]; [exfalso|reflexivity].
  apply (H q p eq_refl). apply (strictly_under A cls uid assigned keep plain _ _ q p o HI Ho). auto.
Qed.

(** A node that an exception left without an owner is never deleted. *)
Theorem C108_leak_refuted : forall ks m p, krun empty ks = Some (Done m) -> In p (thrown A cls ks) -> exists o, get m p = Some o.
Proof.
  intros ks m p E Hp. pose proof (reach_inv A cls uid assigned keep plain ks m E) as HI.
  apply (own_live A cls uid assigned keep plain _ _ p HI). apply in_app_iff. auto.
Qed.
End C108.

(** A tree with three children, copied, converted, assigned, deleted.  Class 1 has its own clone(), class 2 has not. *)
Definition att := (string * nat)%type.
Definition kp (c : nat) : nat := if Nat.eqb c 2 then 0 else c.
Notation run' := (krun att nat fst (fun _ n => n) kp 0 (empty att nat)).
Definition build : list (kcmd att nat) :=
  [KNew _ _ ("top"%string, 0); KNew _ _ ("a"%string, 5); KNew _ _ ("b"%string, 3); KNew _ _ ("c"%string, 4);
   KConvert _ _ 2 1; KConvert _ _ 3 2; KAdd _ _ 4 [5]; KAdd _ _ 0 [1; 4]; KParents _ _ 0; KSort _ _ 0 [4; 1]; KSet _ _ 1 ("a"%string, 6)].
Definition built := [Some (mkO att nat ("top"%string, 0) 0 None [4; 1] [("a"%string, 1); ("b"%string, 4)]);
                     Some (mkO _ _ ("a"%string, 6) 0 (Some 0) [] []); None; None;
                     Some (mkO _ _ ("b"%string, 3) 1 (Some 0) [5] [("c"%string, 5)]); Some (mkO _ _ ("c"%string, 4) 2 (Some 4) [] [])].

Example C108_case_built : run' build = Some (Done (mkMem att nat built [0])) /\ thrown _ _ build = [].
Proof. vm_compute. auto. Qed.

(** Its copy: the node of class 2 becomes one of class 0. *)
Example C108_case_clone :
  run' (build ++ [KClone _ _ 0]) = Some (Done (mkMem att nat (built ++
    [Some (mkO _ _ ("top"%string, 0) 0 None [7; 9] [("b"%string, 7); ("a"%string, 9)]);
     Some (mkO _ _ ("b"%string, 3) 1 (Some 6) [8] [("c"%string, 8)]); Some (mkO _ _ ("c"%string, 4) 0 (Some 7) [] []);
     Some (mkO _ _ ("a"%string, 6) 0 (Some 6) [] [])]) [0; 6])).
Proof. vm_compute. reflexivity. Qed.

(** All deleted. *)
Example C108_case_freed : run' (build ++ [KClone _ _ 0; KAssign _ _ 6 4; KConvert _ _ 0 1; KDelete _ _ 6; KDelete _ _ 11]) =
  Some (Done (mkMem att nat (repeat None 15) [])).
Proof. vm_compute. reflexivity. Qed.

(** The children "b" and "a" of the node that is converted; the owner of a copy is assigned "b". *)
Example C108_case_convert : exists m, run' (build ++ [KClone _ _ 0; KAssign _ _ 6 4; KConvert _ _ 0 1]) = Some (Done m) /\ m_own _ _ m = [6; 11] /\
  get att nat (m_heap _ _ m) 6 = Some (mkO _ _ ("b"%string, 3) 0 None [10] [("c"%string, 10)]) /\
  get att nat (m_heap _ _ m) 0 = None /\ get att nat (m_heap _ _ m) 11 = Some (mkO _ _ ("top"%string, 0) 1 None [12; 14] [("b"%string, 12); ("a"%string, 14)]).
Proof. eexists. split; [vm_compute; reflexivity|]. vm_compute. auto. Qed.

(** Self-assignment, assignment of a descendant, a node lost. *)
Example C108_case_self : exists m, run' (build ++ [KAssign _ _ 0 0]) = Some (Done m) /\
  m_heap _ _ m = [Some (mkO att nat ("top"%string, 0) 0 None [] []); None; None; None; None; None].
Proof. eexists. split; vm_compute; reflexivity. Qed.
Example C108_case_descendant : run' (build ++ [KAssign _ _ 0 5]) = Some Bad /\ under att nat built 0 5.
Proof.
  split; [vm_compute; reflexivity|]. eapply Under_kid with (x := 4); [eapply Under_kid with (x := 0); [constructor|reflexivity|cbn; auto]|reflexivity|cbn; auto].
Qed.
Example C108_case_leak : run' (build ++ [KThrow _ _ 0]) = Some (Done (mkMem att nat built [])) /\ thrown _ _ (build ++ [KThrow _ _ 0]) = [0].
Proof. vm_compute. auto. Qed.
(** A parent is assigned to its child: this is safe. *)
Example C108_case_parent : exists m, run' (build ++ [KAssign _ _ 4 0]) = Some (Done m) /\
  get att nat (m_heap _ _ m) 4 = Some (mkO _ _ ("top"%string, 0) 1 (Some 0) [6; 7] [("top"%string, 6); ("a"%string, 7)]).
Proof. eexists. split; vm_compute; reflexivity. Qed.

Print Assumptions C108_runs.
Print Assumptions C108_freed.
Print Assumptions C108_delete.
Print Assumptions C108_clone.
Print Assumptions C108_convert.
Print Assumptions C108_assign_partial.
Print Assumptions C108_self_refuted.
Print Assumptions C108_descendant_refuted.
Print Assumptions C108_leak_refuted.
