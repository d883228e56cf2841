(** Proofs about nodes in memory (NodeHeap.v). *)
From Coq Require Import List Bool PeanoNat String Lia Permutation.
From Verif Require Import NodeHeap NodeHeapSpec.
Import ListNotations.
Open Scope nat_scope.

Section Proofs.
Variables (A cls : Type) (uid : A -> string).
Variable assigned : A -> A -> A.
Variable keep : cls -> cls.
Variable plain : cls.

Notation heap := (heap A cls). Notation mem := (mem A cls). Notation obj := (obj A cls).
Notation get := (get A cls). Notation put := (put A cls).
Notation O_ := (mkO A cls).
Notation push_all := (push_all A cls). Notation link := (link A cls uid). Notation link_kids := (link_kids A cls uid).
Notation copy := (copy A cls uid keep). Notation clone := (clone A cls uid keep).
Notation destroy := (destroy A cls). Notation delete := (delete A cls). Notation delete_all := (delete_all A cls).
Notation assign := (assign A cls uid assigned keep). Notation set_parents := (set_parents A cls).

(** ** Memory *)
Lemma put_length (h : heap) p x : p < List.length h -> List.length (put h p x) = List.length h.
Proof.
  intros Hp. unfold NodeHeap.put. rewrite app_length, firstn_length. cbn [List.length]. rewrite skipn_length. lia.
Qed.

Lemma get_lt (h : heap) p o : get h p = Some o -> p < List.length h.
Proof.
  unfold NodeHeap.get. intros H. destruct (nth_error h p) eqn:E; [|discriminate]. apply nth_error_Some. congruence.
Qed.

Lemma get_put (h : heap) p x q : p < List.length h -> get (put h p x) q = if Nat.eqb q p then x else get h q.
Proof.
  intros Hp. unfold NodeHeap.get, NodeHeap.put.
  assert (Hf : List.length (firstn p h) = p) by (rewrite firstn_length; lia).
  destruct (Nat.eqb_spec q p) as [-> | Hn].
  - rewrite nth_error_app2 by lia. rewrite Hf, Nat.sub_diag. reflexivity.
  - destruct (Nat.lt_ge_cases q p) as [Hl|Hl].
    + rewrite nth_error_app1 by lia. rewrite <- (firstn_skipn p h) at 2. rewrite nth_error_app1 by lia. reflexivity.
    + rewrite nth_error_app2 by lia. rewrite Hf. destruct (q - p) as [|d] eqn:Ed; [lia|]. cbn [nth_error].
      rewrite <- (firstn_skipn (S p) h) at 2. rewrite nth_error_app2 by (rewrite firstn_length; lia).
      rewrite firstn_length. replace (q - Nat.min (S p) (List.length h)) with d by lia. reflexivity.
Qed.

Lemma get_put_same (h : heap) p x : p < List.length h -> get (put h p x) p = x.
Proof. intros H. rewrite get_put by exact H. rewrite Nat.eqb_refl. reflexivity. Qed.
Lemma get_put_other (h : heap) p x q : p < List.length h -> q <> p -> get (put h p x) q = get h q.
Proof. intros H Hn. rewrite get_put by exact H. destruct (Nat.eqb_spec q p); congruence. Qed.

Lemma get_app_l (h g : heap) p : p < List.length h -> get (h ++ g) p = get h p.
Proof. intros H. unfold NodeHeap.get. rewrite nth_error_app1 by exact H. reflexivity. Qed.
Lemma get_app_new (h : heap) x : get (h ++ [x]) (List.length h) = x.
Proof. unfold NodeHeap.get. rewrite nth_error_app2 by lia. rewrite Nat.sub_diag. reflexivity. Qed.

(** ** Trees with the addresses of their nodes *)
Inductive ltree := L (p : ptr) (a : A) (c : cls) (lk : bool) (m : list (string * ptr)) (ks : list ltree).

Definition ltree_ind2 (P : ltree -> Prop) (H : forall p a c lk m ks, Forall P ks -> P (L p a c lk m ks)) : forall t, P t :=
  fix go t := match t with
    | L p a c lk m ks => H p a c lk m ks
        ((fix all l : Forall P l := match l with [] => Forall_nil P | x :: r => Forall_cons x (go x) (all r) end) ks)
    end.

Definition lptr t := match t with L p _ _ _ _ _ => p end.
Definition lat t := match t with L _ a _ _ _ _ => a end.
Fixpoint labels t : list ptr := match t with L p _ _ _ _ ks => p :: flat_map labels ks end.
Fixpoint er t : tree A cls := match t with L _ a c _ _ ks => Tr A cls a c (map er ks) end.
Definition setlk (b : bool) t := match t with L p a c _ m ks => L p a c b m ks end.

Fixpoint in_heap (h : heap) (par : option ptr) (t : ltree) : Prop :=
  match t with
  | L p a c lk m ks =>
      get h p = Some (O_ a c (if lk then par else None) (map lptr ks) m) /\ incl (map snd m) (map lptr ks) /\
      (fix all l := match l with [] => True | x :: r => in_heap h (Some p) x /\ all r end) ks
  end.

Lemma in_heap_eq h par p a c lk m ks :
  in_heap h par (L p a c lk m ks) <->
  get h p = Some (O_ a c (if lk then par else None) (map lptr ks) m) /\ incl (map snd m) (map lptr ks) /\ Forall (in_heap h (Some p)) ks.
Proof.
  cbn [in_heap]. assert (E : forall l, (fix all l := match l with [] => True | x :: r => in_heap h (Some p) x /\ all r end) l <-> Forall (in_heap h (Some p)) l).
  { induction l as [|x r IH]; [split; [constructor|trivial]|]. rewrite Forall_cons_iff, IH. tauto. }
  rewrite E. tauto.
Qed.

Lemma lptr_in t : In (lptr t) (labels t).
Proof. destruct t. left. reflexivity. Qed.
Lemma setlk_ptr b t : lptr (setlk b t) = lptr t. Proof. destruct t; reflexivity. Qed.
Lemma setlk_at b t : lat (setlk b t) = lat t. Proof. destruct t; reflexivity. Qed.
Lemma setlk_labels b t : labels (setlk b t) = labels t. Proof. destruct t; reflexivity. Qed.
Lemma setlk_er b t : er (setlk b t) = er t. Proof. destruct t; reflexivity. Qed.

Lemma labels_sub t k : forall ks, In t ks -> In k (labels t) -> In k (flat_map labels ks).
Proof. intros ks H1 H2. apply in_flat_map. eauto. Qed.

Lemma in_heap_live h par t : in_heap h par t -> forall p, In p (labels t) -> exists o, get h p = Some o.
Proof.
  revert par. induction t as [p a c lk m ks IH] using ltree_ind2. intros par H x Hx.
  apply in_heap_eq in H. destruct H as (Hg & _ & Hk). destruct Hx as [<- | Hx]; [eauto|].
  apply in_flat_map in Hx. destruct Hx as (t & Ht & Hx). rewrite Forall_forall in IH, Hk. eapply IH; eauto.
Qed.

Lemma in_heap_lt h par t : in_heap h par t -> forall p, In p (labels t) -> p < List.length h.
Proof. intros H p Hp. destruct (in_heap_live _ _ _ H p Hp) as (o & Ho). eapply get_lt; eauto. Qed.

Lemma in_heap_frame h h' par t : (forall p, In p (labels t) -> get h' p = get h p) -> in_heap h par t -> in_heap h' par t.
Proof.
  revert par. induction t as [p a c lk m ks IH] using ltree_ind2. intros par Hf H.
  apply in_heap_eq in H. destruct H as (Hg & Hi & Hk). apply in_heap_eq. split; [|split].
  - rewrite Hf; [exact Hg|left; reflexivity].
  - exact Hi.
  - rewrite Forall_forall in *. intros t Ht. apply IH; auto. intros x Hx. apply Hf. right. eapply labels_sub; eauto.
Qed.

Lemma forest_frame h h' par ts : (forall p, In p (flat_map labels ts) -> get h' p = get h p) -> Forall (in_heap h par) ts -> Forall (in_heap h' par) ts.
Proof.
  intros Hf H. rewrite Forall_forall in *. intros t Ht. eapply in_heap_frame; [|exact (H t Ht)]. intros p Hp. apply Hf. eapply labels_sub; eauto.
Qed.

Lemma in_heap_root h par t : in_heap h par t -> exists o, get h (lptr t) = Some o /\ o_at _ _ o = lat t.
Proof. destruct t. intros H. apply in_heap_eq in H. destruct H as (Hg & _). eexists. split; [exact Hg|reflexivity]. Qed.

Lemma in_heap_setlk h h' q par t :
  (forall p, In p (labels t) -> p <> lptr t -> get h' p = get h p) ->
  (forall o, get h (lptr t) = Some o -> get h' (lptr t) = Some (with_parent _ _ o (Some q))) ->
  NoDup (labels t) ->
  in_heap h par t -> in_heap h' (Some q) (setlk true t).
Proof.
  destruct t as [p a c lk m ks]. cbn [lptr setlk]. intros Hf Hg Hn H. apply in_heap_eq in H. destruct H as (H1 & H2 & H3).
  apply in_heap_eq. split; [|split]; [|exact H2|].
  - rewrite (Hg _ H1). reflexivity.
  - inversion Hn as [|? ? Hn1 Hn2]; subst. eapply forest_frame; [|exact H3]. intros x Hx. apply Hf; [right; exact Hx|]. intros ->. auto.
Qed.

(** The size of a tree: its nodes are in memory once. *)
Lemma size_le h par t : in_heap h par t -> NoDup (labels t) -> List.length (labels t) <= List.length h.
Proof.
  intros H Hn. rewrite <- (seq_length (List.length h) 0). apply NoDup_incl_length; [exact Hn|].
  intros p Hp. apply in_seq. pose proof (in_heap_lt _ _ _ H p Hp). lia.
Qed.

Lemma size_kid ks (t : ltree) : In t ks -> List.length (labels t) <= List.length (flat_map labels ks).
Proof.
  induction ks as [|x r IH]; [intros []|]. intros [<- | H]; cbn [flat_map]; rewrite app_length; [lia|]. specialize (IH H). lia.
Qed.

Lemma NoDup_app_remove_l {T} (l1 l2 : list T) : NoDup (l1 ++ l2) -> NoDup l2.
Proof. induction l1 as [|x l IH]; [trivial|]. intros H. inversion H; subst. auto. Qed.
Lemma NoDup_app_remove_r {T} (l1 l2 : list T) : NoDup (l1 ++ l2) -> NoDup l1.
Proof.
  induction l1 as [|x l IH]; [constructor|]. intros H. inversion H as [|? ? H1 H2]; subst. constructor; auto.
  intros Hx. apply H1. apply in_app_iff. auto.
Qed.

Lemma NoDup_kid ks (t : ltree) : NoDup (flat_map labels ks) -> In t ks -> NoDup (labels t).
Proof.
  induction ks as [|x r IH]; [intros _ []|]. cbn [flat_map]. intros Hn [<- | H].
  - eapply NoDup_app_remove_r; eauto.
  - apply IH; auto. eapply NoDup_app_remove_l; eauto.
Qed.

Lemma NoDup_app_in {T} (l1 l2 : list T) x : NoDup (l1 ++ l2) -> In x l1 -> In x l2 -> False.
Proof.
  induction l1 as [|y l IH]; [intros _ []|]. cbn [app]. intros Hn [<- | H] H2; inversion Hn; subst.
  - apply H1. apply in_app_iff. auto.
  - eauto.
Qed.

Lemma NoDup_app_mk {T} (l1 l2 : list T) : NoDup l1 -> NoDup l2 -> (forall x, In x l1 -> In x l2 -> False) -> NoDup (l1 ++ l2).
Proof.
  induction l1 as [|y l IH]; [intros _ H _; exact H|]. cbn [app]. intros H1 H2 Hd. inversion H1; subst. constructor.
  - rewrite in_app_iff. intros [H | H]; [auto|]. eapply Hd; [left; reflexivity|exact H].
  - apply IH; auto. intros x Hx. apply Hd. right. exact Hx.
Qed.

Lemma NoDup_roots ts : NoDup (flat_map labels ts) -> NoDup (map lptr ts).
Proof.
  induction ts as [|x r IH]; [constructor|]. cbn [flat_map map]. intros Hn. constructor.
  - intros H. apply in_map_iff in H. destruct H as (y & Ey & Hy). eapply NoDup_app_in; [exact Hn|apply lptr_in|].
    rewrite <- Ey. eapply labels_sub; [exact Hy|apply lptr_in].
  - apply IH. eapply NoDup_app_remove_l; eauto.
Qed.

(** ** Copies *)
Definition ins1 (m : list (string * ptr)) t := insert m (uid (lat t)) (lptr t).
Definition canon (ts : list ltree) : list (string * ptr) := fold_left ins1 ts [].

Fixpoint tidy (t : ltree) : Prop :=
  match t with
  | L p a c lk m ks =>
      m = canon ks /\ (fix all l := match l with [] => True | x :: r => (setlk true x = x /\ tidy x) /\ all r end) ks
  end.
Lemma tidy_eq p a c lk m ks : tidy (L p a c lk m ks) <-> m = canon ks /\ Forall (fun x => setlk true x = x /\ tidy x) ks.
Proof.
  cbn [tidy]. assert (E : forall l, (fix all l := match l with [] => True | x :: r => (setlk true x = x /\ tidy x) /\ all r end) l <-> Forall (fun x => setlk true x = x /\ tidy x) l).
  { induction l as [|x r IH]; [split; [constructor|trivial]|]. rewrite Forall_cons_iff, IH. tauto. }
  rewrite E. tauto.
Qed.

Lemma tidy_setlk b t : tidy t -> tidy (setlk b t).
Proof. destruct t. intros H. exact H. Qed.

Lemma setlk_twice b b' t : setlk b (setlk b' t) = setlk b t. Proof. destruct t; reflexivity. Qed.

Lemma canon_setlk b ts : canon (map (setlk b) ts) = canon ts.
Proof.
  unfold canon. generalize (@nil (string * ptr)). induction ts as [|x r IH]; intros m; [reflexivity|]. cbn [map fold_left].
  unfold ins1 at 2 4. rewrite setlk_at, setlk_ptr. apply IH.
Qed.

Lemma insert_incl m i p l : incl (map snd m) l -> In p l -> incl (map snd (insert m i p)) l.
Proof.
  intros H Hp. unfold insert. destruct (existsb _ m); [exact H|]. rewrite map_app. cbn [map snd]. intros x Hx.
  apply in_app_iff in Hx. destruct Hx as [Hx|[<- |[]]]; auto.
Qed.

Lemma canon_incl ts : incl (map snd (canon ts)) (map lptr ts).
Proof.
  unfold canon. assert (G : forall r m l, incl (map snd m) l -> incl (map lptr r) l -> incl (map snd (fold_left ins1 r m)) l).
  { induction r as [|x r IH]; intros m l Hm Hr; [exact Hm|]. cbn [fold_left]. apply IH.
    - apply insert_incl; [exact Hm|]. apply Hr. left. reflexivity.
    - intros y Hy. apply Hr. right. exact Hy. }
  apply G; [intros x []|apply incl_refl].
Qed.

Record copied (h h' : heap) (f : tree A cls -> tree A cls) (t t' : ltree) : Prop := mkCopied {
  cp_ptr : lptr t' = List.length h;
  cp_len : List.length h <= List.length h';
  cp_labels : labels t' = seq (List.length h) (List.length h' - List.length h);
  cp_old : forall p, p < List.length h -> get h' p = get h p;
  cp_heap : in_heap h' None t';
  cp_er : er t' = f (er t);
  cp_tidy : tidy t'
}.

Definition kept := classes A cls keep.

Lemma push_ok (cl : heap -> ptr -> res (heap * ptr)) (P : ltree -> Prop) :
  (forall h par t, P t -> in_heap h par t -> exists h' t', cl h (lptr t) = Done (h', lptr t') /\ copied h h' kept t t') ->
  forall ts h q o par, get h q = Some o ->
  Forall (fun t => P t /\ in_heap h par t /\ ~ In q (labels t)) ts ->
  exists h' ts', push_all cl h q (map lptr ts) = Done h' /\ List.length h <= List.length h' /\
    flat_map labels ts' = seq (List.length h) (List.length h' - List.length h) /\
    (forall p, p < List.length h -> p <> q -> get h' p = get h p) /\
    get h' q = Some (with_kids _ _ o (o_kids _ _ o ++ map lptr ts')) /\
    Forall (in_heap h' None) ts' /\ map er ts' = map (fun t => kept (er t)) ts /\ Forall tidy ts'.
Proof.
  intros Hcl. induction ts as [|t r IH]; intros h q o par Hq H.
  - exists h, []. cbn [map flat_map NodeHeap.push_all]. rewrite Nat.sub_diag, app_nil_r. repeat split; auto.
    rewrite Hq. destruct o; reflexivity.
  - apply Forall_cons_iff in H. destruct H as ((HP & Ht & Hnq) & Hr).
    destruct (Hcl h par t HP Ht) as (h1 & t1 & E1 & C1). destruct C1 as [C1 C2 C3 C4 C5 C6 C7].
    pose proof (get_lt _ _ _ Hq) as Hqlt.
    assert (Hq1 : get h1 q = Some o) by (rewrite C4 by exact Hqlt; exact Hq).
    set (o1 := with_kids A cls o (o_kids A cls o ++ [lptr t1])).
    set (h2 := put h1 q (Some o1)).
    assert (Hq1lt : q < List.length h1) by lia.
    assert (Hl2 : List.length h2 = List.length h1) by (apply put_length; exact Hq1lt).
    assert (Hg2 : get h2 q = Some o1) by (apply get_put_same; exact Hq1lt).
    assert (Ho2 : forall p, p <> q -> get h2 p = get h1 p) by (intros p Hp; apply get_put_other; assumption).
    destruct (IH h2 q o1 par Hg2) as (h' & ts' & E2 & D1 & D2 & D3 & D4 & D5 & D6 & D7).
    { rewrite Forall_forall in *. intros x Hx. destruct (Hr x Hx) as (G1 & G2 & G3). split; [exact G1|]. split; [|exact G3].
      eapply in_heap_frame; [|exact G2]. intros p Hp. rewrite Ho2.
      - apply C4. eapply in_heap_lt; eauto.
      - intros ->. auto. }
    rewrite Hl2 in D1, D2, D3.
    exists h', (t1 :: ts'). split; [|split; [|split; [|split; [|split; [|split; [|split]]]]]].
    + cbn [map NodeHeap.push_all]. rewrite E1, Hq1. exact E2.
    + lia.
    + cbn [flat_map]. rewrite C3, D2. 
      replace (List.length h' - List.length h) with ((List.length h1 - List.length h) + (List.length h' - List.length h1)) by lia.
      rewrite seq_app. replace (List.length h + (List.length h1 - List.length h)) with (List.length h1) by lia. reflexivity.
    + intros p Hp Hpq. rewrite D3 by lia || assumption. rewrite Ho2 by exact Hpq. apply C4. exact Hp.
    + rewrite D4. unfold o1. cbn [map]. destruct o. unfold with_kids. cbn. rewrite <- app_assoc. reflexivity.
    + constructor; [|exact D5]. eapply in_heap_frame; [|exact C5]. intros p Hp. rewrite C3 in Hp. apply in_seq in Hp.
      rewrite D3 by lia. apply Ho2. lia.
    + cbn [map]. rewrite C6, D6. reflexivity.
    + constructor; assumption.
Qed.

Lemma link_ok : forall ts h q o, get h q = Some o -> NoDup (map lptr ts) -> ~ In q (map lptr ts) ->
  Forall (fun t => exists c, get h (lptr t) = Some c /\ o_at _ _ c = lat t) ts ->
  exists h', link h q (map lptr ts) = Done h' /\ List.length h' = List.length h /\
    get h' q = Some (with_map _ _ o (fold_left ins1 ts (o_map _ _ o))) /\
    (forall p, p <> q -> ~ In p (map lptr ts) -> get h' p = get h p) /\
    (forall k c, In k (map lptr ts) -> get h k = Some c -> get h' k = Some (with_parent _ _ c (Some q))).
Proof.
  induction ts as [|t r IH]; intros h q o Hq Hn Hnq H.
  - exists h. cbn [map NodeHeap.link fold_left]. repeat split; auto; [rewrite Hq; destruct o; reflexivity|intros k c []].
  - apply Forall_cons_iff in H. destruct H as ((c & Hc & Ha) & Hr). cbn [map] in Hn, Hnq. inversion Hn as [|? ? Hn1 Hn2]; subst.
    cbn [In] in Hnq. pose proof (get_lt _ _ _ Hq) as Hql. pose proof (get_lt _ _ _ Hc) as Hcl.
    set (h1 := put h (lptr t) (Some (with_parent A cls c (Some q)))).
    assert (Hl1 : List.length h1 = List.length h) by (apply put_length; exact Hcl).
    assert (Hq1 : get h1 q = Some o) by (unfold h1; rewrite get_put_other by (auto; fail || lia || intuition congruence); exact Hq).
    set (o2 := with_map A cls o (insert (o_map A cls o) (uid (o_at A cls c)) (lptr t))).
    set (h2 := put h1 q (Some o2)).
    assert (Hl2 : List.length h2 = List.length h1) by (apply put_length; lia).
    assert (Hq2 : get h2 q = Some o2) by (apply get_put_same; lia).
    assert (Hg2 : forall p, p <> q -> p <> lptr t -> get h2 p = get h p).
    { intros p H1 H2. unfold h2. rewrite get_put_other by (lia || exact H1). unfold h1. apply get_put_other; assumption. }
    destruct (IH h2 q o2 Hq2 Hn2) as (h' & E & D1 & D2 & D3 & D4).
    { intros Hx. apply Hnq. right. exact Hx. }
    { rewrite Forall_forall in *. intros x Hx. destruct (Hr x Hx) as (cx & Hcx & Hax). exists cx. split; [|exact Hax]. rewrite Hg2; [exact Hcx| |].
      - intros E. apply Hnq. right. rewrite <- E. apply in_map. exact Hx.
      - intros E. apply Hn1. rewrite <- E. apply in_map. exact Hx. }
    exists h'. split; [|split; [|split; [|split]]].
    + cbn [map NodeHeap.link]. rewrite Hc. cbv zeta. fold h1. rewrite Hq1. exact E.
    + lia.
    + rewrite D2. unfold o2. cbn [fold_left]. unfold ins1 at 2. rewrite Ha. destruct o. reflexivity.
    + intros p H1 H2. cbn [map In] in H2. rewrite D3; [|exact H1|intros Hx; apply H2; right; exact Hx].
      apply Hg2; [exact H1|]. intros ->. apply H2. left. reflexivity.
    + intros k c' [<- | Hk] Hg.
      * rewrite D3; [|intros E2; apply Hnq; left; exact E2|exact Hn1]. unfold h2. rewrite get_put_other; [|lia|intros E2; apply Hnq; left; exact E2].
        unfold h1. rewrite get_put_same by exact Hcl. congruence.
      * apply D4; [exact Hk|]. rewrite Hg2; [exact Hg| |].
        -- intros ->. apply Hnq. right. exact Hk.
        -- intros ->. auto.
Qed.

(** The children of [q] are linked: trees. *)
Lemma link_trees ts h q o : get h q = Some o -> o_kids _ _ o = map lptr ts -> o_map _ _ o = [] ->
  NoDup (flat_map labels ts) -> ~ In q (flat_map labels ts) ->
  (exists par, Forall (in_heap h par) ts) ->
  exists h', link_kids h q = Done h' /\ List.length h' = List.length h /\
    get h' q = Some (with_map _ _ o (canon ts)) /\
    (forall p, p <> q -> ~ In p (flat_map labels ts) -> get h' p = get h p) /\
    Forall (in_heap h' (Some q)) (map (setlk true) ts).
Proof.
  intros Hq Hk Hm Hn Hnq (par & H).
  destruct (link_ok ts h q o Hq) as (h' & E & D1 & D2 & D3 & D4).
  - apply NoDup_roots. exact Hn.
  - intros Hx. apply Hnq. apply in_map_iff in Hx. destruct Hx as (t & <- & Ht). eapply labels_sub; [exact Ht|apply lptr_in].
  - rewrite Forall_forall in *. intros t Ht. eapply in_heap_root; eauto.
  - exists h'. unfold NodeHeap.link_kids. rewrite Hq, Hk. split; [exact E|]. split; [exact D1|].
    rewrite Hm in D2. split; [exact D2|]. split.
    + intros p H1 H2. apply D3; [exact H1|]. intros Hx. apply H2. apply in_map_iff in Hx. destruct Hx as (t & <- & Ht).
      eapply labels_sub; [exact Ht|apply lptr_in].
    + rewrite Forall_forall in *. intros x Hx. apply in_map_iff in Hx. destruct Hx as (t & <- & Ht).
      eapply in_heap_setlk; [| | |exact (H t Ht)].
      * intros p Hp Hpt. apply D3.
        -- intros ->. apply Hnq. eapply labels_sub; eauto.
        -- intros Hx. apply in_map_iff in Hx. destruct Hx as (t2 & Et2 & Ht2). subst p.
           assert (t2 = t \/ In (lptr t2) (labels t) /\ t2 <> t) as [-> | (Hb & Hne)].
           { destruct (in_split _ _ Ht) as (l1 & l2 & ->). apply in_app_iff in Ht2. rewrite flat_map_app in Hn. cbn [flat_map] in Hn.
             destruct Ht2 as [Ht2 | [-> | Ht2]]; [exfalso|auto|exfalso].
             - eapply NoDup_app_in; [exact Hn| |apply in_app_iff; left; exact Hp]. eapply labels_sub; [exact Ht2|apply lptr_in].
             - apply NoDup_app_remove_l in Hn. eapply NoDup_app_in; [exact Hn|exact Hp|]. eapply labels_sub; [exact Ht2|apply lptr_in]. }
           ++ congruence.
           ++ exfalso. destruct (in_split _ _ Ht) as (l1 & l2 & ->). apply in_app_iff in Ht2. rewrite flat_map_app in Hn. cbn [flat_map] in Hn.
             destruct Ht2 as [Ht2 | [-> | Ht2]]; [|auto|].
             ** eapply NoDup_app_in; [exact Hn| |apply in_app_iff; left; exact Hp]. eapply labels_sub; [exact Ht2|apply lptr_in].
             ** apply NoDup_app_remove_l in Hn. eapply NoDup_app_in; [exact Hn|exact Hp|]. eapply labels_sub; [exact Ht2|apply lptr_in].
      * intros oo Hoo. apply D4; [apply in_map; exact Ht|exact Hoo].
      * eapply NoDup_kid; eauto.
Qed.

Definition top (c : option cls) (t : tree A cls) : tree A cls :=
  match t, c with
  | Tr _ _ a _ ts, Some x => Tr A cls a x (map kept ts)
  | _, None => kept t
  end.

Lemma map_er_setlk b ts : map er (map (setlk b) ts) = map er ts.
Proof. rewrite map_map. apply map_ext. intros t. apply setlk_er. Qed.
Lemma flat_setlk b ts : flat_map labels (map (setlk b) ts) = flat_map labels ts.
Proof. induction ts as [|x r IH]; [reflexivity|]. cbn [map flat_map]. rewrite setlk_labels, IH. reflexivity. Qed.
Lemma map_ptr_setlk b ts : map lptr (map (setlk b) ts) = map lptr ts.
Proof. rewrite map_map. apply map_ext. intros t. apply setlk_ptr. Qed.

Lemma top_none t : top None t = kept t. Proof. destruct t; reflexivity. Qed.

Lemma copied_ext h h' f g t t' : (forall x, f x = g x) -> copied h h' f t t' -> copied h h' g t t'.
Proof. intros Hx [C1 C2 C3 C4 C5 C6 C7]. constructor; auto. rewrite C6. apply Hx. Qed.

Lemma copy_ok : forall f h par t c, List.length (labels t) <= f -> in_heap h par t ->
  exists h' t', copy f h (lptr t) c = Done (h', lptr t') /\ copied h h' (top c) t t'.
Proof.
  induction f as [|f IH]; intros h par t c Hs H; [destruct t; cbn [labels List.length] in Hs; lia|].
  destruct t as [p a cl lk m ks]. cbn [labels List.length] in Hs. apply in_heap_eq in H. destruct H as (Hg & _ & Hk).
  set (c' := match c with Some x => x | None => keep cl end).
  set (q := List.length h). set (n := O_ a c' None [] []). set (h1 := h ++ [Some n]).
  assert (Hl1 : List.length h1 = S q) by (unfold h1; rewrite app_length; cbn [List.length]; unfold q; lia).
  assert (Hq1 : get h1 q = Some n) by apply get_app_new.
  destruct (push_ok (fun h' k => copy f h' k None) (fun t => List.length (labels t) <= f)) with (ts := ks) (h := h1) (q := q) (o := n) (par := Some p)
    as (h2 & ts & E2 & D1 & D2 & D3 & D4 & D5 & D6 & D7).
  { intros h0 par0 t0 Ht0 Hh0. destruct (IH h0 par0 t0 None Ht0 Hh0) as (h' & t' & E & C). exists h', t'. split; [exact E|].
    eapply copied_ext; [|exact C]. apply top_none. }
  { exact Hq1. }
  { rewrite Forall_forall in *. intros t Ht. split; [pose proof (size_kid ks t Ht); lia|]. split.
    - eapply in_heap_frame; [|exact (Hk t Ht)]. intros x Hx. apply get_app_l. eapply in_heap_lt; eauto.
    - intros Hx. pose proof (in_heap_lt _ _ _ (Hk t Ht) q Hx). unfold q in *. lia. }
  rewrite Hl1 in D1, D2, D3. cbn [o_kids n app] in D4.
  assert (Hnd : NoDup (flat_map labels ts)) by (rewrite D2; apply seq_NoDup).
  assert (Hqn : ~ In q (flat_map labels ts)) by (rewrite D2; intros Hx; apply in_seq in Hx; lia).
  destruct (link_trees ts h2 q _ D4) as (h3 & E3 & F1 & F2 & F3 & F4); try assumption; try reflexivity; [eauto|].
  exists h3, (L q a c' false (canon ts) (map (setlk true) ts)). split.
  - cbn [NodeHeap.copy lptr]. rewrite Hg. cbn [o_at o_class o_kids]. cbv zeta. fold c' n q h1.
    rewrite E2, E3. reflexivity.
  - constructor.
    + reflexivity.
    + fold q. lia.
    + cbn [labels]. rewrite flat_setlk, D2, F1. fold q. replace (List.length h2 - q) with (S (List.length h2 - S q)) by lia. reflexivity.
    + fold q. intros x Hx. rewrite F3; [|lia|rewrite D2; intros Hy; apply in_seq in Hy; lia]. rewrite D3 by lia. apply get_app_l. exact Hx.
    + apply in_heap_eq. rewrite map_ptr_setlk. split; [|split].
      * rewrite F2. reflexivity.
      * apply canon_incl.
      * exact F4.
    + cbn [er]. rewrite map_er_setlk, D6. unfold c'. destruct c as [x|]; cbn [top]; [rewrite map_map; reflexivity|].
      unfold kept. cbn [classes]. rewrite map_map. reflexivity.
    + apply tidy_eq. split; [rewrite canon_setlk; reflexivity|]. rewrite Forall_forall in *. intros x Hx. apply in_map_iff in Hx.
      destruct Hx as (t & <- & Ht). split; [apply setlk_twice|]. apply tidy_setlk. auto.
Qed.

Lemma clone_ok h par t : NoDup (labels t) -> in_heap h par t -> exists h' t', clone h (lptr t) = Done (h', lptr t') /\ copied h h' kept t t'.
Proof.
  intros Hn H. destruct (copy_ok (S (List.length h)) h par t None) as (h' & t' & E & C); [|exact H|].
  - pose proof (size_le _ _ _ H Hn). lia.
  - exists h', t'. split; [exact E|]. eapply copied_ext; [|exact C]. apply top_none.
Qed.

(** ** Deletion *)
Definition dstep (f : nat) (r : res heap) (k : ptr) : res heap := match r with Done h' => destroy f h' k | x => x end.

Lemma destroy_eq f h p : destroy (S f) h p =
  match get h p with
  | None => Bad
  | Some o => match fold_left (dstep f) (o_kids _ _ o) (Done h) with Done h1 => Done (put h1 p None) | x => x end
  end.
Proof. reflexivity. Qed.

Lemma destroy_ok : forall f h par t, List.length (labels t) <= f -> NoDup (labels t) -> in_heap h par t ->
  exists h', destroy f h (lptr t) = Done h' /\ List.length h' = List.length h /\
    (forall p, In p (labels t) -> get h' p = None) /\ (forall p, ~ In p (labels t) -> get h' p = get h p).
Proof.
  induction f as [|f IH]; intros h par t Hs Hn H; [destruct t; cbn [labels List.length] in Hs; lia|].
  assert (G : forall ts h par, Forall (fun t => List.length (labels t) <= f) ts -> NoDup (flat_map labels ts) -> Forall (in_heap h par) ts ->
    exists h', fold_left (dstep f) (map lptr ts) (Done h) = Done h' /\ List.length h' = List.length h /\
      (forall p, In p (flat_map labels ts) -> get h' p = None) /\ (forall p, ~ In p (flat_map labels ts) -> get h' p = get h p)).
  { clear h par t Hs Hn H. induction ts as [|t r IHr]; intros h par Hs Hn H.
    - exists h. repeat split; auto. intros p [].
    - apply Forall_cons_iff in Hs, H. destruct Hs as (Hs & Hsr), H as (Ht & Hr). cbn [flat_map] in Hn.
      destruct (IH h par t Hs (NoDup_app_remove_r _ _ Hn) Ht) as (h1 & E1 & D1 & D2 & D3).
      destruct (IHr h1 par Hsr (NoDup_app_remove_l _ _ Hn)) as (h' & E' & F1 & F2 & F3).
      { eapply forest_frame; [|exact Hr]. intros p Hp. apply D3. intros Hx. eapply NoDup_app_in; eauto. }
      exists h'. cbn [map fold_left dstep]. rewrite E1. split; [exact E'|]. split; [lia|]. split.
      + intros p Hp. cbn [flat_map] in Hp. apply in_app_iff in Hp. destruct (in_dec Nat.eq_dec p (flat_map labels r)) as [Hx|Hx]; [auto|].
        rewrite F3 by exact Hx. apply D2. tauto.
      + intros p Hp. cbn [flat_map] in Hp. rewrite in_app_iff in Hp. rewrite F3 by tauto. apply D3. tauto. }
  destruct t as [p a cl lk m ks]. cbn [labels List.length] in Hs. cbn [labels] in Hn. inversion Hn as [|? ? Hn1 Hn2]; subst.
  apply in_heap_eq in H. destruct H as (Hg & _ & Hk).
  destruct (G ks h (Some p)) as (h1 & E1 & D1 & D2 & D3); [|exact Hn2|exact Hk|].
  { apply Forall_forall. intros t Ht. pose proof (size_kid ks t Ht). lia. }
  cbn [lptr]. rewrite destroy_eq, Hg. cbn [o_kids]. rewrite E1. exists (put h1 p None).
  pose proof (get_lt _ _ _ Hg) as Hl. split; [reflexivity|]. split; [rewrite put_length by lia; exact D1|]. cbn [labels In]. split.
  - intros x Hx. rewrite get_put by lia. destruct (Nat.eqb_spec x p); [reflexivity|]. apply D2. destruct Hx; [congruence|assumption].
  - intros x Hx. rewrite get_put_other by (lia || (intros ->; tauto)). apply D3. tauto.
Qed.

Lemma delete_ok h par t : NoDup (labels t) -> in_heap h par t ->
  exists h', delete h (lptr t) = Done h' /\ List.length h' = List.length h /\
    (forall p, In p (labels t) -> get h' p = None) /\ (forall p, ~ In p (labels t) -> get h' p = get h p).
Proof. intros Hn H. eapply destroy_ok; eauto. pose proof (size_le _ _ _ H Hn). lia. Qed.

Lemma delete_all_ok : forall ts h par, NoDup (flat_map labels ts) -> Forall (in_heap h par) ts ->
  exists h', delete_all h (map lptr ts) = Done h' /\ List.length h' = List.length h /\
    (forall p, In p (flat_map labels ts) -> get h' p = None) /\ (forall p, ~ In p (flat_map labels ts) -> get h' p = get h p).
Proof.
  induction ts as [|t r IHr]; intros h par Hn H.
  - exists h. repeat split; auto. intros p [].
  - apply Forall_cons_iff in H. destruct H as (Ht & Hr). cbn [flat_map] in Hn.
    destruct (delete_ok h par t (NoDup_app_remove_r _ _ Hn) Ht) as (h1 & E1 & D1 & D2 & D3).
    destruct (IHr h1 par (NoDup_app_remove_l _ _ Hn)) as (h' & E' & F1 & F2 & F3).
    { eapply forest_frame; [|exact Hr]. intros p Hp. apply D3. intros Hx. eapply NoDup_app_in; eauto. }
    exists h'. unfold NodeHeap.delete_all in *. cbn [map fold_left]. rewrite E1. split; [exact E'|]. split; [lia|]. split.
    + intros p Hp. cbn [flat_map] in Hp. apply in_app_iff in Hp. destruct (in_dec Nat.eq_dec p (flat_map labels r)) as [Hx|Hx]; [auto|].
      rewrite F3 by exact Hx. apply D2. tauto.
    + intros p Hp. cbn [flat_map] in Hp. rewrite in_app_iff in Hp. rewrite F3 by tauto. apply D3. tauto.
Qed.

(** ** mParent of all descendants *)
Fixpoint linkall t := match t with L p a c lk m ks => L p a c lk m (map (fun k => setlk true (linkall k)) ks) end.
Lemma linkall_ptr t : lptr (linkall t) = lptr t. Proof. destruct t; reflexivity. Qed.
Lemma linkall_labels t : labels (linkall t) = labels t.
Proof.
  induction t as [p a c lk m ks IH] using ltree_ind2. cbn [linkall labels]. f_equal. induction IH as [|x r Hx _ IHr]; [reflexivity|].
  cbn [map flat_map]. rewrite setlk_labels, Hx, IHr. reflexivity.
Qed.
Lemma linkall_setlk b t : linkall (setlk b t) = setlk b (linkall t). Proof. destruct t; reflexivity. Qed.

Definition pstep (f : nat) (p : ptr) (r : res heap) (k : ptr) : res heap :=
  match r with
  | Done h' => match get h' k with Some c => set_parents f (put h' k (Some (with_parent _ _ c (Some p)))) k | None => Bad end
  | x => x
  end.
Lemma set_parents_eq f h p : set_parents (S f) h p = match get h p with None => Bad | Some o => fold_left (pstep f p) (o_kids _ _ o) (Done h) end.
Proof. reflexivity. Qed.

Lemma set_parents_ok : forall f h par t, List.length (labels t) <= f -> NoDup (labels t) -> in_heap h par t ->
  exists h', set_parents f h (lptr t) = Done h' /\ List.length h' = List.length h /\ in_heap h' par (linkall t) /\
    (forall p, ~ In p (labels t) -> get h' p = get h p).
Proof.
  induction f as [|f IH]; intros h par t Hs Hn H; [destruct t; cbn [labels List.length] in Hs; lia|].
  assert (G : forall p ts h par, Forall (fun t => List.length (labels t) <= f) ts -> NoDup (flat_map labels ts) -> Forall (in_heap h par) ts ->
    exists h', fold_left (pstep f p) (map lptr ts) (Done h) = Done h' /\ List.length h' = List.length h /\
      Forall (in_heap h' (Some p)) (map (fun k => setlk true (linkall k)) ts) /\ (forall x, ~ In x (flat_map labels ts) -> get h' x = get h x)).
  { clear h par t Hs Hn H. intros p. induction ts as [|t r IHr]; intros h par Hs Hn H.
    - exists h. repeat split; auto. constructor.
    - apply Forall_cons_iff in Hs, H. destruct Hs as (Hs & Hsr), H as (Ht & Hr). cbn [flat_map] in Hn.
      destruct (in_heap_root _ _ _ Ht) as (o & Ho & _). pose proof (get_lt _ _ _ Ho) as Hol.
      set (h0 := put h (lptr t) (Some (with_parent A cls o (Some p)))).
      assert (Ht0 : in_heap h0 (Some p) (setlk true t)).
      { eapply in_heap_setlk; [| | |exact Ht].
        - intros x _ Hx. apply get_put_other; assumption.
        - intros o' Ho'. unfold h0. rewrite get_put_same by exact Hol. congruence.
        - eapply NoDup_app_remove_r; eauto. }
      assert (Hl0 : List.length h0 = List.length h) by (apply put_length; exact Hol).
      destruct (IH h0 (Some p) (setlk true t)) as (h1 & E1 & D1 & D2 & D3).
      { rewrite setlk_labels. exact Hs. } { rewrite setlk_labels. eapply NoDup_app_remove_r; eauto. } { exact Ht0. }
      rewrite setlk_labels in D3. rewrite setlk_ptr in E1.
      assert (Hg1 : forall x, ~ In x (labels t) -> get h1 x = get h x).
      { intros x Hx. rewrite D3 by exact Hx. apply get_put_other; [exact Hol|]. intros ->. apply Hx, lptr_in. }
      destruct (IHr h1 par Hsr (NoDup_app_remove_l _ _ Hn)) as (h' & E' & F1 & F2 & F3).
      { eapply forest_frame; [|exact Hr]. intros x Hp. apply Hg1. intros Hx. eapply NoDup_app_in; eauto. }
      exists h'. cbn [map fold_left]. unfold pstep at 2. rewrite Ho. fold h0. rewrite E1. split; [exact E'|]. split; [lia|]. split.
      + constructor; [|exact F2]. rewrite <- linkall_setlk. eapply in_heap_frame; [|exact D2].
        rewrite linkall_labels, setlk_labels. intros x Hx. apply F3. intros Hy. eapply NoDup_app_in; eauto.
      + intros x Hp. cbn [flat_map] in Hp. rewrite in_app_iff in Hp. rewrite F3 by tauto. apply Hg1. tauto. }
  destruct t as [p a cl lk m ks]. cbn [labels List.length] in Hs. cbn [labels] in Hn. inversion Hn as [|? ? Hn1 Hn2]; subst.
  apply in_heap_eq in H. destruct H as (Hg & Hi & Hk).
  destruct (G p ks h (Some p)) as (h1 & E1 & D1 & D2 & D3); [|exact Hn2|exact Hk|].
  { apply Forall_forall. intros t Ht. pose proof (size_kid ks t Ht). lia. }
  cbn [lptr]. rewrite set_parents_eq, Hg. cbn [o_kids]. exists h1. split; [exact E1|]. split; [exact D1|]. split.
  - cbn [linkall]. apply in_heap_eq. assert (Em : map lptr (map (fun k => setlk true (linkall k)) ks) = map lptr ks).
    { rewrite map_map. apply map_ext. intros t. rewrite setlk_ptr. apply linkall_ptr. }
    rewrite Em. split; [|split; assumption]. rewrite D3 by exact Hn1. exact Hg.
  - cbn [labels In]. intros x Hx. apply D3. tauto.
Qed.

(** ** A node inside a tree *)
Inductive ctx := Hole | Inside (p : ptr) (a : A) (c : cls) (lk : bool) (m : list (string * ptr)) (l : list ltree) (C : ctx) (r : list ltree).
Fixpoint plug (C : ctx) (s : ltree) : ltree :=
  match C with Hole => s | Inside p a c lk m l C r => L p a c lk m (l ++ plug C s :: r) end.
Fixpoint clabels (C : ctx) : list ptr :=
  match C with Hole => [] | Inside p _ _ _ _ l C r => p :: flat_map labels l ++ clabels C ++ flat_map labels r end.
Definition cptr (C : ctx) (q : ptr) : ptr := match C with Hole => q | Inside p _ _ _ _ _ _ _ => p end.
Fixpoint cpar (par : option ptr) (C : ctx) : option ptr := match C with Hole => par | Inside p _ _ _ _ _ C _ => cpar (Some p) C end.
Fixpoint in_ctx (h : heap) (par : option ptr) (C : ctx) (q : ptr) : Prop :=
  match C with
  | Hole => True
  | Inside p a c lk m l C r =>
      get h p = Some (O_ a c (if lk then par else None) (map lptr l ++ cptr C q :: map lptr r) m) /\
      incl (map snd m) (map lptr l ++ cptr C q :: map lptr r) /\
      Forall (in_heap h (Some p)) l /\ Forall (in_heap h (Some p)) r /\ in_ctx h (Some p) C q
  end.

Lemma plug_ptr C s : lptr (plug C s) = cptr C (lptr s). Proof. destruct C; reflexivity. Qed.

Lemma in_heap_plug h C : forall par s, in_heap h par (plug C s) <-> in_ctx h par C (lptr s) /\ in_heap h (cpar par C) s.
Proof.
  induction C as [|p a c lk m l C IH r]; intros par s; [cbn [plug in_ctx cpar]; tauto|].
  cbn [plug in_ctx cpar]. rewrite in_heap_eq, Forall_app, Forall_cons_iff, IH, map_app. cbn [map]. rewrite plug_ptr. tauto.
Qed.

Lemma labels_plug C s : Permutation (labels (plug C s)) (clabels C ++ labels s).
Proof.
  induction C as [|p a c lk m l C IH r]; [reflexivity|]. cbn [plug labels clabels app]. constructor. rewrite flat_map_app. cbn [flat_map].
  rewrite IH, <- !app_assoc. apply Permutation_app_head. apply Permutation_app_head. apply Permutation_app_comm.
Qed.

Lemma find_ctx q t : In q (labels t) -> exists C s, t = plug C s /\ lptr s = q.
Proof.
  induction t as [p a c lk m ks IH] using ltree_ind2. cbn [labels]. intros [<- | H].
  - exists Hole, (L p a c lk m ks). split; reflexivity.
  - apply in_flat_map in H. destruct H as (t & Ht & Hq). rewrite Forall_forall in IH. destruct (IH t Ht Hq) as (C & s & -> & Hs).
    destruct (in_split _ _ Ht) as (l & r & ->). exists (Inside p a c lk m l C r), s. split; [reflexivity|exact Hs].
Qed.

Lemma in_ctx_frame h h' C : forall par q, (forall p, In p (clabels C) -> get h' p = get h p) -> in_ctx h par C q -> in_ctx h' par C q.
Proof.
  induction C as [|p a c lk m l C IH r]; intros par q Hf H; [trivial|]. cbn [in_ctx clabels] in *.
  destruct H as (H1 & H2 & H3 & H4 & H5). split; [rewrite Hf by (left; reflexivity); exact H1|]. split; [exact H2|].
  split; [|split].
  - eapply forest_frame; [|exact H3]. intros x Hx. apply Hf. right. apply in_app_iff. auto.
  - eapply forest_frame; [|exact H4]. intros x Hx. apply Hf. right. rewrite !in_app_iff. auto.
  - apply IH; [|exact H5]. intros x Hx. apply Hf. right. rewrite !in_app_iff. auto.
Qed.

(** ** The whole memory *)
Definition Inv (h : heap) (R : list ptr) : Prop :=
  exists F, map lptr F = R /\ NoDup (flat_map labels F) /\ Forall (in_heap h None) F /\ (forall p o, get h p = Some o -> In p (flat_map labels F)).

Lemma flat_perm F F' : Permutation F F' -> Permutation (flat_map labels F) (flat_map labels F').
Proof. intros H. apply Permutation_flat_map. exact H. Qed.

Lemma Inv_perm h R R' : Permutation R R' -> Inv h R -> Inv h R'.
Proof.
  intros HP (F & <- & Hn & H & Hl). apply Permutation_sym in HP. apply Permutation_map_inv in HP. destruct HP as (F' & -> & HF).
  exists F'. split; [reflexivity|]. split; [|split].
  - eapply Permutation_NoDup; [apply flat_perm; exact HF|exact Hn].
  - eapply Permutation_Forall; eauto.
  - intros p o Hp. eapply Permutation_in; [apply flat_perm; exact HF|]. eauto.
Qed.

Lemma Inv_nodup h R : Inv h R -> NoDup R.
Proof. intros (F & <- & Hn & _). apply NoDup_roots. exact Hn. Qed.

Lemma focus h R q o : Inv h R -> get h q = Some o ->
  exists X par s, lptr s = q /\ in_heap h par s /\ NoDup (labels s) /\ (forall p, In p X -> ~ In p (labels s)) /\
    (forall p, In p X -> p < List.length h) /\
    (forall p o, get h p = Some o -> In p X \/ In p (labels s)) /\
    (In q R -> par = None) /\
    (forall h' s', lptr s' = q -> (forall p, In p X -> get h' p = get h p) -> in_heap h' par s' -> NoDup (labels s') ->
       (forall p, In p X -> ~ In p (labels s')) -> (forall p o, get h' p = Some o -> In p X \/ In p (labels s')) -> Inv h' R).
Proof.
  intros (F & HR & Hn & H & Hl) Hq. specialize (Hl q) as Hq'. specialize (Hq' o Hq). apply in_flat_map in Hq'.
  destruct Hq' as (t & Ht & Hqt). destruct (find_ctx q t Hqt) as (C & s & -> & Hs). destruct (in_split _ _ Ht) as (F1 & F2 & ->).
  set (X := flat_map labels F1 ++ clabels C ++ flat_map labels F2).
  assert (HP : forall s', Permutation (flat_map labels (F1 ++ plug C s' :: F2)) (X ++ labels s')).
  { intros s'. rewrite flat_map_app. cbn [flat_map]. rewrite labels_plug. unfold X. rewrite <- !app_assoc.
    apply Permutation_app_head, Permutation_app_head. apply Permutation_app_comm. }
  apply Forall_app in H. destruct H as (H1 & H2). apply Forall_cons_iff in H2. destruct H2 as (H2 & H3).
  apply in_heap_plug in H2. destruct H2 as (H2 & H4). rewrite Hs in H2.
  assert (Hn' : NoDup (X ++ labels s)) by (eapply Permutation_NoDup; [apply HP|exact Hn]).
  assert (Hlive : forall p, In p (X ++ labels s) -> p < List.length h).
  { intros p Hp. apply Permutation_in with (l' := flat_map labels (F1 ++ plug C s :: F2)) in Hp; [|apply Permutation_sym, HP].
    apply in_flat_map in Hp. destruct Hp as (t & Ht' & Hp). eapply in_heap_lt; [|exact Hp].
    assert (Hall : Forall (in_heap h None) (F1 ++ plug C s :: F2)).
    { apply Forall_app. split; [exact H1|]. constructor; [|exact H3]. apply in_heap_plug. rewrite Hs. split; assumption. }
    rewrite Forall_forall in Hall. eauto. }
  exists X, (cpar None C), s. split; [exact Hs|]. split; [exact H4|]. split; [eapply NoDup_app_remove_l; eauto|].
  split; [intros p Hp Hp2; eapply NoDup_app_in; eauto|].
  split; [intros p Hp; apply Hlive; apply in_app_iff; auto|].
  split; [intros p o' Hp; apply in_app_iff; eapply Permutation_in; [apply HP|eauto]|].
  split.
  - intros HqR. rewrite <- HR in HqR. destruct C as [|p a c lk m l C r]; [reflexivity|exfalso].
    apply in_map_iff in HqR. destruct HqR as (t & Et & Ht').
    assert (HqX : In q (X ++ labels s)) by (apply in_app_iff; right; rewrite <- Hs; apply lptr_in).
    apply in_app_iff in Ht'. destruct Ht' as [Ht' | [<- | Ht']].
    + eapply NoDup_app_in; [exact Hn'| |rewrite <- Hs; apply lptr_in]. unfold X. apply in_app_iff. left. rewrite Hs, <- Et. eapply labels_sub; [exact Ht'|apply lptr_in].
    + rewrite plug_ptr in Et. cbn [cptr] in Et. eapply NoDup_app_in; [exact Hn'| |rewrite <- Hs; apply lptr_in].
      unfold X. rewrite !in_app_iff. right. left. cbn [clabels]. left. congruence.
    + eapply NoDup_app_in; [exact Hn'| |rewrite <- Hs; apply lptr_in]. unfold X. rewrite !in_app_iff. right. right. rewrite Hs, <- Et. eapply labels_sub; [exact Ht'|apply lptr_in].
  - intros h' s' Hs' Hf Hh Hnd Hdis Hall. exists (F1 ++ plug C s' :: F2). split; [|split; [|split]].
    + rewrite <- HR, !map_app. cbn [map]. rewrite !plug_ptr, Hs, Hs'. reflexivity.
    + eapply Permutation_NoDup; [apply Permutation_sym, HP|]. apply NoDup_app_mk; [eapply NoDup_app_remove_r; exact Hn'|exact Hnd|exact Hdis].
    + apply Forall_app. split; [|constructor].
      * eapply forest_frame; [|exact H1]. intros p Hp. apply Hf. unfold X. apply in_app_iff. auto.
      * apply in_heap_plug. rewrite Hs'. split; [|exact Hh]. eapply in_ctx_frame; [|exact H2]. intros p Hp. apply Hf. unfold X. rewrite !in_app_iff. auto.
      * eapply forest_frame; [|exact H3]. intros p Hp. apply Hf. unfold X. rewrite !in_app_iff. auto.
    + intros p o' Hp. eapply Permutation_in; [apply Permutation_sym, HP|]. apply in_app_iff. eauto.
Qed.

Lemma Inv_add h R h' t : Inv h R -> List.length h <= List.length h' -> (forall p, p < List.length h -> get h' p = get h p) ->
  labels t = seq (List.length h) (List.length h' - List.length h) -> in_heap h' None t -> Inv h' (R ++ [lptr t]).
Proof.
  intros (F & HR & Hn & H & Hl) Hlen Hold Hlab Ht. assert (Hlt : forall p, In p (flat_map labels F) -> p < List.length h).
  { intros p Hp. apply in_flat_map in Hp. destruct Hp as (x & Hx & Hp). rewrite Forall_forall in H. eapply in_heap_lt; eauto. }
  exists (F ++ [t]). split; [|split; [|split]].
  - rewrite map_app, HR. reflexivity.
  - rewrite flat_map_app. cbn [flat_map]. rewrite app_nil_r. apply NoDup_app_mk; [exact Hn|rewrite Hlab; apply seq_NoDup|].
    intros p Hp Hq. rewrite Hlab in Hq. apply in_seq in Hq. specialize (Hlt p Hp). lia.
  - apply Forall_app. split; [|constructor; [exact Ht|constructor]]. eapply forest_frame; [|exact H]. intros p Hp. apply Hold. auto.
  - intros p o Hp. rewrite flat_map_app. cbn [flat_map]. rewrite app_nil_r. apply in_app_iff.
    destruct (Nat.lt_ge_cases p (List.length h)) as [Hlt'|Hge].
    + left. rewrite Hold in Hp by exact Hlt'. eauto.
    + right. rewrite Hlab. apply in_seq. pose proof (get_lt _ _ _ Hp). lia.
Qed.

Lemma Inv_remove h R r : Inv h (r :: R) ->
  exists t, lptr t = r /\ in_heap h None t /\ NoDup (labels t) /\
    (forall h', (forall p, ~ In p (labels t) -> get h' p = get h p) -> (forall p, In p (labels t) -> get h' p = None) -> Inv h' R).
Proof.
  intros (F & HR & Hn & H & Hl). destruct F as [|t F]; [discriminate|]. cbn [map] in HR. injection HR as Hr HR.
  cbn [flat_map] in Hn. apply Forall_cons_iff in H. destruct H as (Ht & H). exists t. split; [exact Hr|]. split; [exact Ht|].
  split; [eapply NoDup_app_remove_r; eauto|]. intros h' Ho Hd. exists F. split; [exact HR|]. split; [eapply NoDup_app_remove_l; eauto|]. split.
  - eapply forest_frame; [|exact H]. intros p Hp. apply Ho. intros Hx. eapply NoDup_app_in; eauto.
  - intros p o Hp. destruct (in_dec Nat.eq_dec p (labels t)) as [Hx|Hx]; [rewrite Hd in Hp by exact Hx; discriminate|].
    rewrite Ho in Hp by exact Hx. specialize (Hl p o Hp). cbn [flat_map] in Hl. apply in_app_iff in Hl. tauto.
Qed.

(** ** Commands *)
Lemma alive_dec (h : heap) p : get h p = None \/ exists o, get h p = Some o.
Proof. destruct (get h p); eauto. Qed.

Lemma push_inv R : forall ks h q o, Inv h R -> get h q = Some o -> (forall k, In k ks -> exists c, get h k = Some c) ->
  exists h' ks', push_all clone h q ks = Done h' /\ Inv h' R /\ get h' q = Some (with_kids _ _ o (o_kids _ _ o ++ ks')).
Proof.
  induction ks as [|k r IH]; intros h q o HI Hq Hk.
  - exists h, []. split; [reflexivity|]. split; [exact HI|]. rewrite app_nil_r, Hq. destruct o; reflexivity.
  - destruct (Hk k (or_introl eq_refl)) as (c & Hc).
    destruct (focus h R k c HI Hc) as (_ & park & sk & Hsk & Hik & Hnk & _).
    destruct (clone_ok h park sk Hnk Hik) as (h1 & t1 & E1 & C). rewrite Hsk in E1. destruct C as [C1 C2 C3 C4 C5 _ _].
    destruct (focus h R q o HI Hq) as (X & par & s & Hs & Hi & Hn & HX & HXl & Hlive & _ & Hre).
    pose proof (get_lt _ _ _ Hq) as Hql.
    assert (Hq1 : get h1 q = Some o) by (rewrite C4 by exact Hql; exact Hq).
    set (o1 := with_kids A cls o (o_kids A cls o ++ [lptr t1])). set (h2 := put h1 q (Some o1)).
    assert (Hq2 : get h2 q = Some o1) by (apply get_put_same; lia).
    assert (Hot : forall p, p <> q -> get h2 p = get h1 p) by (intros p Hp; apply get_put_other; [lia|exact Hp]).
    destruct s as [p0 a c0 lk m ts]. cbn [lptr] in Hs. subst p0. cbn [labels] in Hn. inversion Hn as [|? ? Hn1 Hn2]; subst.
    apply in_heap_eq in Hi. destruct Hi as (Hg & Hincl & Hts). assert (o = O_ a c0 (if lk then par else None) (map lptr ts) m) as -> by congruence.
    assert (Hold : forall x, In x (flat_map labels ts) -> x < List.length h).
    { intros x Hx. apply in_flat_map in Hx. destruct Hx as (t & Ht & Hx). rewrite Forall_forall in Hts. exact (in_heap_lt _ _ _ (Hts t Ht) x Hx). }
    assert (HI2 : Inv h2 R).
    { apply (Hre h2 (L q a c0 lk m (ts ++ [setlk false t1]))).
      - reflexivity.
      - intros p Hp. rewrite Hot; [apply C4; auto|]. intros ->. apply (HX q Hp). left. reflexivity.
      - apply in_heap_eq. rewrite map_app. cbn [map]. rewrite setlk_ptr. split; [exact Hq2|]. split.
        + intros x Hx. apply in_app_iff. left. auto.
        + apply Forall_app. split; [|constructor; [|constructor]].
          * eapply forest_frame; [|exact Hts]. intros x Hx. rewrite Hot; [apply C4; auto|]. intros ->. auto.
          * assert (G : in_heap h2 None t1).
            { eapply in_heap_frame; [|exact C5]. intros x Hx. apply Hot. rewrite C3 in Hx. apply in_seq in Hx. lia. }
            destruct t1 as [p1 a1 c1 lk1 m1 k1]. cbn [setlk]. apply in_heap_eq in G. apply in_heap_eq. destruct lk1; exact G.
      - cbn [labels]. rewrite flat_map_app. cbn [flat_map]. rewrite app_nil_r, setlk_labels, C3. constructor.
        + rewrite in_app_iff. intros [Hx|Hx]; [auto|]. apply in_seq in Hx. lia.
        + apply NoDup_app_mk; [exact Hn2|apply seq_NoDup|]. intros x Hx Hy. apply in_seq in Hy. specialize (Hold x Hx). lia.
      - intros p Hp. cbn [labels]. rewrite flat_map_app. cbn [flat_map]. rewrite app_nil_r, setlk_labels, C3. intros [<- | Hx].
        + apply (HX q Hp). left. reflexivity.
        + apply in_app_iff in Hx. destruct Hx as [Hx|Hx].
          * apply (HX p Hp). right. exact Hx.
          * apply in_seq in Hx. specialize (HXl p Hp). lia.
      - intros p o' Hp. cbn [labels]. rewrite flat_map_app. cbn [flat_map]. rewrite app_nil_r, setlk_labels, C3. cbn [In]. rewrite in_app_iff, in_seq.
        destruct (Nat.eq_dec p q) as [-> | Hpq]; [auto|]. rewrite Hot in Hp by exact Hpq.
        destruct (Nat.lt_ge_cases p (List.length h)) as [Hlt|Hge].
        + rewrite C4 in Hp by exact Hlt. destruct (Hlive p o' Hp) as [Hx|[Hx|Hx]]; auto.
        + pose proof (get_lt _ _ _ Hp). right. right. right. lia. }
    destruct (IH h2 q o1 HI2 Hq2) as (h' & ks' & E2 & D1 & D2).
    { intros k' Hk'. destruct (Hk k' (or_intror Hk')) as (c' & Hc'). destruct (Nat.eq_dec k' q) as [-> | Hn']; [eauto|].
      exists c'. rewrite Hot by exact Hn'. rewrite C4 by (eapply get_lt; eauto). exact Hc'. }
    exists h', (lptr t1 :: ks'). cbn [NodeHeap.push_all]. rewrite E1, Hq1. split; [exact E2|]. split; [exact D1|].
    rewrite D2. unfold o1, with_kids. cbn. rewrite <- app_assoc. reflexivity.
Qed.

Lemma link_inv h R q o : Inv h R -> get h q = Some o -> o_map _ _ o = [] -> exists h', link_kids h q = Done h' /\ Inv h' R.
Proof.
  intros HI Hq Hm. destruct (focus h R q o HI Hq) as (X & par & s & Hs & Hi & Hn & HX & HXl & Hlive & _ & Hre).
  destruct s as [p0 a c0 lk m ts]. cbn [lptr] in Hs. subst p0. cbn [labels] in Hn. inversion Hn as [|? ? Hn1 Hn2]; subst.
  apply in_heap_eq in Hi. destruct Hi as (Hg & Hincl & Hts). assert (o = O_ a c0 (if lk then par else None) (map lptr ts) m) as -> by congruence.
  destruct (link_trees ts h q _ Hq) as (h' & E & D1 & D2 & D3 & D4); try assumption; try reflexivity; [eauto|].
  exists h'. split; [exact E|]. apply (Hre h' (L q a c0 lk (canon ts) (map (setlk true) ts))).
  - reflexivity.
  - intros p Hp. apply D3; [intros ->; apply (HX q Hp); left; reflexivity|]. intros Hx. apply (HX p Hp). right. exact Hx.
  - apply in_heap_eq. rewrite map_ptr_setlk. split; [rewrite D2; reflexivity|]. split; [apply canon_incl|exact D4].
  - cbn [labels]. rewrite flat_setlk. constructor; assumption.
  - cbn [labels]. rewrite flat_setlk. exact HX.
  - cbn [labels]. rewrite flat_setlk. intros p o' Hp. destruct (Nat.eq_dec p q) as [-> | Hpq]; [right; left; reflexivity|].
    destruct (in_dec Nat.eq_dec p (flat_map labels ts)) as [Hx|Hx]; [right; right; exact Hx|].
    rewrite D3 in Hp by assumption. eauto.
Qed.

(** The first part of an assignment: the children of [q] are deleted. *)
Lemma clear_ok h R q o a' : Inv h R -> get h q = Some o ->
  exists X par s h2, lptr s = q /\ in_heap h par s /\ NoDup (labels s) /\
    delete_all (put h q (Some (with_at _ _ o a'))) (o_kids _ _ o) = Done h2 /\ List.length h2 = List.length h /\
    get h2 q = Some (with_at _ _ o a') /\
    (forall p, In p (labels s) -> p <> q -> get h2 p = None) /\
    (forall p, ~ In p (labels s) -> get h2 p = get h p) /\
    (forall p, In p X -> ~ In p (labels s)) /\
    Inv (put h2 q (Some (with_map _ _ (with_kids _ _ (with_at _ _ o a') []) []))) R.
Proof.
  intros HI Hq. destruct (focus h R q o HI Hq) as (X & par & s & Hs & Hi & Hn & HX & HXl & Hlive & _ & Hre).
  pose proof Hi as Hi0. pose proof Hn as Hn0. destruct s as [p0 a c0 lk m ts]. cbn [lptr] in Hs. subst p0. cbn [labels] in Hn. inversion Hn as [|? ? Hn1 Hn2]; subst.
  apply in_heap_eq in Hi. destruct Hi as (Hg & Hincl & Hts). assert (Eo : o = O_ a c0 (if lk then par else None) (map lptr ts) m) by congruence.
  set (o1 := with_at A cls o a'). set (h1 := put h q (Some o1)). pose proof (get_lt _ _ _ Hq) as Hql.
  assert (Hl1 : List.length h1 = List.length h) by (apply put_length; exact Hql).
  assert (Hot : forall p, p <> q -> get h1 p = get h p) by (intros p Hp; apply get_put_other; assumption).
  destruct (delete_all_ok ts h1 (Some q) Hn2) as (h2 & E & D1 & D2 & D3).
  { eapply forest_frame; [|exact Hts]. intros x Hx. apply Hot. intros ->. auto. }
  assert (Hq2 : get h2 q = Some o1) by (rewrite D3 by exact Hn1; apply get_put_same; exact Hql).
  exists X, par, (L q a c0 lk m ts), h2. split; [reflexivity|]. split; [exact Hi0|]. split; [exact Hn0|].
  split; [assert (Ek : o_kids A cls o = map lptr ts) by (rewrite Eo; reflexivity); rewrite Ek; exact E|]. split; [lia|]. split; [exact Hq2|]. split; [|split; [|split; [exact HX|]]].
  - intros p [<- | Hp] Hne; [congruence|]. apply D2. exact Hp.
  - cbn [labels In]. intros p Hp. rewrite D3 by tauto. apply Hot. intros ->. tauto.
  - set (h3 := put h2 q _). assert (Hot3 : forall p, p <> q -> get h3 p = get h2 p) by (intros p Hp; apply get_put_other; [lia|exact Hp]).
    apply (Hre h3 (L q a' c0 lk [] [])).
    + reflexivity.
    + intros p Hp. assert (p <> q) by (intros ->; apply (HX q Hp); left; reflexivity). rewrite Hot3 by assumption.
      rewrite D3; [apply Hot; assumption|]. intros Hx. apply (HX p Hp). right. exact Hx.
    + apply in_heap_eq. split; [|split; [intros x []|constructor]]. unfold h3. rewrite get_put_same by lia. unfold o1. rewrite Eo. reflexivity.
    + cbn. constructor; [intros []|constructor].
    + intros p Hp [<- | []]. apply (HX q Hp). left. reflexivity.
    + intros p o' Hp. destruct (Nat.eq_dec p q) as [-> | Hpq]; [right; left; reflexivity|]. rewrite Hot3 in Hp by exact Hpq.
      destruct (in_dec Nat.eq_dec p (flat_map labels ts)) as [Hx|Hx]; [rewrite D2 in Hp by exact Hx; discriminate|].
      rewrite D3 in Hp by exact Hx. rewrite Hot in Hp by exact Hpq. destruct (Hlive p o' Hp) as [Hy|[Hy|Hy]]; [auto|congruence|tauto].
Qed.

(** [strictly h q p]: [p] is below [q]. *)
Definition strictly (h : heap) q p := exists t par, lptr t = q /\ in_heap h par t /\ NoDup (labels t) /\ In p (labels t) /\ p <> q.

Lemma same_labels : forall x y h pa pb, in_heap h pa x -> in_heap h pb y -> lptr x = lptr y -> labels x = labels y.
Proof.
  induction x as [p a c lk m ks IH] using ltree_ind2. intros [p' a' c' lk' m' ks'] h pa pb Hx Hy E. cbn [lptr] in E. subst p'.
  apply in_heap_eq in Hx, Hy. destruct Hx as (I1 & _ & I2), Hy as (J1 & _ & J2). cbn [labels]. f_equal.
  assert (E : map lptr ks = map lptr ks') by congruence. clear I1 J1. revert ks' J2 E. induction IH as [|x r Hx _ IHr]; intros [|y r'] J2 E; try discriminate; [reflexivity|].
  cbn [map] in E. injection E as E1 E2. apply Forall_cons_iff in I2, J2. cbn [flat_map]. f_equal; [eapply Hx; [apply I2|apply J2|exact E1]|apply IHr; tauto].
Qed.

Lemma assign_inv h R q p o s : Inv h R -> get h q = Some o -> get h p = Some s ->
  (assign h q p = Bad /\ strictly h q p) \/ (~ strictly h q p /\ exists h', assign h q p = Done h' /\ Inv h' R).
Proof.
  intros HI Hq Hp. destruct (clear_ok h R q o (assigned (o_at _ _ o) (o_at _ _ s)) HI Hq) as (X & par & t & h2 & H1 & H2 & H2n & H3 & H4 & H5 & H6 & H7 & _ & H8).
  unfold NodeHeap.assign. rewrite Hq, Hp, H3, H5.
  set (o3 := with_map A cls _ []) in *. set (h3 := put h2 q (Some o3)) in *. pose proof (get_lt _ _ _ H5) as Hql.
  assert (Hot3 : forall x, x <> q -> get h3 x = get h2 x) by (intros x Hx; apply get_put_other; assumption).
  assert (Hq3 : get h3 q = Some o3) by (apply get_put_same; exact Hql).
  destruct (alive_dec h3 p) as [Hn | (s3 & Hs3)].
  - left. rewrite Hn. split; [reflexivity|]. exists t, par. split; [exact H1|]. split; [exact H2|]. split; [exact H2n|].
    assert (p <> q) by (intros ->; congruence). split; [|assumption]. rewrite Hot3 in Hn by assumption.
    destruct (in_dec Nat.eq_dec p (labels t)) as [Hx|Hx]; [exact Hx|]. rewrite H7 in Hn by exact Hx. congruence.
  - right. split.
    + intros (t' & par' & G1 & G2 & G3 & G4 & G5).
      assert (Hsub : In p (labels t)).
      { rewrite (same_labels t t' h par par' H2 G2) by congruence. exact G4. }
      rewrite Hot3 in Hs3 by exact G5. rewrite (H6 p Hsub G5) in Hs3. discriminate.
    + rewrite Hs3. destruct (push_inv R (o_kids _ _ s3) h3 q o3 H8 Hq3) as (h4 & ks' & E4 & D1 & D2).
      { intros k Hk. destruct (focus h3 R p s3 H8 Hs3) as (_ & parp & sp & Hsp & Hip & _). destruct sp as [p0 a c lk m ks]. cbn [lptr] in Hsp. subst p0.
        apply in_heap_eq in Hip. destruct Hip as (I1 & _ & I2). rewrite Hs3 in I1. injection I1 as ->. cbn [o_kids] in Hk. apply in_map_iff in Hk.
        destruct Hk as (k0 & <- & Hk0). rewrite Forall_forall in I2. destruct (in_heap_root _ _ _ (I2 k0 Hk0)) as (c1 & Hc1 & _). eauto. }
      rewrite E4. eapply link_inv; [exact D1|exact D2|reflexivity].
Qed.

(** Lists of owners. *)
Lemma in_drop p x l : In x (drop p l) <-> In x l /\ x <> p.
Proof. unfold drop. rewrite filter_In, negb_true_iff, Nat.eqb_neq. tauto. Qed.

Lemma drop_perm p l : NoDup l -> In p l -> Permutation l (p :: drop p l).
Proof.
  intros Hn Hp. apply NoDup_Permutation; [exact Hn| |].
  - constructor; [rewrite in_drop; tauto|]. unfold drop. apply NoDup_filter. exact Hn.
  - intros x. cbn [In]. rewrite in_drop. destruct (Nat.eq_dec p x) as [-> | H]; intuition congruence.
Qed.

Lemma drops_perm : forall ks l, NoDup l -> NoDup ks -> (forall k, In k ks -> In k l) -> Permutation l (ks ++ fold_left (fun l k => drop k l) ks l).
Proof.
  induction ks as [|k r IH]; intros l Hl Hk Hi; [reflexivity|]. cbn [fold_left app]. inversion Hk; subst.
  rewrite (drop_perm k l) at 1 by (auto; apply Hi; left; reflexivity). constructor. apply IH; auto.
  - unfold drop. apply NoDup_filter. exact Hl.
  - intros x Hx. apply in_drop. split; [apply Hi; right; exact Hx|]. intros ->. auto.
Qed.

Lemma owned_in m p : owned A cls m p = true <-> In p (m_own _ _ m).
Proof.
  unfold owned. rewrite existsb_exists. split; [intros (x & Hx & E); apply Nat.eqb_eq in E; subst; exact Hx|].
  intros H. exists p. split; [exact H|apply Nat.eqb_refl].
Qed.

Lemma distinct_nodup l : distinct l = true <-> NoDup l.
Proof.
  induction l as [|x r IH]; [split; [constructor|reflexivity]|]. cbn [distinct]. rewrite andb_true_iff, IH, negb_true_iff. split.
  - intros (H1 & H2). constructor; [|exact H2]. intros Hx. assert (existsb (Nat.eqb x) r = true); [|congruence].
    apply existsb_exists. exists x. split; [exact Hx|apply Nat.eqb_refl].
  - intros H. inversion H as [|? ? H1 H2]; subst. split; [|exact H2]. destruct (existsb (Nat.eqb x) r) eqn:E; [|reflexivity].
    apply existsb_exists in E. destruct E as (y & Hy & Ey). apply Nat.eqb_eq in Ey. subst. tauto.
Qed.

Lemma live_get m p : live A cls m p = true <-> exists o, get (m_heap _ _ m) p = Some o.
Proof. unfold live. destruct (get (m_heap A cls m) p); split; intros H; eauto; [discriminate|destruct H; discriminate]. Qed.

Definition SInv (m : mem) (lost : list ptr) : Prop := Inv (m_heap _ _ m) (m_own _ _ m ++ lost).

Lemma own_live h R r : Inv h R -> In r R -> exists o, get h r = Some o.
Proof.
  intros (F & <- & _ & H & _) Hr. apply in_map_iff in Hr. destruct Hr as (t & <- & Ht). rewrite Forall_forall in H.
  destruct (in_heap_root _ _ _ (H t Ht)) as (o & Ho & _). eauto.
Qed.

Lemma drop_roots own lost p : NoDup (own ++ lost) -> In p own -> Permutation (own ++ lost) (p :: drop p own ++ lost).
Proof.
  intros Hn Hp. change (p :: drop p own ++ lost) with ((p :: drop p own) ++ lost). apply Permutation_app_tail.
  apply drop_perm; [eapply NoDup_app_remove_r; eauto|exact Hp].
Qed.

(** Sorting and changing the contents of a node. *)
Lemma set_inv h R p o a : Inv h R -> get h p = Some o -> Inv (put h p (Some (with_at _ _ o a))) R.
Proof.
  intros HI Hq. destruct (focus h R p o HI Hq) as (X & par & s & Hs & Hi & Hn & HX & HXl & Hlive & _ & Hre). pose proof (get_lt _ _ _ Hq) as Hl.
  destruct s as [p0 a0 c0 lk m ts]. cbn [lptr] in Hs. subst p0. pose proof Hn as Hn0. cbn [labels] in Hn. inversion Hn as [|? ? Hn1 Hn2]; subst.
  apply in_heap_eq in Hi. destruct Hi as (Hg & Hincl & Hts). assert (o = O_ a0 c0 (if lk then par else None) (map lptr ts) m) as -> by congruence.
  assert (Hot : forall x b, x <> p -> get (put h p b) x = get h x) by (intros x b Hx; apply get_put_other; assumption).
  apply (Hre _ (L p a c0 lk m ts)).
  - reflexivity.
  - intros x Hx. apply Hot. intros ->. apply (HX p Hx). left. reflexivity.
  - apply in_heap_eq. rewrite get_put_same by exact Hl. split; [reflexivity|]. split; [exact Hincl|].
    eapply forest_frame; [|exact Hts]. intros x Hx. apply Hot. intros ->. auto.
  - exact Hn0.
  - exact HX.
  - intros x o' Hx. destruct (Nat.eq_dec x p) as [-> | Hxp]; [right; left; reflexivity|]. rewrite Hot in Hx by exact Hxp. exact (Hlive x o' Hx).
Qed.

Lemma sort_inv h R p o ks : Inv h R -> get h p = Some o -> Permutation (o_kids _ _ o) ks -> Inv (put h p (Some (with_kids _ _ o ks))) R.
Proof.
  intros HI Hq HP. destruct (focus h R p o HI Hq) as (X & par & s & Hs & Hi & Hn & HX & HXl & Hlive & _ & Hre). pose proof (get_lt _ _ _ Hq) as Hl.
  destruct s as [p0 a0 c0 lk m ts]. cbn [lptr] in Hs. subst p0. pose proof Hn as Hn0. cbn [labels] in Hn. inversion Hn as [|? ? Hn1 Hn2]; subst.
  apply in_heap_eq in Hi. destruct Hi as (Hg & Hincl & Hts). assert (o = O_ a0 c0 (if lk then par else None) (map lptr ts) m) as -> by congruence.
  cbn [o_kids] in HP. apply Permutation_sym in HP. apply Permutation_map_inv in HP. destruct HP as (ts' & -> & HP).
  pose proof (flat_perm _ _ HP) as HF.
  assert (Hot : forall x b, x <> p -> get (put h p b) x = get h x) by (intros x b Hx; apply get_put_other; assumption).
  assert (Hlab : forall x, In x (labels (L p a0 c0 lk m ts')) <-> In x (labels (L p a0 c0 lk m ts))).
  { intros x. cbn [labels In]. split; intros [Hx|Hx]; auto; right; [eapply Permutation_in; [apply Permutation_sym|]; eauto|eapply Permutation_in; eauto]. }
  apply (Hre _ (L p a0 c0 lk m ts')).
  - reflexivity.
  - intros x Hx. apply Hot. intros ->. apply (HX p Hx). left. reflexivity.
  - apply in_heap_eq. rewrite get_put_same by exact Hl. split; [reflexivity|]. split.
    + intros x Hx. eapply Permutation_in; [apply Permutation_map; exact HP|]. auto.
    + eapply Permutation_Forall; [exact HP|]. eapply forest_frame; [|exact Hts]. intros x Hx. apply Hot. intros ->. auto.
  - cbn [labels]. constructor; [intros Hx; apply Hn1; eapply Permutation_in; [apply Permutation_sym|]; eauto|]. eapply Permutation_NoDup; eauto.
  - intros x Hx. rewrite Hlab. auto.
  - intros x o' Hx. rewrite Hlab. destruct (Nat.eq_dec x p) as [-> | Hxp]; [right; left; reflexivity|]. rewrite Hot in Hx by exact Hxp. exact (Hlive x o' Hx).
Qed.

(** Children are given to a node. *)
Lemma add_inv h R p ks o mp : Inv h (p :: ks ++ R) -> get h p = Some o -> o_kids _ _ o = [] -> incl (map snd mp) ks ->
  Inv (put h p (Some (with_map _ _ (with_kids _ _ o ks) mp))) (p :: R).
Proof.
  intros (F & HR & Hn & H & Hl) Hp Hk Hmp. destruct F as [|t F]; [discriminate|]. cbn [map] in HR. injection HR as Hr HR.
  apply map_eq_app in HR. destruct HR as (F1 & F2 & -> & <- & <-). cbn [flat_map] in Hn. rewrite flat_map_app in Hn.
  apply Forall_cons_iff in H. destruct H as (Ht & H). apply Forall_app in H. destruct H as (H1 & H2).
  destruct t as [p0 a c lk m ts]. cbn [lptr] in Hr. subst p0. apply in_heap_eq in Ht. destruct Ht as (Hg & _ & _).
  assert (o = O_ a c (if lk then None else None) (map lptr ts) m) as -> by congruence. cbn [o_kids] in Hk. destruct ts; [|discriminate].
  cbn [labels flat_map app] in Hn. inversion Hn as [|? ? Hn1 Hn2]; subst. pose proof (get_lt _ _ _ Hp) as Hlt.
  assert (Hot : forall x b, x <> p -> get (put h p b) x = get h x) by (intros x b Hx; apply get_put_other; assumption).
  exists (L p a c lk mp (map (setlk false) F1) :: F2). cbn [map lptr flat_map labels]. rewrite flat_setlk. split; [reflexivity|]. split; [exact Hn|]. split.
  - constructor.
    + apply in_heap_eq. rewrite map_ptr_setlk. rewrite get_put_same by exact Hlt. split; [reflexivity|]. split; [exact Hmp|].
      rewrite Forall_forall in *. intros x Hx. apply in_map_iff in Hx. destruct Hx as (t & <- & Ht).
      assert (G : in_heap (put h p (Some (with_map A cls (with_kids A cls (O_ a c (if lk then None else None) (map lptr []) m) (map lptr F1)) mp))) None t).
      { eapply in_heap_frame; [|exact (H1 t Ht)]. intros y Hy. apply Hot. intros ->. apply Hn1. apply in_app_iff. left. eapply labels_sub; eauto. }
      destruct t as [p1 a1 c1 lk1 m1 k1]. cbn [setlk]. apply in_heap_eq in G. apply in_heap_eq. destruct lk1; exact G.
    + eapply forest_frame; [|exact H2]. intros y Hy. apply Hot. intros ->. apply Hn1. apply in_app_iff. auto.
  - intros x o' Hx. destruct (Nat.eq_dec x p) as [-> | Hxp]; [left; reflexivity|]. rewrite Hot in Hx by exact Hxp. specialize (Hl x o' Hx).
    cbn [flat_map labels app] in Hl. rewrite flat_map_app in Hl. exact Hl.
Qed.

Lemma maps_ok h : forall ks mp0 (l : list ptr), (forall k, In k ks -> exists c, get h k = Some c) -> incl (map snd mp0) l -> incl ks l ->
  exists mp, fold_left (fun r k => match r with
                             | Some mp => match get h k with Some c => Some (insert mp (uid (o_at _ _ c)) k) | None => None end
                             | None => None end) ks (Some mp0) = Some mp /\ incl (map snd mp) l.
Proof.
  induction ks as [|k r IH]; intros mp0 l Hk Hi Hl; [exists mp0; auto|]. cbn [fold_left]. destruct (Hk k (or_introl eq_refl)) as (c & Hc). rewrite Hc.
  apply IH; [intros x Hx; apply Hk; right; exact Hx|apply insert_incl; [exact Hi|apply Hl; left; reflexivity]|intros x Hx; apply Hl; right; exact Hx].
Qed.

Definition lose (k : kcmd A cls) : list ptr := match k with KThrow _ _ p => [p] | _ => [] end.
Notation kstep := (kstep A cls uid assigned keep plain).

Lemma step_inv m lost k r : SInv m lost -> kstep m k = Some r ->
  (exists m', r = Done m' /\ SInv m' (lose k ++ lost) /\ (forall q p, k = KAssign _ _ q p -> ~ strictly (m_heap _ _ m) q p)) \/
  (r = Bad /\ exists q p, k = KAssign _ _ q p /\ strictly (m_heap _ _ m) q p).
Proof.
  unfold SInv. intros HI E. destruct m as [h own]. cbn [m_heap m_own] in *. pose proof (Inv_nodup _ _ HI) as Hnd.
  destruct k as [a|p a|p ks|p|p ks|p|p c|q p|p|p]; cbn [NodeHeap.kstep m_heap m_own lose app] in *.
  - injection E as <-. left. eexists. split; [reflexivity|]. split; [|discriminate]. cbn [m_heap m_own].
    eapply Inv_perm; [|eapply (Inv_add h (own ++ lost) _ (L (List.length h) a plain false [] []))]; [| exact HI | | | |].
    + cbn [lptr]. rewrite <- !app_assoc. apply Permutation_app_head, Permutation_app_comm.
    + rewrite app_length. lia.
    + intros x Hx. apply get_app_l. exact Hx.
    + rewrite app_length. cbn [List.length labels flat_map]. replace (List.length h + 1 - List.length h) with 1 by lia. reflexivity.
    + apply in_heap_eq. rewrite get_app_new. split; [reflexivity|]. split; [intros x []|constructor].
  - destruct (get h p) as [o|] eqn:Ho; [|discriminate]. destruct (_ || _); [|discriminate]. injection E as <-. left. eexists. split; [reflexivity|].
    split; [|discriminate]. cbn [m_heap m_own]. apply set_inv; assumption.
  - destruct (get h p) as [o|] eqn:Ho; [|discriminate]. destruct (_ && _) eqn:Eb in E; [|discriminate].
    rewrite !andb_true_iff in Eb. destruct Eb as (((((B1 & B2) & B3) & B4) & B5) & _). apply owned_in in B1. cbn [m_own] in B1.
    apply distinct_nodup in B4. apply Nat.eqb_eq in B5.
    assert (Hin : forall k, In k ks -> In k own). { intros k Hk. rewrite forallb_forall in B2. apply (owned_in (mkMem A cls h own)). apply B2. exact Hk. }
    assert (Hpk : ~ In p ks). { intros Hx. apply negb_true_iff in B3. assert (existsb (Nat.eqb p) ks = true); [|congruence]. apply existsb_exists. exists p. split; [exact Hx|apply Nat.eqb_refl]. }
    destruct (maps_ok h ks [] ks) as (mp & Emp & Hmp).
    { intros k Hk. apply (own_live h (own ++ lost)); [exact HI|]. apply in_app_iff. auto. } { intros x []. } { apply incl_refl. }
    rewrite Emp in E. injection E as <-. left. eexists. split; [reflexivity|]. split; [|discriminate]. cbn [m_heap m_own].
    pose proof (NoDup_app_remove_r _ _ Hnd) as Hno.
    pose proof (drops_perm ks own Hno B4 Hin) as P1. set (own' := fold_left (fun l k => drop k l) ks own) in *.
    assert (Hp' : In p own'). { eapply Permutation_in in B1; [|exact P1]. apply in_app_iff in B1. tauto. }
    assert (Hn' : NoDup own') by (eapply NoDup_app_remove_l; eapply Permutation_NoDup; [exact P1|exact Hno]).
    pose proof (drop_perm p own' Hn' Hp') as P2.
    eapply Inv_perm; [|eapply (add_inv h (drop p own' ++ lost) p ks o mp)].
    + change (p :: drop p own' ++ lost) with ((p :: drop p own') ++ lost). apply Permutation_app_tail, Permutation_sym. exact P2.
    + eapply Inv_perm; [|exact HI]. transitivity ((ks ++ p :: drop p own') ++ lost).
      * apply Permutation_app_tail. rewrite P1 at 1. apply Permutation_app_head. exact P2.
      * rewrite <- app_assoc. cbn [app]. apply Permutation_sym, Permutation_middle.
    + exact Ho.
    + destruct (o_kids A cls o); [reflexivity|discriminate].
    + exact Hmp.
  - destruct (owned _ _ _ p) eqn:Eo in E; [|discriminate]. apply owned_in in Eo. cbn [m_own] in Eo.
    assert (Hr : In p (own ++ lost)) by (apply in_app_iff; auto). destruct (own_live _ _ _ HI Hr) as (o & Ho).
    destruct (focus h (own ++ lost) p o HI Ho) as (X & par & s & Hs & Hi & Hn & HX & HXl & Hlive & _ & Hre).
    destruct (set_parents_ok (S (List.length h)) h par s) as (h' & E' & D1 & D2 & D3); [pose proof (size_le _ _ _ Hi Hn); lia|exact Hn|exact Hi|].
    rewrite Hs in E'. rewrite E' in E. injection E as <-. left. eexists. split; [reflexivity|]. split; [|discriminate]. cbn [m_heap m_own].
    apply (Hre h' (linkall s)).
    + rewrite linkall_ptr. exact Hs.
    + intros x Hx. apply D3. auto.
    + exact D2.
    + rewrite linkall_labels. exact Hn.
    + rewrite linkall_labels. exact HX.
    + rewrite linkall_labels. intros x o' Hx. destruct (in_dec Nat.eq_dec x (labels s)) as [Hy|Hy]; [auto|]. rewrite D3 in Hx by exact Hy. eauto.
  - destruct (get h p) as [o|] eqn:Ho; [|discriminate]. destruct (_ && _) eqn:Eb in E; [|discriminate]. injection E as <-. left. eexists. split; [reflexivity|].
    split; [|discriminate]. cbn [m_heap m_own]. rewrite !andb_true_iff in Eb. destruct Eb as ((B1 & B2) & B3). apply distinct_nodup in B1. apply Nat.eqb_eq in B2.
    apply sort_inv; [exact HI|exact Ho|]. apply Permutation_sym. apply NoDup_Permutation_bis; [exact B1|lia|].
    intros x Hx. rewrite forallb_forall in B3. specialize (B3 x Hx). apply existsb_exists in B3. destruct B3 as (y & Hy & Ey). apply Nat.eqb_eq in Ey. subst y. exact Hy.
  - destruct (live _ _ _ p) eqn:El in E; [|discriminate]. apply live_get in El. cbn [m_heap] in El. destruct El as (o & Ho).
    destruct (focus h (own ++ lost) p o HI Ho) as (_ & par & s & Hs & Hi & Hn & _).
    destruct (clone_ok h par s Hn Hi) as (h' & t' & E' & C). rewrite Hs in E'. rewrite E' in E. injection E as <-. left. eexists. split; [reflexivity|].
    split; [|discriminate]. cbn [m_heap m_own]. destruct C as [C1 C2 C3 C4 C5 _ _].
    eapply Inv_perm; [|eapply (Inv_add h (own ++ lost) h' t'); eauto]. rewrite <- !app_assoc. apply Permutation_app_head, Permutation_app_comm.
  - destruct (owned _ _ _ p) eqn:Eo in E; [|discriminate]. apply owned_in in Eo. cbn [m_own] in Eo.
    assert (Hr : In p (own ++ lost)) by (apply in_app_iff; auto). destruct (own_live _ _ _ HI Hr) as (o & Ho).
    destruct (focus h (own ++ lost) p o HI Ho) as (_ & par & s & Hs & Hi & Hn & _).
    destruct (copy_ok (S (List.length h)) h par s (Some c)) as (h1 & t' & E1 & C); [pose proof (size_le _ _ _ Hi Hn); lia|exact Hi|].
    rewrite Hs in E1. rewrite E1 in E. destruct C as [C1 C2 C3 C4 C5 _ _].
    assert (HI1 : Inv h1 (p :: (drop p own ++ lost) ++ [lptr t'])).
    { eapply Inv_perm; [|eapply (Inv_add h (own ++ lost) h1 t'); eauto]. change (p :: (drop p own ++ lost) ++ [lptr t']) with ((p :: drop p own ++ lost) ++ [lptr t']).
      apply Permutation_app_tail. apply drop_roots; assumption. }
    destruct (Inv_remove h1 _ p HI1) as (t & Ht & Hti & Htn & Hrem). destruct (delete_ok h1 None t Htn Hti) as (h2 & E2 & D1 & D2 & D3).
    rewrite Ht in E2. rewrite E2 in E. injection E as <-. left. eexists. split; [reflexivity|]. split; [|discriminate]. cbn [m_heap m_own].
    eapply Inv_perm; [|apply (Hrem h2 D3 D2)]. rewrite <- !app_assoc. apply Permutation_app_head, Permutation_app_comm.
  - destruct (live _ _ _ q) eqn:El in E; [|discriminate]. destruct (live _ _ _ p) eqn:El2 in E; [|discriminate]. apply live_get in El, El2.
    cbn [m_heap] in El, El2. destruct El as (o & Ho), El2 as (s & Hs). cbn [andb] in E.
    destruct (assign_inv h (own ++ lost) q p o s HI Ho Hs) as [(Eb & Hst) | (Hst & h' & Ed & HI')].
    + right. rewrite Eb in E. injection E as <-. split; [reflexivity|]. eauto.
    + left. rewrite Ed in E. injection E as <-. eexists. split; [reflexivity|]. split; [exact HI'|]. intros q0 p0 E0. injection E0 as <- <-. exact Hst.
  - destruct (owned _ _ _ p) eqn:Eo in E; [|discriminate]. apply owned_in in Eo. cbn [m_own] in Eo.
    assert (HI1 : Inv h (p :: drop p own ++ lost)) by (eapply Inv_perm; [apply drop_roots; eassumption|exact HI]).
    destruct (Inv_remove h _ p HI1) as (t & Ht & Hti & Htn & Hrem). destruct (delete_ok h None t Htn Hti) as (h2 & E2 & D1 & D2 & D3).
    rewrite Ht in E2. rewrite E2 in E. injection E as <-. left. eexists. split; [reflexivity|]. split; [|discriminate]. cbn [m_heap m_own]. apply Hrem; assumption.
  - destruct (owned _ _ _ p) eqn:Eo in E; [|discriminate]. apply owned_in in Eo. cbn [m_own] in Eo. injection E as <-.
    left. eexists. split; [reflexivity|]. split; [|discriminate]. cbn [m_heap m_own]. eapply Inv_perm; [|exact HI].
    rewrite (drop_roots own lost p Hnd Eo). apply Permutation_middle.
Qed.

(** ** The specification *)
Notation under := (under A cls). Notation holds := (holds A cls). Notation linked := (linked A cls uid). Notation sound := (sound A cls).

Fixpoint edges t : list (ptr * ptr) := match t with L p _ _ _ _ ks => flat_map (fun k => (p, lptr k) :: edges k) ks end.

Lemma labels_edges t : labels t = lptr t :: map snd (edges t).
Proof.
  induction t as [p a c lk m ks IH] using ltree_ind2. cbn [labels edges lptr]. f_equal. induction IH as [|x r Hx _ IHr]; [reflexivity|].
  cbn [flat_map map app]. rewrite map_app, <- IHr, Hx. cbn [snd app]. reflexivity.
Qed.

Lemma forest_edges F : Permutation (flat_map labels F) (map lptr F ++ map snd (flat_map edges F)).
Proof.
  induction F as [|t F IH]; [reflexivity|]. cbn [flat_map map app]. rewrite labels_edges, IH, map_app. cbn [app]. constructor.
  rewrite !app_assoc. apply Permutation_app_tail. apply Permutation_app_comm.
Qed.

Lemma in_edges h : forall t par q o k, in_heap h par t -> In q (labels t) -> get h q = Some o -> In k (o_kids _ _ o) -> In (q, k) (edges t).
Proof.
  induction t as [p a c lk m ks IH] using ltree_ind2. intros par q o k H Hq Ho Hk. apply in_heap_eq in H. destruct H as (Hg & _ & Hks).
  cbn [edges]. apply in_flat_map. destruct Hq as [<- | Hq].
  - rewrite Ho in Hg. injection Hg as ->. cbn [o_kids] in Hk. apply in_map_iff in Hk. destruct Hk as (t & <- & Ht). exists t. split; [exact Ht|left; reflexivity].
  - apply in_flat_map in Hq. destruct Hq as (t & Ht & Hq). exists t. split; [exact Ht|]. right. rewrite Forall_forall in IH, Hks. eapply IH; eauto.
Qed.

Lemma edge_in h : forall t par q k, in_heap h par t -> In (q, k) (edges t) -> In q (labels t) /\ exists o, get h q = Some o /\ In k (o_kids _ _ o).
Proof.
  induction t as [p a c lk m ks IH] using ltree_ind2. intros par q k H He. apply in_heap_eq in H. destruct H as (Hg & _ & Hks).
  cbn [edges] in He. apply in_flat_map in He. destruct He as (t & Ht & [He|He]).
  - injection He as <- <-. split; [left; reflexivity|]. eexists. split; [exact Hg|]. cbn [o_kids]. apply in_map. exact Ht.
  - rewrite Forall_forall in IH, Hks. destruct (IH t Ht _ q k (Hks t Ht) He) as (H1 & H2). split; [|exact H2]. right. eapply labels_sub; eauto.
Qed.

Lemma under_trans h q x y : under h q x -> under h x y -> under h q y.
Proof. intros H1 H2. induction H2 as [|z o k _ IH Hz Hk]; [exact H1|]. econstructor; [exact IH|exact Hz|exact Hk]. Qed.

Lemma under_labels h par t x : in_heap h par t -> (under h (lptr t) x <-> In x (labels t)).
Proof.
  intros H. split.
  - intros Hu. induction Hu as [|z o k _ IH Hz Hk]; [apply lptr_in|]. pose proof (in_edges h t par z o k H IH Hz Hk) as He.
    rewrite labels_edges. right. apply in_map_iff. exists (z, k). split; [reflexivity|exact He].
  - revert par H. induction t as [p a c lk m ks IH] using ltree_ind2. intros par H Hx. apply in_heap_eq in H. destruct H as (Hg & _ & Hks).
    cbn [lptr]. destruct Hx as [<- | Hx]; [constructor|]. apply in_flat_map in Hx. destruct Hx as (t & Ht & Hx). rewrite Forall_forall in IH, Hks.
    eapply under_trans; [|exact (IH t Ht _ (Hks t Ht) Hx)]. econstructor; [constructor|exact Hg|]. cbn [o_kids]. apply in_map. exact Ht.
Qed.

Lemma holds_er h : forall t par, in_heap h par t -> holds h (lptr t) (er t).
Proof.
  induction t as [p a c lk m ks IH] using ltree_ind2. intros par H. apply in_heap_eq in H. destruct H as (Hg & _ & Hks). cbn [lptr er].
  pose proof (Holds A cls h p _ (map er ks) Hg) as G. cbn [o_at o_class o_kids] in G. apply G. clear - IH Hks.
  induction IH as [|x r Hx _ IHr]; [constructor|]. apply Forall_cons_iff in Hks. cbn [map]. constructor; [eapply Hx; apply Hks|apply IHr; apply Hks].
Qed.

Lemma er_unique h : forall t par x, in_heap h par t -> holds h (lptr t) x -> x = er t.
Proof.
  induction t as [p a c lk m ks IH] using ltree_ind2. intros par x H Hx. apply in_heap_eq in H. destruct H as (Hg & _ & Hks). cbn [lptr] in Hx.
  inversion Hx as [p0 o ts Ho Hts]; subst. rewrite Ho in Hg. injection Hg as ->. cbn [o_at o_class o_kids er] in *. f_equal. clear - IH Hks Hts.
  revert ts Hts. induction IH as [|y r Hy _ IHr]; intros ts Hts; cbn [map] in *; inversion Hts; subst; [reflexivity|].
  apply Forall_cons_iff in Hks. f_equal; [eapply Hy; [apply Hks|assumption]|apply IHr; [apply Hks|assumption]].
Qed.

Lemma look_insert m j p i : look (insert m j p) i = match look m i with Some x => Some x | None => if String.eqb j i then Some p else None end.
Proof.
  unfold insert. destruct (existsb (fun e => String.eqb (fst e) j) m) eqn:E.
  - destruct (look m i) eqn:El; [reflexivity|]. destruct (String.eqb_spec j i) as [-> | _]; [exfalso|reflexivity].
    induction m as [|(k, v) r IH]; [discriminate|]. cbn [look existsb fst] in *. destruct (String.eqb k i); [discriminate|]. cbn [orb] in E. auto.
  - clear E. induction m as [|(k, v) r IH]; [reflexivity|]. cbn [look app]. destruct (String.eqb k i); [reflexivity|exact IH].
Qed.

Lemma look_canon h par : forall ts m i, Forall (in_heap h par) ts ->
  look (fold_left ins1 ts m) i = match look m i with Some x => Some x | None => first_by A cls uid i h (map lptr ts) end.
Proof.
  induction ts as [|t r IH]; intros m i H; [cbn; destruct (look m i); reflexivity|]. apply Forall_cons_iff in H. destruct H as (Ht & Hr).
  cbn [fold_left map first_by]. rewrite IH by exact Hr. unfold ins1. rewrite look_insert. destruct (in_heap_root _ _ _ Ht) as (o & Ho & Ha).
  rewrite Ho, Ha. destruct (look m i); [reflexivity|]. destruct (String.eqb _ i); reflexivity.
Qed.

Lemma tidy_sub h : forall t par x, in_heap h par t -> tidy t -> In x (labels t) ->
  exists s parx, lptr s = x /\ in_heap h parx s /\ tidy s.
Proof.
  induction t as [p a c lk m ks IH] using ltree_ind2. intros par x H Ht Hx. pose proof H as H0. pose proof Ht as Ht0.
  apply in_heap_eq in H. destruct H as (Hg & _ & Hks). apply tidy_eq in Ht. destruct Ht as (_ & Ht).
  destruct Hx as [<- | Hx]; [exists (L p a c lk m ks), par; auto|]. apply in_flat_map in Hx. destruct Hx as (t & Hin & Hx).
  rewrite Forall_forall in IH, Hks, Ht. eapply IH; eauto. apply Ht. exact Hin.
Qed.

Lemma linked_tidy h par t : in_heap h par t -> tidy t -> linked h (lptr t).
Proof.
  intros H Ht x o Hu Ho. apply (under_labels h par t x H) in Hu. destruct (tidy_sub h t par x H Ht Hu) as (s & parx & Hs & Hi & Hts).
  destruct s as [p a c lk m ks]. cbn [lptr] in Hs. subst p. apply in_heap_eq in Hi. destruct Hi as (Hg & _ & Hks). apply tidy_eq in Hts. destruct Hts as (Em & Hts).
  rewrite Ho in Hg. injection Hg as ->. cbn [o_kids o_map]. split.
  - intros k Hk. apply in_map_iff in Hk. destruct Hk as (t0 & <- & Hin). rewrite Forall_forall in Hks, Hts. specialize (Hks t0 Hin). destruct (Hts t0 Hin) as (El & _).
    destruct t0 as [p0 a0 c0 lk0 m0 k0]. cbn [setlk] in El. injection El as <-. apply in_heap_eq in Hks. destruct Hks as (Hg0 & _).
    eexists. split; [exact Hg0|reflexivity].
  - intros i. rewrite Em. unfold canon. rewrite (look_canon h (Some x) ks [] i Hks). reflexivity.
Qed.

Lemma snd_unique (E : list (ptr * ptr)) q q' k : NoDup (map snd E) -> In (q, k) E -> In (q', k) E -> q = q'.
Proof.
  induction E as [|(a, b) r IH]; [intros _ []|]. cbn [map snd]. intros Hn H1 H2. inversion Hn as [|? ? Hn1 Hn2]; subst.
  destruct H1 as [H1|H1], H2 as [H2|H2].
  - congruence.
  - injection H1 as -> ->. exfalso. apply Hn1. apply in_map_iff. exists (q', k). auto.
  - injection H2 as -> ->. exfalso. apply Hn1. apply in_map_iff. exists (q, k). auto.
  - auto.
Qed.

Lemma sound_of m lost : SInv m lost -> sound m lost.
Proof.
  unfold SInv. intros HI. set (h := m_heap A cls m) in *. set (R := m_own A cls m ++ lost) in *. pose proof HI as (F & HR & Hn & H & Hl).
  assert (HE : NoDup (R ++ map snd (flat_map edges F))) by (rewrite <- HR; eapply Permutation_NoDup; [apply forest_edges|exact Hn]).
  assert (Hedge : forall q o k, get h q = Some o -> In k (o_kids _ _ o) -> In (q, k) (flat_map edges F)).
  { intros q o k Hq Hk. specialize (Hl q o Hq). apply in_flat_map in Hl. destruct Hl as (t & Ht & Hqt). apply in_flat_map. exists t. split; [exact Ht|].
    rewrite Forall_forall in H. eapply in_edges; eauto. }
  constructor; fold h R.
  - eapply NoDup_app_remove_r; eauto.
  - intros r Hr. rewrite <- HR in Hr. apply in_map_iff in Hr. destruct Hr as (t & <- & Ht). rewrite Forall_forall in H. specialize (H t Ht).
    destruct t as [p a c lk mm ks]. apply in_heap_eq in H. destruct H as (Hg & _). eexists. split; [exact Hg|]. cbn. destruct lk; reflexivity.
  - intros q o Hq. destruct (focus h R q o HI Hq) as (X & par & s & Hs & Hi & Hns & _). destruct s as [p a c lk mm ks]. cbn [lptr] in Hs. subst p.
    apply in_heap_eq in Hi. destruct Hi as (Hg & _ & Hks). rewrite Hq in Hg. injection Hg as ->. cbn [o_kids]. split.
    + cbn [labels] in Hns. inversion Hns; subst. apply NoDup_roots. assumption.
    + intros k Hk. split.
      * intros HkR. eapply NoDup_app_in; [exact HE|exact HkR|]. apply in_map_iff. exists (q, k). split; [reflexivity|]. eapply Hedge; [exact Hq|exact Hk].
      * apply in_map_iff in Hk. destruct Hk as (t & <- & Ht). rewrite Forall_forall in Hks. specialize (Hks t Ht). destruct t as [p0 a0 c0 lk0 m0 k0].
        apply in_heap_eq in Hks. destruct Hks as (Hg0 & _). eexists. split; [exact Hg0|]. cbn. destruct lk0; auto.
  - intros q o i k Hq Hk. destruct (focus h R q o HI Hq) as (X & par & s & Hs & Hi & Hns & _). destruct s as [p a c lk mm ks]. cbn [lptr] in Hs. subst p.
    apply in_heap_eq in Hi. destruct Hi as (Hg & Hincl & _). rewrite Hq in Hg. injection Hg as ->. cbn [o_kids o_map] in *. apply Hincl.
    apply in_map_iff. exists (i, k). split; [reflexivity|exact Hk].
  - intros k q q' o o' Hq Hk Hq' Hk'. eapply snd_unique; [eapply NoDup_app_remove_l; exact HE| |]; eapply Hedge; eauto.
  - intros p o Hp. specialize (Hl p o Hp). apply in_flat_map in Hl. destruct Hl as (t & Ht & Hpt). exists (lptr t). split.
    + rewrite <- HR. apply in_map. exact Ht.
    + rewrite Forall_forall in H. apply (under_labels h None t p (H t Ht)). exact Hpt.
Qed.

Lemma strictly_under h R q p o : Inv h R -> get h q = Some o -> (strictly h q p <-> under h q p /\ p <> q).
Proof.
  intros HI Hq. split.
  - intros (t & par & H1 & H2 & _ & H4 & H5). split; [|exact H5]. rewrite <- H1. apply (under_labels h par t p H2). exact H4.
  - intros (H1 & H2). destruct (focus h R q o HI Hq) as (X & par & s & Hs & Hi & Hn & _). exists s, par. split; [exact Hs|]. split; [exact Hi|]. split; [exact Hn|].
    split; [|exact H2]. apply (under_labels h par s p Hi). rewrite Hs. exact H1.
Qed.

Notation krun := (krun A cls uid assigned keep plain).
Notation empty := (empty A cls).

Lemma run_inv : forall ks m lost r, SInv m lost -> krun m ks = Some r ->
  (exists m', r = Done m' /\ SInv m' (thrown A cls ks ++ lost)) \/
  (r = Bad /\ exists ks1 q p ks2 m', ks = ks1 ++ KAssign _ _ q p :: ks2 /\ krun m ks1 = Some (Done m') /\ under (m_heap _ _ m') q p /\ p <> q).
Proof.
  induction ks as [|k r IH]; intros m lost x HI E; [injection E as <-; left; exists m; split; [reflexivity|exact HI]|].
  cbn [NodeHeap.krun] in E. destruct (kstep m k) as [y|] eqn:Ek; [|discriminate].
  destruct (step_inv m lost k y HI Ek) as [(m1 & -> & HI1 & _) | (-> & q & p & -> & Hst)].
  - destruct (IH m1 _ x HI1 E) as [(m' & -> & HI') | (-> & ks1 & q & p & ks2 & m' & E1 & E2 & E3)].
    + left. exists m'. split; [reflexivity|]. replace (thrown A cls (k :: r) ++ lost) with (thrown A cls r ++ lose k ++ lost); [exact HI'|].
      destruct k; cbn [thrown lose app]; try reflexivity. rewrite <- app_assoc. reflexivity.
    + right. split; [reflexivity|]. exists (k :: ks1), q, p, ks2, m'. split; [rewrite E1; reflexivity|]. split; [|exact E3]. cbn [NodeHeap.krun]. rewrite Ek. exact E2.
  - right. injection E as <-. split; [reflexivity|]. exists [], q, p, r, m. split; [reflexivity|]. split; [reflexivity|].
    assert (Hq : exists o, get (m_heap _ _ m) q = Some o).
    { destruct Hst as (t & par & <- & Hi & _). destruct (in_heap_root _ _ _ Hi) as (o & Ho & _). eauto. }
    destruct Hq as (o & Ho). apply (strictly_under _ _ q p o HI Ho). exact Hst.
Qed.

Lemma empty_inv : SInv empty [].
Proof.
  exists []. split; [reflexivity|]. split; [constructor|]. split; [constructor|]. intros p o Hp. destruct p; discriminate.
Qed.

Lemma reach_inv ks m : krun empty ks = Some (Done m) -> SInv m (thrown A cls ks).
Proof.
  intros E. destruct (run_inv ks empty [] _ empty_inv E) as [(m' & E' & HI) | (E' & _)]; [|discriminate]. injection E' as <-. rewrite app_nil_r in HI. exact HI.
Qed.

Lemma inv_tree m lost p o : SInv m lost -> get (m_heap _ _ m) p = Some o ->
  exists par s, lptr s = p /\ in_heap (m_heap _ _ m) par s /\ NoDup (labels s) /\ holds (m_heap _ _ m) p (er s).
Proof.
  intros HI Hp. destruct (focus _ _ p o HI Hp) as (X & par & s & Hs & Hi & Hn & _). exists par, s. split; [exact Hs|]. split; [exact Hi|]. split; [exact Hn|].
  rewrite <- Hs. eapply holds_er; eauto.
Qed.

Lemma clone_spec m lost p o : SInv m lost -> get (m_heap _ _ m) p = Some o ->
  exists m' q t, kstep m (KClone _ _ p) = Some (Done m') /\ m_own _ _ m' = m_own _ _ m ++ [q] /\
    holds (m_heap _ _ m) p t /\ holds (m_heap _ _ m') q (classes A cls keep t) /\ linked (m_heap _ _ m') q /\
    (forall x o, get (m_heap _ _ m) x = Some o -> get (m_heap _ _ m') x = Some o) /\
    (forall x, under (m_heap _ _ m') q x -> get (m_heap _ _ m) x = None).
Proof.
  intros HI Hp. destruct (inv_tree m lost p o HI Hp) as (par & s & Hs & Hi & Hn & Hh). destruct (clone_ok _ _ s Hn Hi) as (h' & t' & E & [C1 C2 C3 C4 C5 C6 C7]).
  rewrite Hs in E. exists (mkMem A cls h' (m_own _ _ m ++ [lptr t'])), (lptr t'), (er s). cbn [m_heap m_own]. split; [|split; [reflexivity|split; [exact Hh|split; [|split; [|split]]]]].
  - cbn [NodeHeap.kstep]. unfold live. rewrite Hp, E. reflexivity.
  - fold kept. rewrite <- C6. eapply holds_er; eauto.
  - eapply linked_tidy; eauto.
  - intros x o' Hx. rewrite C4 by (eapply get_lt; eauto). exact Hx.
  - intros x Hx. apply (under_labels h' None t' x C5) in Hx. rewrite C3 in Hx. apply in_seq in Hx.
    destruct (get (m_heap A cls m) x) eqn:Eg; [|reflexivity]. apply get_lt in Eg. lia.
Qed.

Lemma convert_spec m lost p o c : SInv m lost -> In p (m_own _ _ m) -> get (m_heap _ _ m) p = Some o ->
  exists m' q ts, kstep m (KConvert _ _ p c) = Some (Done m') /\ m_own _ _ m' = drop p (m_own _ _ m) ++ [q] /\
    holds (m_heap _ _ m) p (Tr _ _ (o_at _ _ o) (o_class _ _ o) ts) /\
    holds (m_heap _ _ m') q (Tr _ _ (o_at _ _ o) c (map (classes A cls keep) ts)) /\ linked (m_heap _ _ m') q /\
    (forall x, under (m_heap _ _ m) p x -> get (m_heap _ _ m') x = None) /\
    (forall x o, get (m_heap _ _ m) x = Some o -> under (m_heap _ _ m) p x \/ get (m_heap _ _ m') x = Some o) /\
    (forall x, under (m_heap _ _ m') q x -> get (m_heap _ _ m) x = None).
Proof.
  intros HI Hown Hp. destruct (inv_tree m lost p o HI Hp) as (par & s & Hs & Hi & Hn & Hh).
  destruct (copy_ok (S (List.length (m_heap _ _ m))) (m_heap _ _ m) par s (Some c)) as (h1 & t' & E & [C1 C2 C3 C4 C5 C6 C7]); [pose proof (size_le _ _ _ Hi Hn); lia|exact Hi|].
  assert (Hi1 : in_heap h1 par s) by (eapply in_heap_frame; [|exact Hi]; intros x Hx; apply C4; eapply in_heap_lt; eauto).
  destruct (delete_ok h1 par s Hn Hi1) as (h2 & E2 & D1 & D2 & D3). rewrite Hs in E, E2.
  assert (Hlow : forall x, In x (labels s) -> x < List.length (m_heap _ _ m)) by (intros x Hx; eapply in_heap_lt; eauto).
  assert (Ht2 : in_heap h2 None t').
  { eapply in_heap_frame; [|exact C5]. intros x Hx. apply D3. intros Hy. specialize (Hlow x Hy). rewrite C3 in Hx. apply in_seq in Hx. lia. }
  destruct s as [p0 a c0 lk mm ks]. cbn [lptr] in Hs. subst p0. pose proof Hi as Hi0. apply in_heap_eq in Hi0. destruct Hi0 as (Hg & _). rewrite Hp in Hg. injection Hg as ->.
  exists (mkMem A cls h2 (drop p (m_own _ _ m) ++ [lptr t'])), (lptr t'), (map er ks). cbn [m_heap m_own o_at o_class]. split; [|split; [reflexivity|split; [exact Hh|split; [|split; [|split; [|split]]]]]].
  - cbn [NodeHeap.kstep]. rewrite (proj2 (owned_in m p) Hown), E, E2. reflexivity.
  - cbn [er top] in C6. unfold kept in C6. rewrite <- C6. eapply holds_er; eauto.
  - eapply linked_tidy; eauto.
  - intros x Hx. apply D2. apply (under_labels _ par (L p a c0 lk mm ks) x Hi). exact Hx.
  - intros x o' Hx. destruct (in_dec Nat.eq_dec x (labels (L p a c0 lk mm ks))) as [Hy|Hy].
    + left. apply (under_labels _ par (L p a c0 lk mm ks) x Hi) in Hy. exact Hy.
    + right. rewrite D3 by exact Hy. rewrite C4 by (eapply get_lt; eauto). exact Hx.
  - intros x Hx. apply (under_labels h2 None t' x Ht2) in Hx. rewrite C3 in Hx. apply in_seq in Hx.
    destruct (get (m_heap A cls m) x) eqn:Eg; [|reflexivity]. apply get_lt in Eg. lia.
Qed.

Lemma delete_spec m lost p o : SInv m lost -> In p (m_own _ _ m) -> get (m_heap _ _ m) p = Some o ->
  exists m', kstep m (KDelete _ _ p) = Some (Done m') /\ m_own _ _ m' = drop p (m_own _ _ m) /\
    (forall x, under (m_heap _ _ m) p x -> get (m_heap _ _ m') x = None) /\
    (forall x, ~ under (m_heap _ _ m) p x -> get (m_heap _ _ m') x = get (m_heap _ _ m) x).
Proof.
  intros HI Hown Hp. destruct (inv_tree m lost p o HI Hp) as (par & s & Hs & Hi & Hn & Hh). destruct (delete_ok _ par s Hn Hi) as (h2 & E2 & D1 & D2 & D3).
  rewrite Hs in E2. exists (mkMem A cls h2 (drop p (m_own _ _ m))). cbn [m_heap m_own]. split; [|split; [reflexivity|split]].
  - cbn [NodeHeap.kstep]. rewrite (proj2 (owned_in m p) Hown), E2. reflexivity.
  - intros x Hx. apply D2. apply (under_labels _ par s x Hi). rewrite Hs. exact Hx.
  - intros x Hx. apply D3. intros Hy. apply Hx. rewrite <- Hs. apply (under_labels _ par s x Hi). exact Hy.
Qed.

(** Two trees neither of which contains the root of the other have no node in common. *)
Lemma apart m lost t t' par par' : SInv m lost -> in_heap (m_heap _ _ m) par t -> in_heap (m_heap _ _ m) par' t' ->
  ~ In (lptr t') (labels t) -> ~ In (lptr t) (labels t') -> forall x, In x (labels t) -> In x (labels t') -> False.
Proof.
  intros HI Ht Ht' H1 H2. apply sound_of in HI. assert (G : forall x, under (m_heap _ _ m) (lptr t) x -> ~ In x (labels t')).
  { intros x Hu. induction Hu as [|z o k Hz IH Ho Hk]; [exact H2|]. intros Hkt. rewrite labels_edges in Hkt. destruct Hkt as [Ek|Hkt].
    - apply H1. apply (under_labels _ par t _ Ht). rewrite Ek. econstructor; eauto.
    - apply in_map_iff in Hkt. destruct Hkt as ((q', k') & Ek & He). cbn [snd] in Ek. subst k'. destruct (edge_in _ t' par' q' k Ht' He) as (Hq & o' & Ho' & Hk').
      pose proof (s_one _ _ _ _ HI k z q' o o' Ho Hk Ho' Hk') as ->. auto. }
  intros x Hx Hx'. apply (G x); [|exact Hx']. apply (under_labels _ par t x Ht). exact Hx.
Qed.

Lemma assign_spec m lost q p o s : SInv m lost -> get (m_heap _ _ m) q = Some o -> get (m_heap _ _ m) p = Some s ->
  ~ under (m_heap _ _ m) q p -> ~ under (m_heap _ _ m) p q ->
  exists m' ts, kstep m (KAssign _ _ q p) = Some (Done m') /\ m_own _ _ m' = m_own _ _ m /\
    holds (m_heap _ _ m) p (Tr _ _ (o_at _ _ s) (o_class _ _ s) ts) /\
    holds (m_heap _ _ m') q (Tr _ _ (assigned (o_at _ _ o) (o_at _ _ s)) (o_class _ _ o) (map (classes A cls keep) ts)) /\
    linked (m_heap _ _ m') q /\
    (forall x, under (m_heap _ _ m) q x -> x <> q -> get (m_heap _ _ m') x = None) /\
    (forall x o, get (m_heap _ _ m) x = Some o -> under (m_heap _ _ m) q x \/ get (m_heap _ _ m') x = Some o).
Proof.
  intros HI Hq Hp Hqp Hpq. set (h := m_heap A cls m) in *.
  destruct (clear_ok h _ q o (assigned (o_at _ _ o) (o_at _ _ s)) HI Hq) as (X & par & t & h2 & H1 & H2 & H2n & H3 & H4 & H5 & H6 & H7 & _ & H8).
  destruct (inv_tree m lost p s HI Hp) as (parp & sp & Hsp & Hip & Hnp & Hhp). fold h in Hip, Hhp.
  assert (Hdis : forall x, In x (labels sp) -> In x (labels t) -> False).
  { apply (apart m lost sp t parp par HI Hip H2).
    - intros Hx. apply Hpq. rewrite <- Hsp, <- H1. apply (under_labels h parp sp _ Hip). exact Hx.
    - intros Hx. apply Hqp. rewrite <- Hsp, <- H1. apply (under_labels h par t _ H2). exact Hx. }
  set (o3 := with_map A cls (with_kids A cls (with_at A cls o (assigned (o_at A cls o) (o_at A cls s))) []) []) in *.
  set (h3 := put h2 q (Some o3)) in *. pose proof (get_lt _ _ _ H5) as Hql.
  assert (Hot3 : forall x, x <> q -> get h3 x = get h2 x) by (intros x Hx; apply get_put_other; assumption).
  assert (Hq3 : get h3 q = Some o3) by (apply get_put_same; exact Hql).
  assert (Hl3 : List.length h3 = List.length h) by (unfold h3; rewrite put_length by exact Hql; exact H4).
  assert (Hqt : In q (labels t)) by (rewrite <- H1; apply lptr_in).
  assert (Hfr : forall x, ~ In x (labels t) -> get h3 x = get h x).
  { intros x Hx. rewrite Hot3; [apply H7; exact Hx|]. intros ->. auto. }
  assert (Hip3 : in_heap h3 parp sp). { eapply in_heap_frame; [|exact Hip]. intros x Hx. apply Hfr. intros Hy. eauto. }
  assert (Hp3 : get h3 p = Some s). { rewrite Hfr; [exact Hp|]. intros Hy. apply (Hdis p); [rewrite <- Hsp; apply lptr_in|exact Hy]. }
  destruct sp as [p0 a c0 lk mm ks]. cbn [lptr] in Hsp. subst p0. pose proof Hip3 as Hi0. apply in_heap_eq in Hi0. destruct Hi0 as (Hg & _ & Hks).
  rewrite Hp3 in Hg. injection Hg as ->. cbn [labels] in Hnp. inversion Hnp as [|? ? Hnp1 Hnp2]; subst.
  destruct (push_ok clone (fun t => NoDup (labels t))) with (ts := ks) (h := h3) (q := lptr t) (o := o3) (par := Some p)
    as (h4 & ts & E4 & D1 & D2 & D3 & D4 & D5 & D6 & D7).
  { intros h0 par0 t0 Ht0 Hh0. apply (clone_ok h0 par0 t0 Ht0 Hh0). }
  { exact Hq3. }
  { rewrite Forall_forall in *. intros k Hk. split; [eapply NoDup_kid; eauto|]. split; [auto|]. intros Hx. apply (Hdis (lptr t)); [right; eapply labels_sub; eauto|apply lptr_in]. }
  cbn [o_kids o3 with_map with_kids app] in D4.
  assert (Hnd : NoDup (flat_map labels ts)) by (rewrite D2; apply seq_NoDup).
  assert (Hqn : ~ In (lptr t) (flat_map labels ts)) by (rewrite D2; intros Hx; apply in_seq in Hx; lia).
  destruct (link_trees ts h4 (lptr t) _ D4) as (h5 & E5 & F1 & F2 & F3 & F4); try assumption; try reflexivity; [eauto|].
  assert (Hfin : in_heap h5 (o_parent _ _ o) (L (lptr t) (assigned (o_at A cls o) a) (o_class A cls o) true (canon ts) (map (setlk true) ts))).
  { apply in_heap_eq. rewrite map_ptr_setlk. split; [rewrite F2; reflexivity|]. split; [apply canon_incl|exact F4]. }
  exists (mkMem A cls h5 (m_own _ _ m)), (map er ks). cbn [m_heap m_own o_at o_class]. split; [|split; [reflexivity|split; [exact Hhp|split; [|split; [|split]]]]].
  - cbn [NodeHeap.kstep]. unfold live. fold h. rewrite Hq, Hp. cbn [andb]. unfold NodeHeap.assign. rewrite Hq, Hp. cbn [o_at] in *. rewrite H3, H5. fold o3. fold h3.
    rewrite Hp3. cbn [o_kids]. rewrite E4, E5. reflexivity.
  - replace (map (classes A cls keep) (map er ks)) with (map er (map (setlk true) ts)); [apply (holds_er h5 _ _ Hfin)|].
    rewrite map_er_setlk, D6. unfold kept. rewrite map_map. reflexivity.
  - apply (linked_tidy h5 _ _ Hfin). apply tidy_eq. split; [rewrite canon_setlk; reflexivity|]. rewrite Forall_forall in *. intros x Hx. apply in_map_iff in Hx.
    destruct Hx as (y & <- & Hy). split; [apply setlk_twice|]. apply tidy_setlk. auto.
  - intros x Hx Hxq. apply (under_labels h par t x H2) in Hx. pose proof (in_heap_lt _ _ _ H2 x Hx).
    rewrite F3; [|exact Hxq|rewrite D2; intros Hy; apply in_seq in Hy; lia]. rewrite D3 by (lia || exact Hxq). rewrite Hot3 by exact Hxq. auto.
  - intros x o' Hx. destruct (in_dec Nat.eq_dec x (labels t)) as [Hy|Hy]; [left; apply (under_labels h par t x H2); exact Hy|]. right.
    pose proof (get_lt _ _ _ Hx). assert (x <> lptr t) by (intros ->; auto).
    rewrite F3; [|assumption|rewrite D2; intros Hz; apply in_seq in Hz; lia]. rewrite D3 by (lia || assumption). rewrite Hfr by exact Hy. exact Hx.
Qed.

Lemma self_spec m lost q o : SInv m lost -> get (m_heap _ _ m) q = Some o ->
  exists m' o', kstep m (KAssign _ _ q q) = Some (Done m') /\ get (m_heap _ _ m') q = Some o' /\ o_kids _ _ o' = [] /\
    (forall x, under (m_heap _ _ m) q x -> x <> q -> get (m_heap _ _ m') x = None).
Proof.
  intros HI Hq. set (h := m_heap A cls m) in *.
  destruct (clear_ok h _ q o (assigned (o_at _ _ o) (o_at _ _ o)) HI Hq) as (X & par & t & h2 & H1 & H2 & H2n & H3 & H4 & H5 & H6 & H7 & _ & H8).
  set (o3 := with_map A cls (with_kids A cls (with_at A cls o (assigned (o_at A cls o) (o_at A cls o))) []) []) in *.
  set (h3 := put h2 q (Some o3)) in *. pose proof (get_lt _ _ _ H5) as Hql.
  assert (Hq3 : get h3 q = Some o3) by (apply get_put_same; exact Hql).
  exists (mkMem A cls h3 (m_own _ _ m)), o3. cbn [m_heap]. split; [|split; [exact Hq3|split; [reflexivity|]]].
  - cbn [NodeHeap.kstep]. unfold live. fold h. rewrite Hq. cbn [andb]. unfold NodeHeap.assign. rewrite Hq, H3, H5. fold o3. fold h3. rewrite Hq3. cbn [o_kids o3 with_map with_kids NodeHeap.push_all].
    unfold NodeHeap.link_kids. rewrite Hq3. reflexivity.
  - intros x Hx Hxq. unfold h3. rewrite get_put_other by assumption. apply H6; [|exact Hxq]. apply (under_labels h par t x H2). rewrite H1. exact Hx.
Qed.
End Proofs.
