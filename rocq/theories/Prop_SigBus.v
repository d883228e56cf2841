(** C96: guards against bus errors. *)
From Coq Require Import NArith List Bool PeanoNat Lia.
From Verif Require Import SigBus.
Import ListNotations.

(** * Specification, in terms of the calls the threads make *)

(** Which thread is between the start of a constructor and the end of the
    destructor (or a constructor that could not register the handler). *)
Fixpoint holder (h : option tid) (tr : list label) : option tid :=
  match tr with
  | [] => h
  | LLock t :: r => holder (Some t) r
  | LAction _ false :: r => holder None r
  | LUnlock _ :: r => holder None r
  | _ :: r => holder h r
  end.

(** Whether thread [t] is in an access run by protect. *)
Fixpoint in_access (t : tid) (b : bool) (tr : list label) : bool :=
  match tr with
  | [] => b
  | LProtect u :: r => in_access t (if Nat.eqb u t then true else b) r
  | LDone u :: r | LThrow u :: r | LFault u :: r =>
      in_access t (if Nat.eqb u t then false else b) r
  | _ :: r => in_access t b r
  end.

(** Has [t] asked for SIGBUS to be blocked? *)
Definition asked (t : tid) (tr : list label) : Prop := In (LBlock t) tr.

(** The signals [t] itself has blocked. *)
Definition own (m : tid -> mask) (tr : list label) (t : tid) (s : signal) : Prop :=
  m t s = true \/ (s = 7%N /\ asked t tr).

(** The system calls that only fail for wrong arguments succeed. *)
Definition calls_ok (tr : list label) : Prop :=
  forall l, In l tr ->
    match l with LMask _ ok | LRestore _ ok | LUnmask _ ok => ok = true | _ => True end.

(** A thread makes a guard only with SIGBUS blocked. *)
Definition blocked_first (m : tid -> mask) (tr : list label) : Prop :=
  forall r t r', tr = r ++ LLock t :: r' -> own m r t 7%N.

(** What callers see is bracketed: from the return of a constructor to the
    return of its destructor nothing of another thread's guard happens. *)
Fixpoint bracketed (h : option tid) (es : list event) : Prop :=
  match es with
  | [] => True
  | EGuard t :: r => h = None /\ bracketed (Some t) r
  | EGone t :: r => h = Some t /\ bracketed None r
  | EReturn t :: r | EBus t :: r | EExc t :: r => h = Some t /\ bracketed h r
  | ENotBlocked _ :: r | ENotRegistered _ :: r | EMaskFailure _ :: r => h = None /\ bracketed h r
  | _ :: r => bracketed h r
  end.

(** * Invariant *)

Definition guard_of (es : list event) : option tid -> option tid :=
  fun h => fold_left (fun h e => match e with EGuard t => Some t | EGone _ => None | _ => h end) es h.

Definition owns (x : thread) (a : action) (p : proc) (b : bool) (t : tid) : Prop :=
  match t_pc x with
  | Idle => False
  | C1 => p_action p = a /\ b = false
  | C2 => p_action p = Uhal /\ t_act x = a /\ b = false
  | C3 => p_action p = Uhal /\ t_act x = a /\ t_mask x = guard_mask /\ b = false
  | Body => p_action p = Uhal /\ t_act x = a /\ t_mask x = guard_mask /\ b = false
  | Access k => p_action p = Uhal /\ t_act x = a /\ t_mask x = guard_mask /\ b = true /\
                p_env p = Some (t, k, guard_mask) /\ p_prot p = true
  | D1 => p_action p = a /\ t_mask x = guard_mask /\ b = false
  | D2 => p_action p = a /\ b = false
  end.

(** The mask the thread gets back. *)
Definition due (x : thread) : mask :=
  match t_pc x with
  | Idle | C1 | C2 | D2 => t_mask x
  | _ => t_saved x
  end.

(** The guard callers know of. *)
Definition known (x : thread) (t : tid) : option tid :=
  match t_pc x with
  | Idle | C1 | C2 | C3 => None
  | _ => Some t
  end.

Record inv (a : action) (m : tid -> mask) (tr : list label) (p : proc) (g : option tid) : Prop := {
  i_dead : p_dead p = false;
  i_lock : p_lock p = holder None tr;
  i_idle : forall t, p_lock p <> Some t ->
             t_pc (p_threads p t) = Idle /\ in_access t false tr = false;
  i_own : forall t, p_lock p = Some t ->
             owns (p_threads p t) a p (in_access t false tr) t /\
             g = known (p_threads p t) t /\ own m tr t 7%N;
  i_free : p_lock p = None -> p_action p = a /\ g = None;
  i_mask : forall t s, due (p_threads p t) s = true <-> own m tr t s
}.

Lemma holder_snoc tr l h : holder h (tr ++ [l]) =
  match l with LLock t => Some t | LAction _ false => None | LUnlock _ => None | _ => holder h tr end.
Proof.
  revert h; induction tr as [|k tr IH]; intros h; cbn.
  - destruct l as [| |? []| | | | | | | | |]; reflexivity.
  - destruct k as [| |? []| | | | | | | | |]; apply IH.
Qed.

Lemma in_access_snoc t tr l b : in_access t b (tr ++ [l]) =
  match l with
  | LProtect u => if Nat.eqb u t then true else in_access t b tr
  | LDone u | LThrow u | LFault u => if Nat.eqb u t then false else in_access t b tr
  | _ => in_access t b tr
  end.
Proof.
  revert b; induction tr as [|k tr IH]; intros b; cbn.
  - destruct l; reflexivity.
  - destruct k; apply IH.
Qed.

Lemma own_snoc m tr l t s : own m (tr ++ [l]) t s <->
  own m tr t s \/ (s = 7%N /\ l = LBlock t).
Proof.
  unfold own, asked. rewrite in_app_iff. cbn. intuition congruence.
Qed.

Lemma set_same f t x : set_thread f t x t = x.
Proof. unfold set_thread. now rewrite Nat.eqb_refl. Qed.
Lemma set_other f t x u : u <> t -> set_thread f t x u = f u.
Proof. intros H. unfold set_thread. now destruct (Nat.eqb_spec u t). Qed.

Lemma start_inv a m : inv a m [] (start a m) None.
Proof.
  split; cbn; try reflexivity; try discriminate; auto.
  intros t s. unfold own, asked. cbn. tauto.
Qed.

(** The thread with the lock moves on. *)
Lemma moved a m tr p g l p' g' t x' :
  inv a m tr p g -> p_lock p = Some t ->
  (forall u, l <> LBlock u) ->
  (forall u, u <> t -> in_access u false (tr ++ [l]) = in_access u false tr) ->
  p_dead p' = false -> p_lock p' = Some t -> holder None (tr ++ [l]) = Some t ->
  p_threads p' = set_thread (p_threads p) t x' ->
  owns x' a p' (in_access t false (tr ++ [l])) t ->
  g' = known x' t -> (forall s, due x' s = due (p_threads p t) s) ->
  inv a m (tr ++ [l]) p' g'.
Proof.
  intros [Dd Lk Id Ow Fr Mk] L NB IA Dd' L' U' T' O' G' Du.
  assert (MK : forall u s, own m (tr ++ [l]) u s <-> own m tr u s).
  { intros u s. rewrite own_snoc. split; [intros [H|[_ H]]; [exact H|now destruct (NB u)]|auto]. }
  split.
  - exact Dd'.
  - congruence.
  - intros u H. rewrite L' in H. assert (n : u <> t) by congruence.
    rewrite T', set_other, IA by exact n. apply Id. congruence.
  - intros u H. assert (u = t) as -> by congruence. rewrite T', set_same.
    split; [exact O'|]. split; [exact G'|]. apply MK. now destruct (Ow _ L) as (_ & _ & Q).
  - congruence.
  - intros u s. rewrite MK, T', <- Mk. destruct (Nat.eq_dec u t) as [->|n].
    + rewrite set_same, Du. reflexivity.
    + rewrite set_other by exact n. reflexivity.
Qed.

(** The thread with the lock gives it up. *)
Lemma left_it a m tr p g l p' t x' :
  inv a m tr p g -> p_lock p = Some t ->
  (forall u, l <> LBlock u) ->
  (forall u, in_access u false (tr ++ [l]) = in_access u false tr) ->
  in_access t false tr = false ->
  p_dead p' = false -> p_lock p' = None -> holder None (tr ++ [l]) = None ->
  p_threads p' = set_thread (p_threads p) t x' ->
  t_pc x' = Idle -> p_action p' = a -> (forall s, t_mask x' s = due (p_threads p t) s) ->
  inv a m (tr ++ [l]) p' None.
Proof.
  intros [Dd Lk Id Ow Fr Mk] L NB IA It Dd' L' U' T' P' A' Du.
  assert (MK : forall u s, own m (tr ++ [l]) u s <-> own m tr u s).
  { intros u s. rewrite own_snoc. split; [intros [H|[_ H]]; [exact H|now destruct (NB u)]|auto]. }
  split.
  - exact Dd'.
  - congruence.
  - intros u _. rewrite IA, T'. destruct (Nat.eq_dec u t) as [->|n].
    + rewrite set_same. auto.
    + rewrite set_other by exact n. apply Id. congruence.
  - congruence.
  - auto.
  - intros u s. rewrite MK, T', <- Mk. destruct (Nat.eq_dec u t) as [->|n].
    + rewrite set_same. unfold due at 1. rewrite P', Du. reflexivity.
    + rewrite set_other by exact n. reflexivity.
Qed.

(** One step that is not a bus error outside an access. *)
Lemma step_inv a m tr p g l p' e :
  inv a m tr p g ->
  calls_ok [l] ->
  (forall t, l = LLock t -> own m tr t 7%N) ->
  (forall t, l = LFault t -> in_access t false tr = true) ->
  step p l = Some (p', e) ->
  inv a m (tr ++ [l]) p' (guard_of e g) /\ bracketed g e.
Proof.
  intros HI Ok Bl Fa St. pose proof HI as [Dd Lk Id Ow Fr Mk].
  unfold step in St. rewrite Dd in St.
  assert (HO : forall t, t_pc (p_threads p t) <> Idle -> p_lock p = Some t).
  { intros t H. destruct (p_lock p) as [u|] eqn:E.
    - destruct (Nat.eq_dec u t) as [->|n]; [reflexivity|].
      destruct (Id t) as [Q _]; [congruence|contradiction].
    - destruct (Id t) as [Q _]; [congruence|contradiction]. }
  destruct l as [t|t|t ok|t ok|t|t|t|t|t|t ok|t ok|t].
  - (* LBlock *)
    destruct (t_pc (p_threads p t)) eqn:P; try discriminate St. injection St as <- <-.
    split; [|exact I]. unfold with_thread.
    assert (NL : p_lock p <> Some t).
    { intros E. destruct (Ow _ E) as (Q & _). unfold owns in Q. now rewrite P in Q. }
    split; cbn [p_dead p_lock p_threads p_action guard_of fold_left p_env p_prot].
    + exact Dd.
    + now rewrite holder_snoc.
    + intros u H. rewrite in_access_snoc. destruct (Nat.eq_dec u t) as [->|n].
      * rewrite set_same. split; [reflexivity|now apply Id].
      * rewrite set_other by exact n. now apply Id.
    + intros u H. assert (n : u <> t) by congruence.
      rewrite set_other by exact n. rewrite in_access_snoc, own_snoc.
      destruct (Ow _ H) as (Q1 & Q2 & Q3). auto.
    + exact Fr.
    + intros u s. rewrite own_snoc. destruct (Nat.eq_dec u t) as [->|n].
      * rewrite set_same. unfold due. cbn [t_pc t_mask]. unfold block_sigbus, SIGBUS.
        specialize (Mk t s). unfold due in Mk. rewrite P in Mk.
        rewrite orb_true_iff, N.eqb_eq, Mk. tauto.
      * rewrite set_other by exact n. rewrite Mk. split; [auto|].
        intros [H|[_ H]]; [exact H|congruence].
  - (* LLock *)
    destruct (t_pc (p_threads p t)) eqn:P; try discriminate St.
    destruct (p_lock p) eqn:L; try discriminate St. injection St as <- <-.
    split; [|exact I]. destruct (Fr eq_refl) as (Fa1 & ->).
    split; cbn [p_dead p_lock p_threads p_action guard_of fold_left p_env p_prot].
    + reflexivity.
    + now rewrite holder_snoc.
    + intros u H. assert (n : u <> t) by congruence.
      rewrite set_other by exact n. rewrite in_access_snoc. now apply Id.
    + intros u H. assert (u = t) as -> by congruence. rewrite set_same, in_access_snoc, own_snoc.
      unfold owns, known, at_pc. cbn [t_pc p_action].
      destruct (Id t) as (_ & Q); [discriminate|]. auto.
    + discriminate.
    + intros u s. rewrite own_snoc. destruct (Nat.eq_dec u t) as [->|n].
      * rewrite set_same. specialize (Mk t s). unfold due in *. rewrite P in Mk.
        cbn [at_pc t_pc t_mask]. rewrite Mk. split; [auto|intros [H|[_ H]]; [exact H|discriminate]].
      * rewrite set_other by exact n. rewrite Mk.
        split; [auto|intros [H|[_ H]]; [exact H|discriminate]].
  - (* LAction *)
    destruct (t_pc (p_threads p t)) eqn:P; try discriminate St.
    assert (L : p_lock p = Some t) by (apply HO; congruence).
    destruct (Ow _ L) as (Q & -> & _). unfold owns in Q. rewrite P in Q. destruct Q as (QA & QB).
    unfold known. rewrite P.
    destruct ok; injection St as <- <-.
    + split; [|exact I]. eapply moved with (p := p) (t := t) (x' := mkThread C2 _ _ _); [exact HI|exact L|..];
        try discriminate; try reflexivity; try exact L; try exact Dd; try exact QA; try exact QB.
      * intros u n. now rewrite in_access_snoc.
      * rewrite holder_snoc. congruence.
      * unfold owns. cbn. rewrite in_access_snoc. auto.
      * intros s. unfold due. rewrite P. reflexivity.
    + split; [|cbn; auto]. eapply left_it with (p := p) (t := t) (x' := at_pc (p_threads p t) Idle); [exact HI|exact L|..];
        try discriminate; try reflexivity; try exact L; try exact Dd; try exact QA; try exact QB.
      * intros u. now rewrite in_access_snoc.
      * rewrite holder_snoc. reflexivity.
      * intros s. unfold due. rewrite P. reflexivity.
  - (* LMask *)
    specialize (Ok _ (or_introl eq_refl)). cbn in Ok. subst ok.
    destruct (t_pc (p_threads p t)) eqn:P; try discriminate St.
    assert (L : p_lock p = Some t) by (apply HO; congruence).
    destruct (Ow _ L) as (Q & -> & _). unfold owns in Q. rewrite P in Q.
    unfold known. rewrite P. destruct Q as (QA & QB & QC).
    injection St as <- <-.
    split; [|exact I]. eapply moved with (p := p) (t := t) (x' := mkThread C3 _ _ _); [exact HI|exact L|..];
        try discriminate; try reflexivity; try exact L; try exact Dd; try exact QA; try exact QB.
    + intros u n. now rewrite in_access_snoc.
    + rewrite holder_snoc. congruence.
    + unfold owns. cbn. rewrite in_access_snoc. auto.
    + intros s. unfold due. rewrite P. reflexivity.
  - (* LCheck *)
    destruct (t_pc (p_threads p t)) eqn:P; try discriminate St.
    assert (L : p_lock p = Some t) by (apply HO; congruence).
    destruct (Ow _ L) as (Q & -> & QO). unfold owns in Q. rewrite P in Q.
    unfold known. rewrite P. destruct Q as (QA & QB & QC & QD).
    assert (SB : t_saved (p_threads p t) SIGBUS = true).
    { specialize (Mk t 7%N). unfold due in Mk. rewrite P in Mk. apply Mk. exact QO. }
    rewrite SB in St. injection St as <- <-.
    split; [|cbn; auto]. eapply moved with (p := p) (t := t) (x' := at_pc (p_threads p t) Body); [exact HI|exact L|..];
        try discriminate; try reflexivity; try exact L; try exact Dd; try exact QA; try exact QB.
    + intros u n. now rewrite in_access_snoc.
    + rewrite holder_snoc. congruence.
    + unfold owns. cbn. rewrite in_access_snoc. auto.
    + intros s. unfold due. rewrite P. reflexivity.
  - (* LProtect *)
    destruct (t_pc (p_threads p t)) eqn:P; try discriminate St.
    assert (L : p_lock p = Some t) by (apply HO; congruence).
    destruct (Ow _ L) as (Q & -> & QO). unfold owns in Q. rewrite P in Q.
    unfold known. rewrite P. destruct Q as (QA & QB & QC & QD).
    injection St as <- <-.
    split; [|cbn; auto]. eapply moved with (p := p) (t := t) (x' := at_pc (p_threads p t) (Access _)); [exact HI|exact L|..];
        try discriminate; try reflexivity; try exact L; try exact Dd; try exact QA; try exact QB.
    + intros u n. rewrite in_access_snoc. destruct (Nat.eqb_spec t u); congruence.
    + rewrite holder_snoc. congruence.
    + unfold owns. cbn. rewrite in_access_snoc, Nat.eqb_refl, QC. auto 10.
    + intros s. unfold due. rewrite P. reflexivity.
  - (* LDone *)
    destruct (t_pc (p_threads p t)) eqn:P; try discriminate St.
    assert (L : p_lock p = Some t) by (apply HO; congruence).
    destruct (Ow _ L) as (Q & -> & QO). unfold owns in Q. rewrite P in Q.
    unfold known. rewrite P. destruct Q as (QA & QB & QC & QD).
    injection St as <- <-.
    split; [|cbn; auto]. eapply moved with (p := p) (t := t) (x' := at_pc (p_threads p t) Body); [exact HI|exact L|..];
        try discriminate; try reflexivity; try exact L; try exact Dd; try exact QA; try exact QB.
    + intros u n. rewrite in_access_snoc. destruct (Nat.eqb_spec t u); congruence.
    + rewrite holder_snoc. congruence.
    + unfold owns. cbn. rewrite in_access_snoc, Nat.eqb_refl. auto 10.
    + intros s. unfold due. rewrite P. reflexivity.
  - (* LThrow *)
    destruct (t_pc (p_threads p t)) eqn:P; try discriminate St.
    assert (L : p_lock p = Some t) by (apply HO; congruence).
    destruct (Ow _ L) as (Q & -> & QO). unfold owns in Q. rewrite P in Q.
    unfold known. rewrite P. destruct Q as (QA & QB & QC & QD).
    injection St as <- <-.
    split; [|cbn; auto]. eapply moved with (p := p) (t := t) (x' := at_pc (p_threads p t) Body); [exact HI|exact L|..];
        try discriminate; try reflexivity; try exact L; try exact Dd; try exact QA; try exact QB.
    + intros u n. rewrite in_access_snoc. destruct (Nat.eqb_spec t u); congruence.
    + rewrite holder_snoc. congruence.
    + unfold owns. cbn. rewrite in_access_snoc, Nat.eqb_refl. auto 10.
    + intros s. unfold due. rewrite P. reflexivity.
  - (* LFault *)
    specialize (Fa _ eq_refl).
    assert (L : p_lock p = Some t).
    { destruct (p_lock p) as [u|] eqn:E.
      - destruct (Nat.eq_dec u t) as [->|n]; [reflexivity|].
        destruct (Id t) as [_ Q]; congruence.
      - destruct (Id t) as [_ Q]; congruence. }
    destruct (Ow _ L) as (Q & -> & QO). unfold owns in Q. rewrite Fa in Q.
    destruct (t_pc (p_threads p t)) eqn:P; try (exfalso; intuition discriminate).
    destruct Q as (QA & QB & QC & _ & QE & QF).
    injection St as St. unfold fault in St. rewrite QC, QA in St.
    change (guard_mask SIGBUS) with false in St. cbv iota in St.
    unfold handle in St. rewrite QE, QF, P, !Nat.eqb_refl in St. cbn [andb app] in St.
    injection St as <- <-. unfold known. rewrite P.
    split; [|cbn; auto]. eapply moved with (p := p) (t := t) (x' := mkThread Body _ _ _); [exact HI|exact L|..];
        try discriminate; try reflexivity; try exact L; try exact Dd; try exact QA; try exact QB.
    + intros u n. rewrite in_access_snoc. destruct (Nat.eqb_spec t u); congruence.
    + rewrite holder_snoc. congruence.
    + unfold owns. cbn. rewrite in_access_snoc, Nat.eqb_refl. auto 10.
    + intros s. unfold due. rewrite P. reflexivity.
  - (* LRestore *)
    specialize (Ok _ (or_introl eq_refl)). cbn in Ok. subst ok.
    destruct (t_pc (p_threads p t)) eqn:P; try discriminate St.
    assert (L : p_lock p = Some t) by (apply HO; congruence).
    destruct (Ow _ L) as (Q & -> & _). unfold owns in Q. rewrite P in Q.
    unfold known. rewrite P. destruct Q as (QA & QB & QC & QD).
    injection St as <- <-.
    split; [|exact I]. eapply moved with (p := p) (t := t) (x' := at_pc (p_threads p t) D1); [exact HI|exact L|..];
        try discriminate; try reflexivity; try exact L; try exact Dd; try exact QA; try exact QB.
    + intros u n. now rewrite in_access_snoc.
    + rewrite holder_snoc. congruence.
    + unfold owns. cbn. rewrite in_access_snoc. auto.
    + intros s. unfold due. rewrite P. reflexivity.
  - (* LUnmask *)
    specialize (Ok _ (or_introl eq_refl)). cbn in Ok. subst ok.
    destruct (t_pc (p_threads p t)) eqn:P; try discriminate St.
    assert (L : p_lock p = Some t) by (apply HO; congruence).
    destruct (Ow _ L) as (Q & -> & _). unfold owns in Q. rewrite P in Q.
    unfold known. rewrite P. destruct Q as (QA & QB & QC).
    injection St as <- <-.
    split; [|exact I]. eapply moved with (p := p) (t := t) (x' := mkThread D2 _ _ _); [exact HI|exact L|..];
        try discriminate; try reflexivity; try exact L; try exact Dd; try exact QA; try exact QB.
    + intros u n. now rewrite in_access_snoc.
    + rewrite holder_snoc. congruence.
    + unfold owns. cbn. rewrite in_access_snoc. auto.
    + intros s. unfold due. rewrite P. reflexivity.
  - (* LUnlock *)
    destruct (t_pc (p_threads p t)) eqn:P; try discriminate St.
    assert (L : p_lock p = Some t) by (apply HO; congruence).
    destruct (Ow _ L) as (Q & -> & _). unfold owns in Q. rewrite P in Q.
    unfold known. rewrite P. destruct Q as (QA & QB).
    injection St as <- <-.
    split; [|cbn; auto]. eapply left_it with (p := p) (t := t) (x' := at_pc (p_threads p t) Idle); [exact HI|exact L|..];
        try discriminate; try reflexivity; try exact L; try exact Dd; try exact QA; try exact QB.
    + intros u. now rewrite in_access_snoc.
    + rewrite holder_snoc. reflexivity.
    + intros s. unfold due. rewrite P. reflexivity.
Qed.

(** A bus error outside an access ends the process. *)
Lemma fault_out a m tr p g t p' e :
  inv a m tr p g -> in_access t false tr = false -> fault p t = (p', e) ->
  p_dead p' = true /\ bracketed g e.
Proof.
  intros [Dd Lk Id Ow Fr Mk] IA F.
  assert (NA : forall k, t_pc (p_threads p t) <> Access k).
  { intros k P. destruct (p_lock p) as [u|] eqn:L.
    - destruct (Nat.eq_dec u t) as [->|n].
      + destruct (Ow _ eq_refl) as (Q & _). unfold owns in Q. rewrite P in Q. intuition congruence.
      + destruct (Id t) as [Q _]; congruence.
    - destruct (Id t) as [Q _]; congruence. }
  unfold fault, handle in F.
  destruct (t_mask (p_threads p t) SIGBUS).
  { injection F as <- <-. cbn. auto. }
  destruct (p_action p).
  2:{ injection F as <- <-. cbn. auto. }
  assert (W : forall e', bracketed g ((if p_prot p then [] else [EWarn t]) ++ [EUndefined t] ++ e') <->
                         bracketed g e') by (intros; destruct (p_prot p); reflexivity).
  destruct (p_env p) as [[[u k] mm]|].
  - destruct (t_pc (p_threads p t)) eqn:P;
      try (injection F as <- <-; split; [reflexivity|apply (W []); exact I]).
    destruct (NA _ eq_refl).
  - injection F as <- <-. split; [reflexivity|apply (W []); exact I].
Qed.

Lemma bracketed_app g es es' : bracketed g es -> bracketed (guard_of es g) es' -> bracketed g (es ++ es').
Proof.
  revert g; induction es as [|e es IH]; intros g H H'; [exact H'|].
  destruct e; cbn in *; try (split; [apply H|]); apply IH; try apply H; try exact H'; tauto.
Qed.

Lemma run_inv a m tr0 p g tr p' es :
  inv a m tr0 p g -> calls_ok tr ->
  (forall r t r', tr = r ++ LLock t :: r' -> own m (tr0 ++ r) t 7%N) ->
  run p tr = Some (p', es) ->
  bracketed g es /\
  (inv a m (tr0 ++ tr) p' (guard_of es g) \/
   p_dead p' = true /\ exists r t, tr = r ++ [LFault t] /\ in_access t false (tr0 ++ r) = false).
Proof.
  revert tr0 p g es. induction tr as [|l tr IH]; intros tr0 p g es HI Ok Bl R; cbn [run] in R.
  - injection R as <- <-. split; [exact I|]. left. now rewrite app_nil_r.
  - destruct (step p l) as [[p1 e]|] eqn:St; [|discriminate].
    destruct (run p1 tr) as [[p2 es2]|] eqn:R2; [|discriminate]. injection R as <- <-.
    assert (D : (exists t, l = LFault t /\ in_access t false tr0 = false) \/
                (forall t, l = LFault t -> in_access t false tr0 = true)).
    { destruct l; try (right; discriminate).
      destruct (in_access t false tr0) eqn:E; [right; intros u [= <-]; exact E|left; eauto]. }
    destruct D as [(t & -> & IA)|D].
    + unfold step in St. rewrite (i_dead _ _ _ _ _ HI) in St. injection St as St.
      destruct (fault_out _ _ _ _ _ _ _ _ HI IA St) as (Dd & Br).
      destruct tr as [|l' tr]; cbn [run] in R2.
      * injection R2 as <- <-. rewrite app_nil_r. split; [exact Br|]. right. split; [exact Dd|].
        exists [], t. rewrite app_nil_r. auto.
      * exfalso. unfold step in R2. rewrite Dd in R2. discriminate.
    + destruct (step_inv a m tr0 p g l p1 e HI) as (HI1 & Br); [|..|exact D|exact St|].
      * intros x [<-|[]]. apply Ok. now left.
      * intros t ->. specialize (Bl [] t tr eq_refl). now rewrite app_nil_r in Bl.
      * destruct (IH (tr0 ++ [l]) p1 (guard_of e g) es2 HI1) as (Br2 & C).
        -- intros x Hx. apply Ok. now right.
        -- intros r t r' E. rewrite <- app_assoc. apply (Bl (l :: r) t r'). cbn. congruence.
        -- exact R2.
        -- split; [now apply bracketed_app|].
           destruct C as [C|(Dd & r & t & -> & C)].
           ++ left. unfold guard_of in *. rewrite fold_left_app. now rewrite <- app_assoc in C.
           ++ right. split; [exact Dd|]. exists (l :: r), t. split; [reflexivity|].
              now rewrite <- app_assoc in C.
Qed.

Lemma reach a m tr p es :
  run (start a m) tr = Some (p, es) -> calls_ok tr -> blocked_first m tr ->
  bracketed None es /\
  (inv a m tr p (guard_of es None) \/
   p_dead p = true /\ exists r t, tr = r ++ [LFault t] /\ in_access t false r = false).
Proof.
  intros R Ok Bl. exact (run_inv a m [] _ _ tr p es (start_inv a m) Ok Bl R).
Qed.

Lemma run_app p tr tr' : run p (tr ++ tr') =
  match run p tr with
  | Some (p1, es) => match run p1 tr' with Some (p2, es') => Some (p2, es ++ es') | None => None end
  | None => None
  end.
Proof.
  revert p; induction tr as [|l tr IH]; intros p; cbn [run app].
  - now destruct (run p tr') as [[? ?]|].
  - destruct (step p l) as [[p1 e]|]; [|reflexivity]. rewrite IH.
    destruct (run p1 tr) as [[p2 es]|]; [|reflexivity].
    destruct (run p2 tr') as [[p3 es']|]; [|reflexivity]. now rewrite app_assoc.
Qed.

(** * Theorems *)

(** Whatever the threads do, in whatever order: the accesses of one guard are
    never mixed with another thread's; the process only dies of a bus error
    outside an access; while no guard exists the program's own action for
    SIGBUS is in place, and a thread without a guard has its own signal mask. *)
Theorem C96_restored_partial : forall a m tr p es,
  run (start a m) tr = Some (p, es) -> calls_ok tr -> blocked_first m tr ->
  bracketed None es /\
  (p_dead p = true ->
     exists r t, tr = r ++ [LFault t] /\ in_access t false r = false) /\
  (p_dead p = false ->
     (holder None tr = None -> p_action p = a) /\
     (forall t, holder None tr <> Some t ->
        forall s, t_mask (p_threads p t) s = true <-> own m tr t s)).
Proof.
  intros a m tr p es R Ok Bl. destruct (reach _ _ _ _ _ R Ok Bl) as (Br & [HI|(Dd & D)]).
  - split; [exact Br|]. destruct HI as [Dd Lk Id Ow Fr Mk]. split; [congruence|]. intros _.
    rewrite <- Lk. split; [apply Fr|]. intros t N s.
    rewrite <- Mk. destruct (Id _ N) as (P & _). unfold due. now rewrite P.
  - split; [exact Br|]. split; [intros _; exact D|congruence].
Qed.

(** A bus error in an access is an exception of that call of protect, in that
    thread; the handler and all signal masks stay, the other threads notice
    nothing, and the thread may go on to use its guard or destroy it. *)
Theorem C96_bus_error : forall a m tr p es t,
  run (start a m) tr = Some (p, es) -> calls_ok tr -> blocked_first m tr ->
  p_dead p = false -> in_access t false tr = true ->
  exists p', run (start a m) (tr ++ [LFault t]) = Some (p', es ++ [EBus t]) /\
    p_dead p' = false /\ p_action p' = p_action p /\ p_lock p' = Some t /\
    (forall u s, t_mask (p_threads p' u) s = t_mask (p_threads p u) s) /\
    (forall u, u <> t -> p_threads p' u = p_threads p u) /\
    run p' [LProtect t] <> None /\
    (exists p'', run p' [LRestore t true; LUnmask t true; LUnlock t] = Some (p'', [EGone t]) /\
       p_action p'' = a /\ forall s, t_mask (p_threads p'' t) s = true <-> own m tr t s).
Proof.
  intros a m tr p es t R Ok Bl Dd IA.
  destruct (reach _ _ _ _ _ R Ok Bl) as (_ & [HI|(? & _)]); [|congruence].
  pose proof HI as [_ Lk Id Ow Fr Mk].
  assert (L : p_lock p = Some t).
  { destruct (p_lock p) as [u|] eqn:E.
    - destruct (Nat.eq_dec u t) as [->|n]; [reflexivity|]. destruct (Id t) as [_ Q]; congruence.
    - destruct (Id t) as [_ Q]; congruence. }
  destruct (Ow _ L) as (Q & _). unfold owns in Q. rewrite IA in Q.
  specialize (Mk t). unfold due in Mk.
  destruct (t_pc (p_threads p t)) eqn:P; try (exfalso; intuition discriminate).
  destruct Q as (QA & QB & QC & _ & QE & QF).
  rewrite run_app, R. cbn [run step]. unfold step. rewrite Dd. unfold fault. rewrite QC, QA.
  change (guard_mask SIGBUS) with false. cbv iota. unfold handle. rewrite QE, QF, P, !Nat.eqb_refl.
  cbn [andb app]. eexists. split; [reflexivity|].
  cbn [p_dead p_action p_lock p_threads].
  split; [exact Dd|]. split; [congruence|]. split; [exact L|].
  split.
  { intros u s. destruct (Nat.eq_dec u t) as [->|n]; [|now rewrite set_other].
    rewrite set_same. cbn. now rewrite QC. }
  split; [intros u n; now rewrite set_other|].
  split.
  { cbn [run step p_dead p_threads]. unfold step. cbn [p_dead p_threads]. rewrite Dd, set_same.
    cbn. discriminate. }
  cbn [run]. unfold step. cbn [p_dead p_threads]. rewrite Dd. rewrite !set_same. cbn [t_pc].
  unfold with_thread, leave. cbn [p_dead p_threads]. rewrite !set_same.
  cbn [t_pc at_pc p_dead p_threads p_action p_lock p_prot p_env p_calls t_mask t_act t_saved].
  rewrite !set_same. cbn [t_pc at_pc p_dead p_threads t_mask t_act t_saved app].
  eexists. split; [reflexivity|]. cbn [p_action p_threads]. rewrite set_same.
  cbn [t_mask at_pc t_act]. split; [exact QB|exact Mk].
Qed.

(** Two threads, each blocking SIGBUS first; thread 1 gets a bus error, thread
    2 waits for its guard and then reads in peace. *)
Definition sb_masks : tid -> mask := fun _ _ => false.
Definition sb_run : list label :=
  [LBlock 1; LBlock 2; LLock 1; LAction 1 true; LMask 1 true; LCheck 1; LProtect 1;
   LFault 1; LRestore 1 true; LUnmask 1 true; LUnlock 1;
   LLock 2; LAction 2 true; LMask 2 true; LCheck 2; LProtect 2].

Example C96_case :
  calls_ok sb_run /\ blocked_first sb_masks sb_run /\ in_access 2 false sb_run = true /\
  option_map (fun r => (p_dead (fst r), p_action (fst r), p_lock (fst r),
                        t_mask (p_threads (fst r) 1) 7%N, t_mask (p_threads (fst r) 2) 7%N, snd r))
    (run (start (Other 5) sb_masks) sb_run) =
    Some (false, Uhal, Some 2, true, false, [EGuard 1; EBus 1; EGone 1; EGuard 2]) /\
  option_map (fun r => (p_dead (fst r), p_action (fst r), snd r))
    (run (start (Other 5) sb_masks)
       (sb_run ++ [LDone 2; LRestore 2 true; LUnmask 2 true; LUnlock 2])) =
    Some (false, Other 5, [EGuard 1; EBus 1; EGone 1; EGuard 2; EReturn 2; EGone 2]).
Proof.
  split; [|split; [|vm_compute; auto]].
  - intros l H. cbn in H. repeat (destruct H as [<-|H]; [easy|]). destruct H.
  - intros r t r' E. right. split; [reflexivity|]. unfold asked, sb_run in *.
    do 17 (destruct r as [|? r]; [try discriminate E; injection E as <- _; cbn; tauto|
                                  try discriminate E; injection E as <- E]).
Qed.

(** A guard that refuses to work because SIGBUS is not blocked does not put
    back what it has changed: the process keeps uHAL's handler, with no guard
    to jump to, and the thread keeps blocking SIGTERM and most other signals.
    A bus error in that thread, which until then ran the program's own action,
    is then undefined behaviour; and guards that succeed later put back uHAL's
    handler as if it were the program's. *)
Theorem C96_not_blocked_refuted : forall n m t, m t 7%N = false ->
  let failed := [LLock t; LAction t true; LMask t true; LCheck t] in
  (exists p, run (start (Other n) m) failed = Some (p, [ENotBlocked t]) /\
     p_lock p = None /\ p_action p = Uhal /\ t_mask (p_threads p t) 15%N = true) /\
  (exists p, run (start (Other n) m) [LFault t] = Some (p, [EOther t n])) /\
  (exists p, run (start (Other n) m) (failed ++ [LFault t]) =
             Some (p, [ENotBlocked t; EWarn t; EUndefined t])) /\
  (exists p, run (start (Other n) m)
               (failed ++ [LBlock t] ++ failed ++ [LRestore t true; LUnmask t true; LUnlock t]) =
             Some (p, [ENotBlocked t; EGuard t; EGone t]) /\ p_action p = Uhal).
Proof.
  intros n m t H failed. unfold failed. clear failed.
  Ltac sb_go := repeat (progress (unfold step, with_thread, leave, at_pc, fault, handle, die, start;
    cbn [run app p_dead p_action p_lock p_prot p_env p_calls p_threads t_pc t_mask t_act t_saved];
    rewrite ?set_same)).
  change (m t SIGBUS = false) in H.
  split; [|split; [|split]].
  - sb_go. rewrite H. sb_go. eexists. split; [reflexivity|]. sb_go. auto.
  - sb_go. rewrite H. eexists. reflexivity.
  - sb_go. rewrite H. sb_go. change (guard_mask SIGBUS) with false. sb_go. eexists. reflexivity.
  - sb_go. rewrite H. sb_go. change (block_sigbus guard_mask SIGBUS) with true. sb_go.
    eexists. split; reflexivity.
Qed.

(** Without exceptions in an access, the flag is set only during accesses. *)
Lemma flag p tr0 tr p' es :
  (p_prot p = true -> exists t, in_access t false tr0 = true) ->
  (forall t, ~ In (LThrow t) tr) -> run p tr = Some (p', es) -> p_dead p' = false ->
  p_prot p' = true -> exists t, in_access t false (tr0 ++ tr) = true.
Proof.
  revert p tr0 es. induction tr as [|l tr IH]; intros p tr0 es H NT R D; cbn [run] in R.
  - injection R as <- <-. now rewrite app_nil_r.
  - destruct (step p l) as [[p1 e]|] eqn:St; [|discriminate].
    destruct (run p1 tr) as [[p2 es2]|] eqn:R2; [|discriminate]. injection R as <- <-.
    replace (tr0 ++ l :: tr) with ((tr0 ++ [l]) ++ tr) by now rewrite <- app_assoc.
    apply (IH p1 (tr0 ++ [l]) es2); [|intros t Q; apply (NT t); now right|exact R2|exact D].
    assert (D1 : p_dead p1 = false).
    { destruct tr as [|l' tr]; cbn [run] in R2; [congruence|].
      unfold step in R2. destruct (p_dead p1); [discriminate|reflexivity]. }
    assert (KEEP : (forall u, in_access u false (tr0 ++ [l]) = in_access u false tr0) ->
                   p_prot p1 = p_prot p ->
                   p_prot p1 = true -> exists t, in_access t false (tr0 ++ [l]) = true).
    { intros A B C. rewrite B in C. destruct (H C) as (t & T). exists t. now rewrite A. }
    unfold step in St. destruct (p_dead p) eqn:Dp; [discriminate|].
    destruct l as [t|t|t ok|t ok|t|t|t|t|t|t ok|t ok|t];
      try (apply KEEP; [intros u; now rewrite in_access_snoc|]).
    + destruct (t_pc (p_threads p t)); try discriminate St. now injection St as <- _.
    + destruct (t_pc (p_threads p t)), (p_lock p); try discriminate St. now injection St as <- _.
    + destruct (t_pc (p_threads p t)); try discriminate St. destruct ok; now injection St as <- _.
    + destruct (t_pc (p_threads p t)); try discriminate St. destruct ok; now injection St as <- _.
    + destruct (t_pc (p_threads p t)); try discriminate St.
      destruct (t_saved (p_threads p t) SIGBUS); now injection St as <- _.
    + intros _. exists t. rewrite in_access_snoc, Nat.eqb_refl. reflexivity.
    + destruct (t_pc (p_threads p t)); try discriminate St. injection St as <- _. discriminate.
    + destruct (NT t). now left.
    + injection St as St. unfold fault, handle in St.
      destruct (t_mask (p_threads p t) SIGBUS); [injection St as <- _; discriminate D1|].
      destruct (p_action p); [|injection St as <- _; discriminate D1].
      destruct (p_env p) as [[[u k] mm]|]; [|injection St as <- _; discriminate D1].
      destruct (t_pc (p_threads p t)); try (injection St as <- _; discriminate D1).
      destruct (Nat.eqb u t && Nat.eqb k0 k)%bool; injection St as <- _; [discriminate|discriminate D1].
    + destruct (t_pc (p_threads p t)); try discriminate St. now injection St as <- _.
    + destruct (t_pc (p_threads p t)); try discriminate St. now injection St as <- _.
    + destruct (t_pc (p_threads p t)); try discriminate St. now injection St as <- _.
Qed.

(** A bus error of a thread that has a guard and could call protect, but has
    not, comes with the warning, as long as no access has thrown an exception
    of its own. *)
Theorem C96_warning_partial : forall a m tr p es t,
  run (start a m) tr = Some (p, es) -> calls_ok tr -> blocked_first m tr ->
  (forall u, ~ In (LThrow u) tr) -> run p [LProtect t] <> None ->
  exists p', run p [LFault t] = Some (p', [EWarn t; EUndefined t]).
Proof.
  intros a m tr p es t R Ok Bl NT Can.
  assert (P : t_pc (p_threads p t) = Body /\ p_dead p = false).
  { cbn [run] in Can. unfold step in Can. destruct (p_dead p); [now destruct Can|].
    destruct (t_pc (p_threads p t)); try (now destruct Can). auto. }
  destruct P as (P & Dd).
  destruct (reach _ _ _ _ _ R Ok Bl) as (_ & [HI|(? & _)]); [|congruence].
  pose proof HI as [_ Lk Id Ow Fr Mk].
  assert (L : p_lock p = Some t).
  { destruct (p_lock p) as [u|] eqn:E.
    - destruct (Nat.eq_dec u t) as [->|n]; [reflexivity|]. destruct (Id t) as [Q _]; congruence.
    - destruct (Id t) as [Q _]; congruence. }
  destruct (Ow _ L) as (Q & _). unfold owns in Q. rewrite P in Q. destruct Q as (QA & _ & QC & QD).
  assert (F : p_prot p = false).
  { destruct (p_prot p) eqn:F; [|reflexivity]. exfalso.
    destruct (flag (start a m) [] tr p es) as (u & U); try assumption; [discriminate|].
    destruct (Nat.eq_dec u t) as [->|n]; [cbn [app] in U; congruence|].
    destruct (Id u) as [_ Q]; cbn [app] in U; congruence. }
  cbn [run]. unfold step. rewrite Dd. unfold fault. rewrite QC, QA.
  change (guard_mask SIGBUS) with false. cbv iota. unfold handle. rewrite P, F.
  destruct (p_env p) as [[[u k] mm]|]; eexists; reflexivity.
Qed.

Example C96_warning_case :
  option_map snd (run (start (Other 5) sb_masks)
     (firstn 8 sb_run ++ [LFault 1])) = Some [EGuard 1; EBus 1; EWarn 1; EUndefined 1].
Proof. reflexivity. Qed.

(** An access that throws leaves the flag set: no warning, even for a guard
    made later by another thread. *)
Theorem C96_warning_refuted :
  ~ (forall a m tr p es t,
       run (start a m) tr = Some (p, es) -> calls_ok tr -> blocked_first m tr ->
       run p [LProtect t] <> None ->
       exists p', run p [LFault t] = Some (p', [EWarn t; EUndefined t])).
Proof.
  intros H.
  set (mm := (fun _ s => N.eqb s 7) : tid -> mask).
  set (tr := [LLock 1; LAction 1 true; LMask 1 true; LCheck 1; LProtect 1; LThrow 1;
              LRestore 1 true; LUnmask 1 true; LUnlock 1;
              LLock 2; LAction 2 true; LMask 2 true; LCheck 2]).
  destruct (run (start (Other 0) mm) tr) as [[p es]|] eqn:R; [|vm_compute in R; discriminate].
  destruct (H (Other 0) mm tr p es 2 R) as (p' & E).
  - intros l Hl. cbn in Hl. repeat (destruct Hl as [<-|Hl]; [easy|]). destruct Hl.
  - intros r t r' _. now left.
  - vm_compute in R. injection R as <- <-. vm_compute. discriminate.
  - vm_compute in R. injection R as <- <-.
    apply (f_equal (option_map snd)) in E. vm_compute in E. discriminate E.
Qed.

Print Assumptions C96_restored_partial.
Print Assumptions C96_bus_error.
Print Assumptions C96_not_blocked_refuted.
Print Assumptions C96_warning_partial.
Print Assumptions C96_warning_refuted.
