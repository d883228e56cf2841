(** C97: the ControlHub's registry of device clients. *)
From Coq Require Import NArith List Bool PeanoNat Lia.
From Verif Require Import Hub Manager Registry.
Import ListNotations.
Local Open Scope nat_scope.

(** * Specification *)

Section Spec.
Variable allowed : target -> bool.
Variable permissive : bool.

(** The process of manager [p] has ended by an exception. *)
Definition gone (p : pid) (es : list rev) : Prop := exists t, In (VFailed p t) es.

(** What may happen after the events [es]. *)
Definition sound (es : list rev) (e : rev) : Prop :=
  match e with
  | VBorn d t =>
      (* only for a target of the allowlist (or in permissive mode), and after the
         end of every other device client of that target *)
      (allowed t = true \/ permissive = true) /\
      (forall d', In (VBorn d' t) es -> In (VDied d') es) /\
      (forall t', ~ In (VBorn d t') es)
  | VDied d => (exists t, In (VBorn d t) es) /\ ~ In (VDied d) es
  | VGot p t d => In (VBorn d t) es /\ ~ gone p es
  | VBlocked p t => allowed t = false /\ permissive = false /\ ~ gone p es
  | VFailed p t => (allowed t = true \/ permissive = true) /\ ~ gone p es
  | VCast p t d => In (VGot p t d) es /\ ~ In (VDied d) es /\ ~ gone p es
  | VLost p t d => In (VGot p t d) es /\ In (VDied d) es /\ ~ gone p es
  end.

Definition history (es : list rev) : Prop :=
  forall e1 e e2, es = e1 ++ e :: e2 -> sound e1 e.
End Spec.

(** How many messages the registry takes. *)
Fixpoint serves (ls : list rlabel) : nat :=
  match ls with
  | [] => 0
  | GServe _ :: r => S (serves r)
  | _ :: r => serves r
  end.

(** * Proofs *)

Lemma same_target_spec a b : same_target a b = true <-> a = b.
Proof.
  unfold same_target. destruct a as [a1 a2], b as [b1 b2]. cbn [fst snd].
  rewrite andb_true_iff, !N.eqb_eq. split; [intros [-> ->]; reflexivity|now intros [= -> ->]].
Qed.
Lemma set_target_same f t x : set_target f t x t = x.
Proof. unfold set_target. now rewrite (proj2 (same_target_spec t t)). Qed.
Lemma set_target_other f t x u : u <> t -> set_target f t x u = f u.
Proof.
  intros H. unfold set_target. destruct (same_target u t) eqn:E; [|reflexivity].
  apply same_target_spec in E. contradiction.
Qed.
Lemma set_nat_same {A} (f : nat -> A) n x : set_nat f n x n = x.
Proof. unfold set_nat. now rewrite Nat.eqb_refl. Qed.
Lemma set_nat_other {A} (f : nat -> A) n x m : m <> n -> set_nat f n x m = f m.
Proof. intros H. unfold set_nat. now destruct (Nat.eqb_spec m n). Qed.

Section Proofs.
Variable allowed : target -> bool.
Variable permissive : bool.
Local Notation step := (rstep allowed permissive).
Local Notation run := (rrun allowed permissive).
Local Notation may t := (allowed t = true \/ permissive = true).

(** The tables and the device clients. *)
Record rinv (g : reg) (es : list rev) : Prop := {
  v_alive : forall d, g_alive g d = true <->
              (exists t, In (VBorn d t) es) /\ ~ In (VDied d) es;
  v_index : forall t d, g_index g t = Some d ->
              In (VBorn d t) es /\ g_rindex g d = Some t /\
              (~ In (VDied d) es \/ In (RExit d) (g_box g));
  v_rindex : forall t d, g_rindex g d = Some t -> g_index g t = Some d;
  v_live : forall t d, In (VBorn d t) es -> ~ In (VDied d) es -> g_index g t = Some d;
  v_exit : forall d, In (RExit d) (g_box g) -> In (VDied d) es;
  v_next : forall d t, In (VBorn d t) es -> d < g_next g;
  v_dead : forall d, In (VDied d) es -> exists t, In (VBorn d t) es;
  v_one : forall d t t', In (VBorn d t) es -> In (VBorn d t') es -> t = t'
}.

(** The managers. *)
Record minv (g : reg) (es : list rev) : Prop := {
  v_call : forall p t, In (RRegister p t) (g_box g) -> may t /\ g_man g p = QCall t;
  v_wait : forall p t, g_man g p = QCall t -> In (RRegister p t) (g_box g);
  v_once : forall p t b b', g_box g = b ++ RRegister p t :: b' ->
             forall t', ~ In (RRegister p t') b /\ ~ In (RRegister p t') b';
  v_has : forall p t d, g_man g p = QHas t d -> In (VGot p t d) es /\ In (VBorn d t) es;
  v_crash : forall p, gone p es <-> g_man g p = QCrashed
}.

Definition inv (g : reg) (es : list rev) : Prop :=
  rinv g es /\ minv g es /\ history allowed permissive es.

Lemma inv0 : inv reg0 [].
Proof.
  split; [|split].
  - split; cbn; try (intros; discriminate); try (intros; contradiction); try tauto.
    intros d. split; [discriminate|]. intros [(t & []) _].
  - split; cbn; try (intros; discriminate); try (intros; contradiction); try tauto.
    + intros p t b b' H. now destruct b.
    + intros p. split; [intros (t & []) | discriminate].
  - intros e1 e e2 H. now destruct e1.
Qed.

Lemma rinv_same g es g' es' :
  rinv g es ->
  g_index g' = g_index g -> g_rindex g' = g_rindex g -> g_alive g' = g_alive g -> g_next g' = g_next g ->
  (forall d, In (RExit d) (g_box g') <-> In (RExit d) (g_box g)) ->
  (forall d t, In (VBorn d t) es' <-> In (VBorn d t) es) ->
  (forall d, In (VDied d) es' <-> In (VDied d) es) ->
  rinv g' es'.
Proof.
  intros [A B C D E F G H] E1 E2 E3 E4 EB EV ED. split.
  - intros d. rewrite E3, A, ED. split; intros [(t & T) N]; (split; [exists t; now apply EV|exact N]).
  - intros t d. rewrite E1, E2, EV, EB, ED. apply B.
  - intros t d. rewrite E1, E2. apply C.
  - intros t d. rewrite E1, EV, ED. apply D.
  - intros d. rewrite EB, ED. apply E.
  - intros d t. rewrite EV, E4. apply F.
  - intros d. rewrite ED. intros Q. destruct (G _ Q) as (t & T). exists t. now apply EV.
  - intros d t t'. rewrite !EV. apply H.
Qed.

Lemma history_snoc es e : history allowed permissive es -> sound allowed permissive es e ->
  history allowed permissive (es ++ [e]).
Proof.
  intros H S e1 x e2 E. destruct (exists_last (l := x :: e2)) as (l & y & Q); [discriminate|].
  rewrite Q, app_assoc in E. apply app_inj_tail in E as [E ->].
  destruct l as [|x' l].
  - injection Q as <- ->. rewrite app_nil_r in E. now subst.
  - injection Q as <- ->. exact (H _ _ _ E).
Qed.

Lemma gone_app p es e : gone p (es ++ e) <-> gone p es \/ gone p e.
Proof.
  unfold gone. split.
  - intros (t & H). apply in_app_iff in H as [H|H]; [left|right]; eauto.
  - intros [(t & H)|(t & H)]; exists t; apply in_app_iff; auto.
Qed.

Lemma not_gone_cons p e es : (forall t, e <> VFailed p t) -> (gone p (e :: es) <-> gone p es).
Proof.
  intros N. unfold gone. split; intros (t & H); exists t.
  - destruct H as [H|H]; [now destruct (N t)|exact H].
  - now right.
Qed.

Ltac evs := intros; rewrite ?in_app_iff; cbn [In]; split; intros;
  repeat match goal with H : _ \/ _ |- _ => destruct H as [H|H] end; auto; try discriminate; try contradiction.

(** A manager gets a pid from the table. *)
Lemma got_inv g es p t d box :
  inv g es -> g_index g t = Some d ->
  (forall x, In (RExit x) box <-> In (RExit x) (g_box g)) ->
  g_man g p <> QCrashed ->
  ((g_man g p = QIdle /\ box = g_box g) \/ g_box g = RRegister p t :: box) ->
  inv (mkReg (g_index g) (g_rindex g) box (set_nat (g_man g) p (QHas t d)) (g_alive g) (g_next g))
      (es ++ [VGot p t d]).
Proof.
  intros (RI & MI & HI) IX EX NC BX. pose proof RI as [A B C D E F G H].
  destruct MI as [Mc Mw Mo Mh Mx].
  destruct (B _ _ IX) as (BB & _).
  assert (NB : forall t', ~ In (RRegister p t') box).
  { intros t' Q. destruct BX as [(I1 & ->)|BX].
    - destruct (Mc _ _ Q) as (_ & Q2). congruence.
    - destruct (Mo p t [] box BX t') as (_ & N). contradiction. }
  assert (SUB : forall x, In x box -> In x (g_box g)).
  { intros x Q. destruct BX as [(_ & ->)| ->]; [exact Q|now right]. }
  split; [|split].
  - eapply rinv_same; [exact RI|reflexivity..| | |]; [exact EX|evs|evs].
  - split; cbn [g_box g_man].
    + intros q u Q. assert (q <> p) by (intros ->; exact (NB _ Q)).
      rewrite set_nat_other by assumption. apply Mc. now apply SUB.
    + intros q u Q. destruct (Nat.eq_dec q p) as [->|n].
      * rewrite set_nat_same in Q. discriminate.
      * rewrite set_nat_other in Q by exact n. specialize (Mw _ _ Q).
        destruct BX as [(_ & ->)|BX]; [exact Mw|]. rewrite BX in Mw. destruct Mw as [Mw|Mw]; [congruence|exact Mw].
    + intros q u b b' Q u'. destruct BX as [(_ & ->)|BX]; [exact (Mo _ _ _ _ Q u')|].
      rewrite Q in BX. change (RRegister p t :: b ++ RRegister q u :: b')
        with ((RRegister p t :: b) ++ RRegister q u :: b') in BX.
      destruct (Mo _ _ _ _ BX u') as (N1 & N2). split; [|exact N2]. intros N3. apply N1. now right.
    + intros q u x Q. rewrite !in_app_iff. destruct (Nat.eq_dec q p) as [->|n].
      * rewrite set_nat_same in Q. injection Q as <- <-. cbn. auto.
      * rewrite set_nat_other in Q by exact n. destruct (Mh _ _ _ Q). auto.
    + intros q. rewrite gone_app. rewrite (not_gone_cons q) by discriminate.
      destruct (Nat.eq_dec q p) as [->|n].
      * rewrite set_nat_same. rewrite Mx. split; [intros [Q|(? & [])]; contradiction|discriminate].
      * rewrite set_nat_other by exact n. rewrite <- Mx. split; [intros [Q|(? & [])]; exact Q|auto].
  - apply history_snoc; [exact HI|]. cbn. split; [exact BB|]. rewrite Mx. exact NC.
Qed.

(** An event that changes nothing in the state. *)
Lemma same_inv g es e :
  inv g es -> sound allowed permissive es e ->
  match e with VBlocked _ _ | VCast _ _ _ | VLost _ _ _ => True | _ => False end ->
  inv g (es ++ [e]).
Proof.
  intros (RI & MI & HI) S K. split; [|split].
  - eapply rinv_same; [exact RI|reflexivity..| | |]; [reflexivity| |]; destruct e; try contradiction; evs.
  - destruct MI as [Mc Mw Mo Mh Mx]. split; auto.
    + intros p t d Q. rewrite !in_app_iff. destruct (Mh _ _ _ Q). auto.
    + intros p. rewrite gone_app, <- Mx. rewrite (not_gone_cons p) by (intros ? ->; contradiction).
      split; [intros [Q|(? & [])]; exact Q|auto].
  - now apply history_snoc.
Qed.

Lemma step_inv g es l g' e : inv g es -> step g l = Some (g', e) -> inv g' (es ++ e).
Proof.
  intros I St. pose proof I as (RI & MI & HI).
  pose proof RI as [A B C D E F G H]. pose proof MI as [Mc Mw Mo Mh Mx].
  destruct l as [p t|ok|p|p|d]; cbn [rstep] in St.
  - (* GLookup *)
    destruct (g_man g p) eqn:M; try discriminate St. injection St as St. unfold lookup in St.
    destruct (g_index g t) as [d|] eqn:IX.
    + injection St as <- <-. apply got_inv; auto; [reflexivity|congruence].
    + destruct (allowed t || permissive)%bool eqn:AL; injection St as <- <-.
      * rewrite app_nil_r. apply orb_true_iff in AL. split; [|split; [|exact HI]].
        -- eapply rinv_same; [exact RI|reflexivity..| | |]; [|reflexivity|reflexivity]. cbn [g_box]. evs.
        -- assert (NB : forall t', ~ In (RRegister p t') (g_box g)).
           { intros t' Q. destruct (Mc _ _ Q). congruence. }
           split; cbn [g_box g_man].
           ++ intros q u Q. apply in_app_iff in Q as [Q|[Q|[]]].
              ** assert (q <> p) by (intros ->; exact (NB _ Q)). rewrite set_nat_other by assumption. now apply Mc.
              ** injection Q as -> ->. rewrite set_nat_same. auto.
           ++ intros q u Q. rewrite in_app_iff. destruct (Nat.eq_dec q p) as [->|n].
              ** rewrite set_nat_same in Q. injection Q as ->. right. now left.
              ** rewrite set_nat_other in Q by exact n. auto.
           ++ intros q u b b' Q u'.
              destruct (exists_last (l := RRegister q u :: b')) as (l & y & Y); [discriminate|].
              rewrite Y, app_assoc in Q. apply app_inj_tail in Q as [Q <-].
              destruct l as [|x l].
              ** injection Y as -> -> ->. rewrite app_nil_r in Q. subst b. cbn. split; [apply NB|tauto].
              ** injection Y as <- ->. destruct (Mo _ _ _ _ Q u') as (N1 & N2). split; [exact N1|].
                 rewrite in_app_iff. intros [N|[N|[]]]; [contradiction|]. injection N as -> ->.
                 apply (NB u). rewrite Q. apply in_app_iff. right. now left.
           ++ intros q u x Q. destruct (Nat.eq_dec q p) as [->|n].
              ** rewrite set_nat_same in Q. discriminate.
              ** rewrite set_nat_other in Q by exact n. auto.
           ++ intros q. rewrite Mx. destruct (Nat.eq_dec q p) as [->|n].
              ** rewrite set_nat_same. split; congruence.
              ** now rewrite set_nat_other.
      * apply orb_false_iff in AL. apply same_inv; [exact I| |exact Logic.I]. cbn. rewrite Mx.
        intuition congruence.
  - (* GServe *)
    destruct (g_box g) as [|[p t|d] rest] eqn:BX; [discriminate| |]; injection St as St.
    + destruct (Mc p t) as (May & MP); [now left|]. unfold on_register in St.
      destruct (g_index g t) as [d|] eqn:IX.
      * injection St as <- <-. apply got_inv; auto.
        -- intros x. rewrite BX. cbn. split; [auto|intros [Q|Q]; [discriminate|exact Q]].
        -- congruence.
      * unfold create in St.
        assert (NB : forall t', ~ In (RRegister p t') rest).
        { intros t'. now destruct (Mo p t [] rest eq_refl t'). }
        assert (MO' : forall q u b b', rest = b ++ RRegister q u :: b' ->
                  forall t', ~ In (RRegister q t') b /\ ~ In (RRegister q t') b').
        { intros q u b b' Q u'. subst rest.
          destruct (Mo q u (RRegister p t :: b) b' eq_refl u') as (N1 & N2).
          split; [|exact N2]. intros N3. apply N1. now right. }
        destruct ok; injection St as <- <-.
        -- set (d := g_next g) in *.
           assert (ND : forall u, ~ In (VBorn d u) es) by (intros u Q; apply F in Q; unfold d in Q; lia).
           assert (NDD : ~ In (VDied d) es) by (intros Q; destruct (G _ Q) as (u & U); now destruct (ND u)).
           assert (IND : forall u, g_index g u <> Some d).
           { intros u Q. destruct (B _ _ Q) as (Q1 & _). now destruct (ND u). }
           assert (RND : g_rindex g d = None).
           { destruct (g_rindex g d) as [u|] eqn:Q; [|reflexivity]. now destruct (IND u (C _ _ Q)). }
           assert (OLD : forall d', In (VBorn d' t) es -> In (VDied d') es).
           { intros d' Q. assert (X : g_alive g d' = false).
             { destruct (g_alive g d') eqn:AL; [|reflexivity]. apply A in AL as (_ & AL).
               specialize (D _ _ Q AL). congruence. }
             destruct (in_dec (fun a b : rev => ltac:(repeat decide equality)) (VDied d') es) as [Y|N]; [exact Y|].
             specialize (D _ _ Q N). congruence. }
           split; [|split].
           ++ split; cbn [g_index g_rindex g_box g_alive g_next].
              ** intros x. destruct (Nat.eq_dec x d) as [->|n].
                 --- rewrite set_nat_same. split; [intros _|reflexivity]. split.
                     +++ exists t. apply in_app_iff. right. now left.
                     +++ rewrite in_app_iff. intros [Q|[Q|[Q|[]]]]; [contradiction|discriminate..].
                 --- rewrite set_nat_other by exact n. rewrite A. split; intros [(u & U) N]; split.
                     +++ exists u. apply in_app_iff. now left.
                     +++ rewrite in_app_iff. intros [Q|[Q|[Q|[]]]]; [contradiction|discriminate..].
                     +++ exists u. apply in_app_iff in U as [U|[U|[U|[]]]]; [exact U|congruence|discriminate].
                     +++ intros Q. apply N. apply in_app_iff. now left.
              ** intros u x Q. rewrite !in_app_iff. destruct (same_target u t) eqn:ST.
                 --- apply same_target_spec in ST as ->. rewrite set_target_same in Q. injection Q as <-.
                     rewrite set_nat_same. cbn. split; [auto|]. split; [reflexivity|]. left.
                     intros [Q|[Q|[Q|[]]]]; [contradiction|discriminate..].
                 --- assert (n : u <> t) by (intros ->; rewrite (proj2 (same_target_spec t t) eq_refl) in ST; discriminate).
                     rewrite set_target_other in Q by exact n. destruct (B _ _ Q) as (Q1 & Q2 & Q3).
                     assert (x <> d) by (intros ->; now destruct (IND u)).
                     rewrite set_nat_other by assumption. split; [auto|]. split; [exact Q2|].
                     destruct Q3 as [Q3|Q3]; [left|right].
                     +++ intros [R|[R|[R|[]]]]; [contradiction|discriminate..].
                     +++ rewrite ?BX in Q3. destruct Q3 as [Q3|Q3]; [discriminate|exact Q3].
              ** intros u x Q. destruct (Nat.eq_dec x d) as [->|n].
                 --- rewrite set_nat_same in Q. injection Q as ->. now rewrite set_target_same.
                 --- rewrite set_nat_other in Q by exact n. apply C in Q.
                     rewrite set_target_other; [exact Q|]. intros ->. congruence.
              ** intros u x Q N. rewrite in_app_iff in N. apply in_app_iff in Q as [Q|[Q|[Q|[]]]]; [|injection Q as <- <-; now rewrite set_target_same|discriminate].
                 assert (u <> t). { intros ->. apply N. left. now apply OLD. }
                 rewrite set_target_other by assumption. apply D; auto.
              ** intros x Q. apply in_app_iff. left. apply E. rewrite ?BX. now right.
              ** intros x u Q. apply in_app_iff in Q as [Q|[Q|[Q|[]]]]; [|injection Q as <- <-; lia|discriminate].
                 apply F in Q. unfold d. lia.
              ** intros x Q. apply in_app_iff in Q as [Q|[Q|[Q|[]]]]; [|discriminate..].
                 destruct (G _ Q) as (u & U). exists u. apply in_app_iff. now left.
              ** intros x u u' Q Q'. apply in_app_iff in Q as [Q|[Q|[Q|[]]]]; [| |discriminate];
                 apply in_app_iff in Q' as [Q'|[Q'|[Q'|[]]]]; try discriminate; try congruence.
                 --- eauto.
                 --- injection Q' as <- <-. now destruct (ND u).
                 --- injection Q as <- <-. now destruct (ND u').
           ++ split; cbn [g_box g_man].
              ** intros q u Q. assert (q <> p) by (intros ->; exact (NB _ Q)).
                 rewrite set_nat_other by assumption. apply Mc. now right.
              ** intros q u Q. destruct (Nat.eq_dec q p) as [->|n].
                 --- rewrite set_nat_same in Q. discriminate.
                 --- rewrite set_nat_other in Q by exact n. apply Mw in Q as [Q|Q]; [congruence|exact Q].
              ** exact MO'.
              ** intros q u x Q. rewrite !in_app_iff. destruct (Nat.eq_dec q p) as [->|n].
                 --- rewrite set_nat_same in Q. injection Q as <- <-. cbn. auto.
                 --- rewrite set_nat_other in Q by exact n. destruct (Mh _ _ _ Q). auto.
              ** intros q. rewrite gone_app, !(not_gone_cons q) by discriminate.
                 destruct (Nat.eq_dec q p) as [->|n].
                 --- rewrite set_nat_same, Mx, MP. split; [intros [Q|(? & [])]; discriminate|discriminate].
                 --- rewrite set_nat_other by exact n. rewrite <- Mx. split; [intros [Q|(? & [])]; exact Q|auto].
           ++ change [VBorn d t; VGot p t d] with ([VBorn d t] ++ [VGot p t d]). rewrite app_assoc.
              apply history_snoc; [apply history_snoc; [exact HI|]|]; cbn.
              ** auto.
              ** split; [apply in_app_iff; right; now left|]. rewrite gone_app, (not_gone_cons p) by discriminate.
                 rewrite Mx, MP. intros [Q|(? & [])]; discriminate.
        -- split; [|split].
           ++ eapply rinv_same; [exact RI|reflexivity..| | |]; [|evs|evs].
              intros x. rewrite BX. cbn. split; [auto|intros [Q|Q]; [discriminate|exact Q]].
           ++ split; cbn [g_box g_man].
              ** intros q u Q. assert (q <> p) by (intros ->; exact (NB _ Q)).
                 rewrite set_nat_other by assumption. apply Mc. now right.
              ** intros q u Q. destruct (Nat.eq_dec q p) as [->|n].
                 --- rewrite set_nat_same in Q. discriminate.
                 --- rewrite set_nat_other in Q by exact n. apply Mw in Q as [Q|Q]; [congruence|exact Q].
              ** exact MO'.
              ** intros q u x Q. rewrite !in_app_iff. destruct (Nat.eq_dec q p) as [->|n].
                 --- rewrite set_nat_same in Q. discriminate.
                 --- rewrite set_nat_other in Q by exact n. destruct (Mh _ _ _ Q). auto.
              ** intros q. rewrite gone_app. destruct (Nat.eq_dec q p) as [->|n].
                 --- rewrite set_nat_same. split; [reflexivity|]. intros _. right. exists t. now left.
                 --- rewrite set_nat_other by exact n. rewrite <- Mx. split; [|auto].
                     intros [Q|(u & [Q|[]])]; [exact Q|congruence].
           ++ apply history_snoc; [exact HI|]. cbn. split; [exact May|]. rewrite Mx, MP. discriminate.
    + (* EXIT *)
      assert (DD : In (VDied d) es) by (apply E; now left).
      assert (MI' : forall ix ri, minv (mkReg ix ri rest (g_man g) (g_alive g) (g_next g)) es).
      { intros ix ri. split; cbn [g_box g_man]; auto.
        - intros q u Q. apply Mc. now right.
        - intros q u Q. apply Mw in Q as [Q|Q]; [discriminate|exact Q].
        - intros q u b b' Q u'. subst rest.
          destruct (Mo q u (RExit d :: b) b' eq_refl u') as (N1 & N2).
          split; [|exact N2]. intros N3. apply N1. now right. }
      unfold on_exit in St. destruct (g_rindex g d) as [t|] eqn:RX; injection St as <- <-; rewrite app_nil_r;
        (split; [|split; [apply MI'|exact HI]]).
      * pose proof (C _ _ RX) as IX. split; cbn [g_index g_rindex g_box g_alive g_next]; auto.
        -- intros u x Q. destruct (same_target u t) eqn:ST.
           { apply same_target_spec in ST as ->. rewrite set_target_same in Q. discriminate. }
           assert (n : u <> t) by (intros ->; rewrite (proj2 (same_target_spec t t) eq_refl) in ST; discriminate).
           rewrite set_target_other in Q by exact n. destruct (B _ _ Q) as (Q1 & Q2 & Q3).
           assert (x <> d) by (intros ->; congruence).
           rewrite set_nat_other by assumption. split; [exact Q1|]. split; [exact Q2|].
           destruct Q3 as [Q3|Q3]; [now left|]. rewrite ?BX in Q3. destruct Q3 as [Q3|Q3]; [congruence|now right].
        -- intros u x Q. destruct (Nat.eq_dec x d) as [->|n].
           { rewrite set_nat_same in Q. discriminate. }
           rewrite set_nat_other in Q by exact n. apply C in Q. rewrite set_target_other; [exact Q|].
           intros ->. congruence.
        -- intros u x Q N. specialize (D _ _ Q N). rewrite set_target_other; [exact D|].
           intros ->. assert (x = d) as -> by congruence. contradiction.
        -- intros x Q. apply E. rewrite ?BX. now right.
      * split; cbn [g_index g_rindex g_box g_alive g_next]; auto.
        -- intros u x Q. destruct (B _ _ Q) as (Q1 & Q2 & Q3). split; [exact Q1|]. split; [exact Q2|].
           destruct Q3 as [Q3|Q3]; [now left|]. rewrite ?BX in Q3. destruct Q3 as [Q3|Q3]; [congruence|now right].
        -- intros x Q. apply E. rewrite ?BX. now right.
  - (* GCast *)
    destruct (g_man g p) as [| |t d|] eqn:M; try discriminate St. injection St as <- <-.
    destruct (Mh _ _ _ M) as (Gt & Bn).
    assert (NG : ~ gone p es) by (rewrite Mx; congruence).
    apply same_inv; [exact I| |destruct (g_alive g d); exact Logic.I].
    destruct (g_alive g d) eqn:AL; cbn.
    + apply A in AL as (_ & AL). auto.
    + split; [exact Gt|]. split; [|exact NG].
      destruct (in_dec (fun a b : rev => ltac:(repeat decide equality)) (VDied d) es) as [Y|N]; [exact Y|].
      assert (g_alive g d = true) by (apply A; split; eauto). congruence.
  - (* GDone *)
    destruct (g_man g p) as [| |t d|] eqn:M; try discriminate St. injection St as <- <-.
    rewrite app_nil_r. split; [|split; [|exact HI]].
    + eapply rinv_same; [exact RI|reflexivity..].
    + split; cbn [g_box g_man]; auto.
      * intros q u Q. destruct (Mc _ _ Q) as (Q1 & Q2). split; [exact Q1|].
        rewrite set_nat_other; [exact Q2|]. intros ->. congruence.
      * intros q u Q. destruct (Nat.eq_dec q p) as [->|n];
          [rewrite set_nat_same in Q; discriminate|rewrite set_nat_other in Q by exact n; auto].
      * intros q u x Q. destruct (Nat.eq_dec q p) as [->|n];
          [rewrite set_nat_same in Q; discriminate|rewrite set_nat_other in Q by exact n; auto].
      * intros q. rewrite Mx. destruct (Nat.eq_dec q p) as [->|n];
          [rewrite set_nat_same; split; congruence|now rewrite set_nat_other].
  - (* GDie *)
    destruct (g_alive g d) eqn:AL; [|discriminate]. injection St as <- <-.
    pose proof (proj1 (A d) AL) as ((t & Bn) & ND).
    split; [|split].
    + split; cbn [g_index g_rindex g_box g_alive g_next].
      * intros x. destruct (Nat.eq_dec x d) as [->|n].
        -- rewrite set_nat_same. split; [discriminate|]. intros (_ & N). destruct N. apply in_app_iff. right. now left.
        -- rewrite set_nat_other by exact n. rewrite A. split; intros [(u & U) N]; split.
           ++ exists u. apply in_app_iff. now left.
           ++ rewrite in_app_iff. intros [Q|[Q|[]]]; [contradiction|congruence].
           ++ exists u. apply in_app_iff in U as [U|[U|[]]]; [exact U|discriminate].
           ++ intros Q. apply N. apply in_app_iff. now left.
      * intros u x Q. destruct (B _ _ Q) as (Q1 & Q2 & Q3). rewrite !in_app_iff. split; [auto|]. split; [exact Q2|].
        destruct (Nat.eq_dec x d) as [->|n]; [right; right; now left|].
        destruct Q3 as [Q3|Q3]; [left|auto]. intros [R|[R|[]]]; [contradiction|congruence].
      * exact C.
      * intros u x Q N. rewrite in_app_iff in N. apply in_app_iff in Q as [Q|[Q|[]]]; [|discriminate].
        apply D; auto.
      * intros x Q. rewrite in_app_iff. apply in_app_iff in Q as [Q|[Q|[]]]; [left; auto|injection Q as ->; right; now left].
      * intros x u Q. apply in_app_iff in Q as [Q|[Q|[]]]; [eauto|discriminate].
      * intros x Q. apply in_app_iff in Q as [Q|[Q|[]]].
        -- destruct (G _ Q) as (u & U). exists u. apply in_app_iff. now left.
        -- injection Q as <-. exists t. apply in_app_iff. now left.
      * intros x u u' Q Q'. apply in_app_iff in Q as [Q|[Q|[]]]; [|discriminate].
        apply in_app_iff in Q' as [Q'|[Q'|[]]]; [|discriminate]. eauto.
    + split; cbn [g_box g_man].
      * intros q u Q. apply in_app_iff in Q as [Q|[Q|[]]]; [auto|discriminate].
      * intros q u Q. apply in_app_iff. auto.
      * intros q u b b' Q u'.
        destruct (exists_last (l := RRegister q u :: b')) as (l & y & Y); [discriminate|].
        rewrite Y, app_assoc in Q. apply app_inj_tail in Q as [Q <-].
        destruct l as [|x l]; [discriminate Y|]. injection Y as <- ->.
        destruct (Mo _ _ _ _ Q u') as (N1 & N2). split; [exact N1|].
        rewrite in_app_iff. intros [N|[N|[]]]; [contradiction|discriminate].
      * intros q u x Q. rewrite !in_app_iff. destruct (Mh _ _ _ Q). auto.
      * intros q. rewrite gone_app, (not_gone_cons q) by discriminate. rewrite <- Mx.
        split; [intros [Q|(? & [])]; exact Q|auto].
    + apply history_snoc; [exact HI|]. cbn. split; [eauto|exact ND].
Qed.

Lemma run_inv g es ls g' e : inv g es -> run g ls = Some (g', e) -> inv g' (es ++ e).
Proof.
  revert g es e. induction ls as [|l ls IH]; intros g es e I R; cbn [rrun] in R.
  - injection R as <- <-. now rewrite app_nil_r.
  - destruct (step g l) as [[g1 e1]|] eqn:St; [|discriminate].
    destruct (run g1 ls) as [[g2 e2]|] eqn:R2; [|discriminate]. injection R as <- <-.
    rewrite app_assoc. eapply IH; [|exact R2]. eapply step_inv; eauto.
Qed.
End Proofs.

(** Everything that happens, in any execution with any number of managers and
    targets, is as in [sound]: a device client is made only for a target of the
    allowlist (or in permissive mode), and only after every earlier device client
    of that target has stopped; requests go to a device client made for the
    target the manager asked for; a target is refused only if it is not in the
    allowlist. *)
Theorem C97_history : forall allowed permissive ls g es,
  rrun allowed permissive reg0 ls = Some (g, es) -> history allowed permissive es.
Proof.
  intros allowed permissive ls g es R.
  destruct (run_inv _ _ _ [] _ _ _ (inv0 allowed permissive) R) as (_ & _ & H). exact H.
Qed.

(** At no time are there two device clients for one target. *)
Theorem C97_one_client : forall allowed permissive ls g es t d d',
  rrun allowed permissive reg0 ls = Some (g, es) ->
  In (VBorn d t) es -> ~ In (VDied d) es -> In (VBorn d' t) es -> ~ In (VDied d') es -> d = d'.
Proof.
  intros allowed permissive ls g es t d d' R B1 N1 B2 N2.
  destruct (run_inv _ _ _ [] _ _ _ (inv0 allowed permissive) R) as (RI & _). cbn [app] in RI.
  pose proof (v_live _ _ RI _ _ B1 N1). pose proof (v_live _ _ RI _ _ B2 N2). congruence.
Qed.

(** If the registry knows of all ends so far, a manager gets a device client that
    runs, or (allowlist) is refused, or the registry makes one. *)
Theorem C97_fresh_partial : forall allowed permissive ls g es p t g' e,
  rrun allowed permissive reg0 ls = Some (g, es) ->
  (forall d, ~ In (RExit d) (g_box g)) ->
  rrun allowed permissive g [GLookup p t] = Some (g', e) ->
  (exists d, e = [VGot p t d] /\ In (VBorn d t) es /\ ~ In (VDied d) es) \/
  (e = [VBlocked p t] /\ allowed t = false /\ permissive = false) \/
  (e = [] /\ g_man g' p = QCall t).
Proof.
  intros allowed permissive ls g es p t g' e R NX L.
  destruct (run_inv _ _ _ [] _ _ _ (inv0 allowed permissive) R) as (RI & _). cbn [app] in RI.
  cbn [rrun rstep] in L. destruct (g_man g p); try discriminate L. unfold lookup in L.
  destruct (g_index g t) as [d|] eqn:IX.
  - injection L as <- <-. left. exists d. split; [reflexivity|].
    destruct (v_index _ _ RI _ _ IX) as (B & _ & [N|N]); [auto|now destruct (NX d)].
  - destruct (allowed t || permissive)%bool eqn:AL; injection L as <- <-.
    + right. right. cbn. now rewrite set_nat_same.
    + right. left. apply orb_false_iff in AL. tauto.
Qed.

(** A manager that has asked the registry is answered once the registry has taken
    the messages that are in its mailbox, whatever else happens meanwhile. *)
Theorem C97_answered : forall allowed permissive ls g es p t ls' g' e,
  rrun allowed permissive reg0 ls = Some (g, es) ->
  g_man g p = QCall t ->
  rrun allowed permissive g ls' = Some (g', e) -> length (g_box g) <= serves ls' ->
  (exists d, In (VGot p t d) e) \/ In (VFailed p t) e.
Proof.
  intros allowed permissive ls g es p t ls' g' e R M R' Len.
  destruct (run_inv _ _ _ [] _ _ _ (inv0 allowed permissive) R) as (_ & MI & _). cbn [app] in MI.
  pose proof (v_wait _ _ _ _ MI _ _ M) as IN. clear MI R M es ls.
  apply in_split in IN as (pre & post & IN).
  assert (Len' : length pre < serves ls').
  { rewrite IN, app_length in Len. cbn [length] in Len. lia. }
  clear Len. revert g pre post g' e IN R' Len'.
  induction ls' as [|l ls' IH]; intros g pre post g' e IN R' Len; [cbn in Len; lia|].
  cbn [rrun] in R'.
  destruct (rstep allowed permissive g l) as [[g1 e1]|] eqn:St; [|discriminate].
  destruct (rrun allowed permissive g1 ls') as [[g2 e2]|] eqn:R2; [|discriminate]. injection R' as <- <-.
  assert (STAY : forall post', g_box g1 = pre ++ RRegister p t :: post' -> length pre < serves ls' ->
                 (exists d, In (VGot p t d) (e1 ++ e2)) \/ In (VFailed p t) (e1 ++ e2)).
  { intros post' E L. destruct (IH _ _ _ _ _ E R2 L) as [(d & Q)|Q]; [left; exists d|right]; apply in_app_iff; auto. }
  destruct l as [q u|ok|q|q|d]; cbn [rstep] in St; cbn [serves] in Len.
  - destruct (g_man g q); try discriminate St. injection St as St. unfold lookup in St.
    destruct (g_index g u); [injection St as <- <-; apply (STAY post); auto|].
    destruct (allowed u || permissive)%bool; injection St as <- <-; cbn [g_box].
    + apply (STAY (post ++ [RRegister q u])); [|exact Len]. cbn [g_box]. now rewrite IN, <- app_assoc.
    + apply (STAY post); auto.
  - destruct pre as [|m pre].
    + cbn [app] in IN. rewrite IN in St. injection St as St. unfold on_register, create in St.
      destruct (g_index g t) as [d|]; [injection St as <- <-; left; exists d; now left|].
      destruct ok; injection St as <- <-; [left; exists (g_next g); right; now left|right; now left].
    + cbn [app] in IN. rewrite IN in St. cbn [length] in Len.
      assert (B1 : g_box g1 = pre ++ RRegister p t :: post).
      { destruct m as [q u|d]; injection St as St.
        - unfold on_register, create in St. destruct (g_index g u); [now injection St as <- _|].
          destruct ok; now injection St as <- _.
        - unfold on_exit in St. destruct (g_rindex g d); now injection St as <- _. }
      destruct (IH _ _ _ _ _ B1 R2) as [(d & Q)|Q]; [lia|left; exists d|right]; apply in_app_iff; auto.
  - destruct (g_man g q); try discriminate St. injection St as <- _. apply (STAY post); auto.
  - destruct (g_man g q); try discriminate St. injection St as <- _. apply (STAY post); auto.
  - destruct (g_alive g d); try discriminate St. injection St as <- _.
    apply (STAY (post ++ [RExit d])); [|exact Len]. cbn [g_box]. now rewrite IN, <- app_assoc.
Qed.

(** Two managers ask for one target at the same time, a third for another; the
    first device client stops, and another takes its place. *)
Definition rt1 : target := (0xC0A80010%N, 50001%N).
Definition rt2 : target := (0xC0A80011%N, 50001%N).
Definition r_run : list rlabel :=
  [GLookup 1 rt1; GLookup 2 rt1; GLookup 3 rt2; GServe true; GServe true; GServe true;
   GCast 1; GCast 2; GCast 3; GDone 1; GDone 2; GDie 0; GServe true; GLookup 2 rt1].

Example C97_case :
  option_map snd (rrun (fun _ => true) false reg0 (r_run ++ [GServe true; GCast 2])) =
    Some [VBorn 0 rt1; VGot 1 rt1 0; VGot 2 rt1 0; VBorn 1 rt2; VGot 3 rt2 1;
          VCast 1 rt1 0; VCast 2 rt1 0; VCast 3 rt2 1; VDied 0; VBorn 2 rt1; VGot 2 rt1 2; VCast 2 rt1 2] /\
  option_map (fun x => (g_man (fst x) 2, g_box (fst x))) (rrun (fun _ => true) false reg0 r_run) =
    Some (QCall rt1, [RRegister 2 rt1]).
Proof. split; reflexivity. Qed.

(** A device client stops by itself when it has been idle for some time.  A request
    that comes just then is lost, for a manager that looks up the target before the
    registry has heard of it (and also for one that did before): nobody answers,
    and no error comes. *)
Theorem C97_lost_refuted :
  ~ (forall allowed permissive ls g es p t d,
       rrun allowed permissive reg0 ls = Some (g, es) -> ~ In (VLost p t d) es).
Proof.
  intros H.
  refine (H (fun _ => true) false
            [GLookup 1 rt1; GServe true; GCast 1; GDone 1; GDie 0; GLookup 2 rt1; GCast 2]
            _ _ 2 rt1 0 eq_refl _).
  vm_compute. auto 10.
Qed.

(** If the device client cannot open its socket, the manager that asked ends by an
    exception (no clause for the error), with the requests of its client. *)
Theorem C97_crash_refuted :
  ~ (forall allowed permissive ls g es p,
       rrun allowed permissive reg0 ls = Some (g, es) -> g_man g p <> QCrashed).
Proof.
  intros H.
  refine (H (fun _ => true) false [GLookup 1 rt1; GServe false] _ _ 1 eq_refl eq_refl).
Qed.

Print Assumptions C97_history.
Print Assumptions C97_one_client.
Print Assumptions C97_fresh_partial.
Print Assumptions C97_answered.
Print Assumptions C97_lost_refuted.
Print Assumptions C97_crash_refuted.
