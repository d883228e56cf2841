(** Proofs about the page ring, for every execution. *)
From Coq Require Import NArith ZArith Lia List Bool Arith ZifyBool ZifyNat ZifyN.
From Verif Require Import Ring RingSpec.
Import ListNotations.
Open Scope N_scope.
Ltac Zify.zify_post_hook ::= Z.div_mod_to_equations.

(** Requests of a queue with consecutive pages from [i] on. *)
Fixpoint slots (n i : N) (q : list nat) : list (nat * N) :=
  match q with [] => [] | b :: t => (b, i mod n) :: slots n (i + 1) t end.

Lemma slots_mod : forall n q i j, 0 < n -> i mod n = j mod n -> slots n i q = slots n j q.
Proof.
  intros n q; induction q as [|b q IH]; intros i j Hn H; [reflexivity|].
  cbn [slots]. rewrite H. f_equal. apply IH; [exact Hn|].
  rewrite (N.add_mod i 1 n), (N.add_mod j 1 n), H by lia. reflexivity.
Qed.

Lemma slots_app : forall n q r i,
  slots n i (q ++ r) = slots n i q ++ slots n (i + N.of_nat (List.length q)) r.
Proof.
  intros n q r; induction q as [|b q IH]; intros i.
  - cbn. f_equal. lia.
  - cbn [slots app List.length]. rewrite IH. f_equal. f_equal. f_equal. lia.
Qed.

Lemma slots_length : forall n q i, List.length (slots n i q) = List.length q.
Proof. intros n q; induction q; intros; cbn; auto. Qed.

Lemma slots_in : forall n q i b pg, In (b, pg) (slots n i q) ->
  exists j, j < N.of_nat (List.length q) /\ pg = (i + j) mod n.
Proof.
  intros n q; induction q as [|x q IH]; intros i b pg H; [destruct H|].
  cbn [slots] in H. destruct H as [H|H].
  - inversion H; subst. exists 0. cbn [List.length]. split; [lia|]. f_equal; lia.
  - apply IH in H. destruct H as (j & Hj & E). exists (j + 1). cbn [List.length]. split; [lia|].
    rewrite E. f_equal; lia.
Qed.

Lemma mod_add_ne : forall n a b, 0 < n -> b < a -> a - b < n -> a mod n <> b mod n.
Proof.
  intros n a b Hn H1 H2 E.
  assert (D : (a - b) mod n = 0).
  { rewrite (N.div_mod a n), (N.div_mod b n) by lia. rewrite E.
    replace (n * (a / n) + b mod n - (n * (b / n) + b mod n)) with ((a / n - b / n) * n) by
      (rewrite N.mul_sub_distr_r; lia).
    apply N.mod_mul. lia. }
  rewrite N.mod_small in D by lia. lia.
Qed.

(** Where the pages of the waiting requests are. *)
Definition qpages (g : rcfg) (c : cst) : list (nat * N) :=
  slots (r_pages g) (c_idx c + r_pages g - N.of_nat (List.length (c_queue c))) (c_queue c).

(** What holds of one client at every step, by position in the program. *)
Definition cpc (g : rcfg) (p : nat) (c : cst) : Prop :=
  match c_pc c with
  | PIdle | PDisp _ => True
  | PLock _ => c_lock c = false /\ c_conn c = true
  | PStart _ => c_lock c = true /\ c_queue c = []
  | PWrite _ => c_lock c = true /\ N.of_nat (List.length (c_queue c)) < limit g p
  | PWait _ | PRead _ => c_queue c <> []
  | PUnlock => c_lock c = true /\ c_queue c = []
  | PEnd => c_lock c = false
  end.

Record cinv (g : rcfg) (y : sys) (p : nat) : Prop := mkCI {
  ci_own : c_lock (y_cl y p) = true <-> y_owner y = Some p;
  ci_pc : cpc g p (y_cl y p);
  ci_q : c_queue (y_cl y p) <> [] -> c_lock (y_cl y p) = true;
  ci_conn : c_lock (y_cl y p) = true -> c_conn (y_cl y p) = true;
  ci_len : N.of_nat (List.length (c_queue (y_cl y p))) <= limit g p;
  ci_idx : c_conn (y_cl y p) = true -> c_idx (y_cl y p) < r_pages g;
  ci_pend : pend (y_tr y) p = qpages g (y_cl y p)
}.

Definition rinv (g : rcfg) (y : sys) : Prop := forall p, cinv g y p.

Lemma limit_bound : forall g p, 0 < r_pages g -> 0 < limit g p <= r_pages g.
Proof. intros g p H. unfold limit. destruct (r_kind g); [|lia]. destruct ((r_user g p =? 0) || (r_pages g <? r_user g p)) eqn:E; lia. Qed.

Lemma upd_same : forall A (f : nat -> A) p c, upd f p c p = c.
Proof. intros; unfold upd; rewrite Nat.eqb_refl; reflexivity. Qed.

Lemma upd_other : forall A (f : nat -> A) p c q, q <> p -> upd f p c q = f q.
Proof. intros A f p c q H; unfold upd. apply Nat.eqb_neq in H. rewrite H. reflexivity. Qed.

Lemma reported_lt : forall g h, 0 < r_pages g -> reported g h < r_pages g.
Proof. intros. unfold reported. apply N.mod_lt. lia. Qed.

(** The page computed by read() is the page of the oldest waiting request. *)
Lemma page_to_read_eq : forall g c, 0 < r_pages g -> r_pages g < 2 ^ 32 -> c_idx c < r_pages g ->
  N.of_nat (List.length (c_queue c)) <= r_pages g ->
  page_to_read g c = (c_idx c + r_pages g - N.of_nat (List.length (c_queue c))) mod r_pages g.
Proof.
  intros g c Hn Hb Hi Hq. unfold page_to_read. f_equal.
  set (k := N.of_nat (List.length (c_queue c))) in *.
  replace (c_idx c + (2 ^ 64 - k) + r_pages g) with ((c_idx c + r_pages g - k) + 1 * 2 ^ 64) by lia.
  rewrite N.mod_add by lia. apply N.mod_small. lia.
Qed.

(** A step changes one client, and nothing the others rely on. *)
Lemma other_keep : forall g y y' p q,
  cinv g y q -> q <> p ->
  y_cl y' q = y_cl y q ->
  (y_owner y' = Some q <-> y_owner y = Some q) ->
  pend (y_tr y') q = pend (y_tr y) q ->
  cinv g y' q.
Proof.
  intros g y y' p q [A B C D E F G] Hne Hc Ho Hp.
  split; rewrite ?Hc; auto.
  - rewrite A. symmetry. exact Ho.
  - rewrite Hp. exact G.
Qed.

Ltac yred := cbn [y_hw y_count y_active y_owner y_cl y_tr set_cl set_hw note at_pc connect handler
  c_pc c_conn c_lock c_ext c_cnt c_idx c_pub c_read c_queue
  enter_read enter_write enter_flush h_recv h_pub h_wait h_rep h_irq] in *.

Lemma neq_eqb : forall p q, q <> p -> Nat.eqb p q = false.
Proof. intros p q H. apply Nat.eqb_neq. congruence. Qed.

Lemma qpages_push : forall g c b c',
  0 < r_pages g -> c_idx c < r_pages g -> N.of_nat (List.length (c_queue c)) < r_pages g ->
  c_idx c' = (c_idx c + 1) mod r_pages g -> c_queue c' = c_queue c ++ [b] ->
  qpages g c' = qpages g c ++ [(b, c_idx c)].
Proof.
  intros g c b c' Hn Hi Hq E1 E2. unfold qpages. rewrite E1, E2, app_length. cbn [List.length].
  set (k := List.length (c_queue c)) in *. set (n := r_pages g) in *.
  rewrite (slots_mod n _ _ (c_idx c + n - N.of_nat k)).
  - rewrite slots_app. cbn [slots]. fold k. repeat f_equal.
    replace (c_idx c + n - N.of_nat k + N.of_nat k) with (c_idx c + 1 * n) by lia.
    rewrite N.mod_add by lia. apply N.mod_small. exact Hi.
  - exact Hn.
  - destruct (N.eq_dec (c_idx c + 1) n) as [E|E].
    + rewrite E, N.mod_same by lia.
      replace (c_idx c + n - N.of_nat k) with ((0 + n - N.of_nat (k + 1)) + 1 * n) by lia.
      rewrite N.mod_add by lia. reflexivity.
    + rewrite (N.mod_small (c_idx c + 1)) by lia. f_equal. lia.
Qed.

Lemma qpages_pop : forall g c b q c',
  c_queue c = b :: q -> c_idx c' = c_idx c -> c_queue c' = q ->
  N.of_nat (List.length (c_queue c)) <= r_pages g ->
  qpages g c = (b, (c_idx c + r_pages g - N.of_nat (List.length (c_queue c))) mod r_pages g) :: qpages g c'.
Proof.
  intros g c b q c' E1 E2 E3 Hl. unfold qpages. rewrite E2, E3, E1 in *. cbn [slots List.length] in *.
  f_equal. f_equal. lia.
Qed.

Lemma qpages_nil : forall g c, c_queue c = [] -> qpages g c = [].
Proof. intros g c E; unfold qpages; rewrite E; reflexivity. Qed.

Lemma qpages_same : forall g c c', c_idx c' = c_idx c -> c_queue c' = c_queue c -> qpages g c' = qpages g c.
Proof. intros g c c' E1 E2. unfold qpages. rewrite E1, E2. reflexivity. Qed.

Lemma rinv_step : forall g y l y', 0 < r_pages g -> r_pages g < 2 ^ 32 ->
  rinv g y -> rstep g y l = Some y' -> rinv g y'.
Proof.
  intros g y l y' Hn Hb I H q.
  pose proof (limit_bound g q Hn) as HL.
  destruct l as [p|p b|p|p|p|p|p|p|p|p|p|p|]; cbn [rstep] in H; cbv zeta in H;
    try (destruct (Nat.eq_dec q p) as [->|Hne];
         pose proof (I p) as [A B C D E F G];
         [|pose proof (I q) as Iq]).
  - (* LConn *)
    assert (K : y' = set_cl y p (connect g (y_hw y) (y_count y) (y_active y) (y_cl y p)) /\ c_conn (y_cl y p) = false /\
       (c_pc (y_cl y p) = PIdle \/ exists b, c_pc (y_cl y p) = PDisp b)).
    { destruct (c_pc (y_cl y p)) eqn:Ep; try discriminate H; destruct (c_conn (y_cl y p)); try discriminate H; inversion H; eauto. }
    destruct K as (-> & Hc & Ep). clear H.
    assert (Hlk : c_lock (y_cl y p) = false) by (destruct (c_lock (y_cl y p)) eqn:Z; [specialize (D eq_refl); congruence|reflexivity]).
    assert (Hq : c_queue (y_cl y p) = []) by (destruct (c_queue (y_cl y p)); [reflexivity|]; assert (Z : c_lock (y_cl y p) = true) by (apply C; discriminate); congruence).
    split; yred; rewrite ?upd_same; yred; auto.
    + unfold cpc; yred. destruct Ep as [Ep|[b Ep]]; rewrite Ep; auto.
    + intros _. apply reported_lt; auto.
    + rewrite G. rewrite !qpages_nil; auto.
  - apply (other_keep g y y' p q Iq Hne).
    all: destruct (c_pc (y_cl y p)); try discriminate H; destruct (c_conn (y_cl y p)); try discriminate H; inversion H; subst; yred; rewrite ?upd_other by auto; tauto || auto.
  - (* LDispatch *)
    destruct (c_pc (y_cl y p)) eqn:Ep; try discriminate H. inversion H; subst; clear H.
    split; yred; rewrite ?upd_same; yred; auto. unfold cpc; yred; auto.
  - destruct (c_pc (y_cl y p)) eqn:Ep; try discriminate H. inversion H; subst; clear H.
    apply (other_keep g y _ p q Iq Hne); yred; rewrite ?upd_other by auto; tauto || auto.
  - (* LGo *)
    destruct (c_pc (y_cl y p)) eqn:Ep; try discriminate H. destruct (c_conn (y_cl y p)) eqn:Ec; try discriminate H.
    destruct (N.of_nat (List.length (c_queue (y_cl y p))) =? limit g p) eqn:El; inversion H; subst; clear H;
      split; yred; rewrite ?upd_same; yred; auto.
    + unfold cpc; yred. destruct (eq32 _ _); intros Z; rewrite Z in El; cbn [List.length N.of_nat] in El; lia.
    + unfold cpc; yred. destruct (c_lock (y_cl y p)) eqn:Elk; yred; [split; [auto|apply N.eqb_neq in El; lia]|split; auto].
  - destruct (c_pc (y_cl y p)) eqn:Ep; try discriminate H. destruct (c_conn (y_cl y p)) eqn:Ec; try discriminate H.
    destruct (N.of_nat (List.length (c_queue (y_cl y p))) =? limit g p) eqn:El; inversion H; subst; clear H;
      apply (other_keep g y _ p q Iq Hne); yred; rewrite ?upd_other by auto; tauto || auto.
  - (* LLock *)
    destruct (c_pc (y_cl y p)) eqn:Ep; try discriminate H. destruct (y_owner y) eqn:Eo; try discriminate H. inversion H; subst; clear H.
    unfold cpc in B; rewrite Ep in B. destruct B as [B1 B2].
    assert (Hq : c_queue (y_cl y p) = []) by (destruct (c_queue (y_cl y p)); [reflexivity|]; assert (Z : c_lock (y_cl y p) = true) by (apply C; discriminate); congruence).
    split; yred; rewrite ?upd_same; yred; auto.
    + tauto.
    + unfold cpc; yred; auto.
  - destruct (c_pc (y_cl y p)) eqn:Ep; try discriminate H. destruct (y_owner y) eqn:Eo; try discriminate H. inversion H; subst; clear H.
    apply (other_keep g y _ p q Iq Hne); yred; rewrite ?upd_other by auto; auto. rewrite Eo. split; intros Z; [congruence|discriminate].
  - (* LStart *)
    destruct (c_pc (y_cl y p)) eqn:Ep; try discriminate H. inversion H; subst; clear H.
    unfold cpc in B; rewrite Ep in B. destruct B as [B1 B2].
    split; yred; rewrite ?upd_same; destruct (c_ext (y_cl y p) || negb (eq64 (y_count y + 1) (c_cnt (y_cl y p) + 1))); yred; auto;
      try (intros; apply reported_lt; auto).
    + unfold cpc; yred. rewrite B2. split; [auto|cbn; lia].
    + unfold cpc; yred. rewrite B2. split; [auto|cbn; lia].
    + rewrite G, !qpages_nil; auto.
  - destruct (c_pc (y_cl y p)) eqn:Ep; try discriminate H. inversion H; subst; clear H.
    apply (other_keep g y _ p q Iq Hne); yred; rewrite ?upd_other by auto; tauto || auto.
  - (* LWrite *)
    destruct (c_pc (y_cl y p)) eqn:Ep; try discriminate H. inversion H; subst; clear H.
    unfold cpc in B; rewrite Ep in B. destruct B as [B1 B2].
    assert (Hi : c_idx (y_cl y p) < r_pages g) by auto.
    split; yred; rewrite ?upd_same; yred; auto.
    + unfold cpc; yred; auto.
    + rewrite app_length. cbn [List.length]. lia.
    + intros _. apply N.mod_lt. lia.
    + cbn [pend]. rewrite Nat.eqb_refl, G. symmetry. apply qpages_push; yred; auto. lia.
  - destruct (c_pc (y_cl y p)) eqn:Ep; try discriminate H. inversion H; subst; clear H.
    apply (other_keep g y _ p q Iq Hne); yred; rewrite ?upd_other by auto; try tauto; auto.
    cbn [pend]. rewrite neq_eqb by auto. reflexivity.
  - (* LFlush *)
    destruct (c_pc (y_cl y p)) eqn:Ep; try discriminate H. destruct (c_queue (y_cl y p)) eqn:Eq; try discriminate H. inversion H; subst; clear H.
    unfold enter_flush; rewrite Eq. split; yred; rewrite ?upd_same; yred; rewrite ?Eq; auto.
    unfold cpc; yred. rewrite Eq. destruct (eq32 _ _); discriminate.
  - destruct (c_pc (y_cl y p)) eqn:Ep; try discriminate H. destruct (c_queue (y_cl y p)) eqn:Eq; try discriminate H. inversion H; subst; clear H.
    apply (other_keep g y _ p q Iq Hne); yred; rewrite ?upd_other by auto; tauto || auto.
  - (* LPoll *)
    destruct (c_pc (y_cl y p)) eqn:Ep; try discriminate H. unfold cpc in B; rewrite Ep in B.
    destruct (r_intr g p); [destruct (h_irq (y_hw y))|destruct (eq32 _ _)]; inversion H; subst; clear H.
    + split; yred; rewrite ?upd_same; yred; auto.
    + split; yred; rewrite ?upd_same; yred; auto.
  - destruct (c_pc (y_cl y p)) eqn:Ep; try discriminate H.
    destruct (r_intr g p); [destruct (h_irq (y_hw y))|destruct (eq32 _ _)]; inversion H; subst; clear H;
    apply (other_keep g y _ p q Iq Hne); yred; rewrite ?upd_other by auto; tauto || auto.
  - (* LRead *)
    destruct (c_pc (y_cl y p)) eqn:Ep; try discriminate H. destruct (c_queue (y_cl y p)) as [|b r] eqn:Eq; try discriminate H.
    assert (Hlk : c_lock (y_cl y p) = true) by (apply C; discriminate).
    assert (Hc : c_conn (y_cl y p) = true) by auto.
    set (c1 := mkC _ _ _ _ _ _ _ _ r) in H.
    set (c2 := match k with KDisp b' => enter_write c1 b' | KFlush => enter_flush c1 end) in H.
    assert (K : c_queue c2 = r /\ c_lock c2 = true /\ c_conn c2 = true /\ c_idx c2 = c_idx (y_cl y p) /\ cpc g p c2).
    { subst c2 c1. unfold cpc, enter_write, enter_flush, enter_read.
      destruct k as [b'|]; yred; rewrite ?Hlk.
      - yred. repeat (split; [auto; fail|]). cbn [List.length] in E. lia.
      - destruct r; yred; auto 10. destruct (eq32 _ _); yred; repeat (split; [auto; fail|]); discriminate. }
    destruct K as (K1 & K2 & K3 & K4 & K5). clearbody c2. clear c1. inversion H; subst; clear H.
    split; yred; rewrite ?upd_same; rewrite ?K1, ?K2, ?K3, ?K4; auto.
    + rewrite <- Hlk. tauto.
    + cbn [List.length] in E. lia.
    + cbn [pend]. rewrite Nat.eqb_refl, G. rewrite (qpages_pop g _ b (c_queue c2) c2 Eq K4 eq_refl) by (rewrite Eq; lia). reflexivity.
  - destruct (c_pc (y_cl y p)) eqn:Ep; try discriminate H. destruct (c_queue (y_cl y p)) as [|b r] eqn:Eq; try discriminate H.
    inversion H; subst; clear H.
    apply (other_keep g y _ p q Iq Hne); yred; rewrite ?upd_other by auto; try tauto; auto.
    cbn [pend]. rewrite neq_eqb by auto. reflexivity.
  - (* LUnlock *)
    destruct (c_pc (y_cl y p)) eqn:Ep; try discriminate H. inversion H; subst; clear H.
    unfold cpc in B; rewrite Ep in B. destruct B as [B1 B2].
    split; yred; rewrite ?upd_same; yred; auto; try (intros; congruence).
    + split; intros; discriminate.
    + unfold cpc; yred; auto.
  - destruct (c_pc (y_cl y p)) eqn:Ep; try discriminate H. inversion H; subst; clear H.
    unfold cpc in B; rewrite Ep in B. destruct B as [B1 B2]. apply A in B1.
    apply (other_keep g y _ p q Iq Hne); yred; rewrite ?upd_other by auto; auto.
    rewrite B1. split; intros Z; [discriminate|congruence].
  - (* LEnd *)
    destruct (c_pc (y_cl y p)) eqn:Ep; try discriminate H. inversion H; subst; clear H.
    split; yred; rewrite ?upd_same; yred; auto. unfold cpc; yred; auto.
  - destruct (c_pc (y_cl y p)) eqn:Ep; try discriminate H. inversion H; subst; clear H.
    apply (other_keep g y _ p q Iq Hne); yred; rewrite ?upd_other by auto; tauto || auto.
  - (* LFail *)
    inversion H; subst; clear H.
    split; yred; rewrite ?upd_same; yred; auto; try (intros; congruence).
    + split; [discriminate|]. destruct (c_lock (y_cl y p)) eqn:El; [discriminate|].
      intros Z. apply A in Z. discriminate.
    + unfold cpc; yred; auto.
    + cbn. lia.
    + cbn [pend]. rewrite Nat.eqb_refl. reflexivity.
  - inversion H; subst; clear H.
    apply (other_keep g y _ p q Iq Hne); yred; rewrite ?upd_other by auto; auto.
    + destruct (c_lock (y_cl y p)) eqn:El; [|tauto]. assert (Z : y_owner y = Some p) by (apply A; auto). rewrite Z. split; intros; [discriminate|congruence].
    + cbn [pend]. rewrite neq_eqb by auto. reflexivity.
  - (* LPub *)
    destruct (h_wait (y_hw y)) as [|b w]; try discriminate H. inversion H; subst; clear H.
    pose proof (I q) as [A B C D E F G]. split; yred; auto.
Qed.

Lemma rinv_init : forall g k n a r, rinv g (init_ring k n a r).
Proof.
  intros g k n a r p. split; cbn; auto; try congruence.
  - split; discriminate.
  - apply N.le_0_l.
Qed.

Lemma no_lock_no_queue : forall g y p, cinv g y p -> c_lock (y_cl y p) = false -> c_queue (y_cl y p) = [].
Proof.
  intros g y p [A B C D E F G] H. destruct (c_queue (y_cl y p)); [reflexivity|].
  assert (c_lock (y_cl y p) = true) by (apply C; discriminate). congruence.
Qed.

(** Only the flock owner has requests waiting. *)
Lemma one_owner : forall g y p q, rinv g y -> c_lock (y_cl y p) = true -> q <> p -> c_lock (y_cl y q) = false.
Proof.
  intros g y p q I H Hne. destruct (c_lock (y_cl y q)) eqn:E; [|reflexivity].
  apply (ci_own _ _ _ (I p)) in H. apply (ci_own _ _ _ (I q)) in E. congruence.
Qed.

Lemma ring_ok_step : forall g y l y', 0 < r_pages g -> r_pages g < 2 ^ 32 ->
  rinv g y -> ring_ok (y_tr y) -> rstep g y l = Some y' -> ring_ok (y_tr y').
Proof.
  intros g y l y' Hn Hb I R H.
  destruct l as [p|p b|p|p|p|p|p|p|p|p|p|p|]; cbn [rstep] in H; cbv zeta in H.
  - destruct (c_pc (y_cl y p)); try discriminate H; destruct (c_conn (y_cl y p)); inversion H; exact R.
  - destruct (c_pc (y_cl y p)); inversion H; exact R.
  - destruct (c_pc (y_cl y p)); try discriminate H. destruct (c_conn (y_cl y p)); try discriminate H.
    destruct (_ =? _); inversion H; exact R.
  - destruct (c_pc (y_cl y p)); try discriminate H. destruct (y_owner y); inversion H; exact R.
  - destruct (c_pc (y_cl y p)); inversion H; exact R.
  - destruct (c_pc (y_cl y p)) eqn:Ep; try discriminate H. inversion H; subst; clear H. yred. cbn [ring_ok].
    split; [|exact R]. intros q b' Hin.
    pose proof (I p) as [A B C D E F G]. unfold cpc in B. rewrite Ep in B. destruct B as [B1 B2].
    destruct (Nat.eq_dec q p) as [->|Hne].
    + rewrite G in Hin. unfold qpages in Hin. apply slots_in in Hin. destruct Hin as (j & Hj & Hpg).
      pose proof (limit_bound g p Hn) as HL. assert (Hi : c_idx (y_cl y p) < r_pages g) by auto.
      revert Hpg.
      replace (c_idx (y_cl y p)) with ((c_idx (y_cl y p) + r_pages g) mod r_pages g) at 1.
      * apply mod_add_ne; lia.
      * replace (c_idx (y_cl y p) + r_pages g) with (c_idx (y_cl y p) + 1 * r_pages g) by lia.
        rewrite N.mod_add by lia. apply N.mod_small. exact Hi.
    + rewrite (ci_pend _ _ _ (I q)), qpages_nil in Hin; [exact Hin|].
      apply (no_lock_no_queue g y q (I q)). apply (one_owner g y p q I B1 Hne).
  - destruct (c_pc (y_cl y p)); try discriminate H. destruct (c_queue (y_cl y p)); inversion H; exact R.
  - destruct (c_pc (y_cl y p)); try discriminate H. destruct (r_intr g p); [destruct (h_irq (y_hw y))|destruct (eq32 _ _)]; inversion H; exact R.
  - destruct (c_pc (y_cl y p)) eqn:Ep; try discriminate H. destruct (c_queue (y_cl y p)) as [|b q] eqn:Eq; try discriminate H.
    inversion H; subst; clear H. yred. cbn [ring_ok]. split; [|exact R].
    pose proof (I p) as [A B C D E F G]. pose proof (limit_bound g p Hn) as HL.
    assert (Hi : c_idx (y_cl y p) < r_pages g). { apply F, D, C. rewrite Eq. discriminate. }
    rewrite G, page_to_read_eq by (auto; lia).
    unfold qpages. rewrite Eq. cbn [slots hd_error]. reflexivity.
  - destruct (c_pc (y_cl y p)); inversion H; exact R.
  - destruct (c_pc (y_cl y p)); inversion H; exact R.
  - inversion H; exact R.
  - destruct (h_wait (y_hw y)); inversion H; exact R.
Qed.

(** Induction over executions. *)
Lemma rrun_ind : forall g (P : sys -> Prop),
  (forall y l y', P y -> rstep g y l = Some y' -> P y') ->
  forall ls y y', P y -> rrun g y ls = Some y' -> P y'.
Proof.
  intros g P St ls; induction ls as [|l t IH]; intros y y' HP H; cbn [rrun] in H.
  - inversion H; subst; exact HP.
  - destruct (rstep g y l) as [y1|] eqn:E; [|discriminate H]. eapply IH; [|exact H]. eapply St; eauto.
Qed.

Lemma rrun_rinv : forall g ls k n a r y, 0 < r_pages g -> r_pages g < 2 ^ 32 ->
  rrun g (init_ring k n a r) ls = Some y -> rinv g y /\ ring_ok (y_tr y).
Proof.
  intros g ls k n a r y Hn Hb H.
  refine (rrun_ind g (fun y => rinv g y /\ ring_ok (y_tr y)) _ ls _ y _ H).
  - intros y0 l y1 [I R] St. split; [eapply rinv_step; eauto|eapply ring_ok_step; eauto].
  - split; [apply rinv_init|exact I].
Qed.

Lemma pend_cons_le : forall e t p m,
  N.of_nat (List.length (pend (e :: t) p)) <= m -> flight_ok m p t -> flight_ok m p (e :: t).
Proof. intros. cbn [flight_ok]. split; assumption. Qed.

Lemma tr_grows : forall g y l y', rstep g y l = Some y' ->
  y_tr y' = y_tr y \/ exists o, y_tr y' = o :: y_tr y.
Proof.
  intros g y l y' H.
  destruct l as [p|p b|p|p|p|p|p|p|p|p|p|p|]; cbn [rstep] in H; cbv zeta in H.
  - destruct (c_pc (y_cl y p)); try discriminate H; destruct (c_conn (y_cl y p)); inversion H; auto.
  - destruct (c_pc (y_cl y p)); inversion H; auto.
  - destruct (c_pc (y_cl y p)); try discriminate H. destruct (c_conn (y_cl y p)); try discriminate H.
    destruct (_ =? _); inversion H; auto.
  - destruct (c_pc (y_cl y p)); try discriminate H. destruct (y_owner y); inversion H; auto.
  - destruct (c_pc (y_cl y p)); inversion H; auto.
  - destruct (c_pc (y_cl y p)); inversion H; right; eexists; reflexivity.
  - destruct (c_pc (y_cl y p)); try discriminate H. destruct (c_queue (y_cl y p)); inversion H; auto.
  - destruct (c_pc (y_cl y p)); try discriminate H. destruct (r_intr g p); [destruct (h_irq (y_hw y))|destruct (eq32 _ _)]; inversion H; auto.
  - destruct (c_pc (y_cl y p)); try discriminate H. destruct (c_queue (y_cl y p)); inversion H; right; eexists; reflexivity.
  - destruct (c_pc (y_cl y p)); inversion H; auto.
  - destruct (c_pc (y_cl y p)); inversion H; auto.
  - inversion H; right; eexists; reflexivity.
  - destruct (h_wait (y_hw y)); inversion H; right; eexists; reflexivity.
Qed.

Lemma rrun_flight : forall g ls k n a r y p, 0 < r_pages g -> r_pages g < 2 ^ 32 ->
  rrun g (init_ring k n a r) ls = Some y -> flight_ok (limit g p) p (y_tr y).
Proof.
  intros g ls k n a r y p Hn Hb H.
  refine (proj2 (rrun_ind g (fun y => rinv g y /\ flight_ok (limit g p) p (y_tr y)) _ ls _ y _ H)).
  - intros y0 l y1 [I R] St. pose proof (rinv_step g y0 l y1 Hn Hb I St) as I1. split; [exact I1|].
    destruct (tr_grows g y0 l y1 St) as [E|[o E]]; [rewrite E; exact R|].
    rewrite E. apply pend_cons_le; [|exact R]. rewrite <- E, (ci_pend _ _ _ (I1 p)). unfold qpages.
    rewrite slots_length. apply (ci_len _ _ _ (I1 p)).
  - split; [apply rinv_init|exact I].
Qed.
