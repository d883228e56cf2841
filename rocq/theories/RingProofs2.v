(** Sessions of several clients on one page ring. *)
From Coq Require Import NArith ZArith Lia List Bool Arith ZifyBool ZifyNat ZifyN.
From Verif Require Import Ring RingSpec RingProofs.
Import ListNotations.
Open Scope N_scope.
Ltac Zify.zify_post_hook ::= Z.div_mod_to_equations.

(** Client in a session: it owns the lock and has called startSession. *)
Definition insess (c : cst) : bool :=
  c_lock c && match c_pc c with PStart _ => false | _ => true end.

(** The page the hardware expects next. *)
Definition expect (g : rcfg) (h : hw) : N := (h_recv h + r_off g) mod r_pages g.

Record einv (g : rcfg) (s0 k0 : N) (stale : nat -> bool) (y : sys) : Prop := mkE {
  e_in : forall d, insess (y_cl y d) = true ->
    c_ext (y_cl y d) = false /\ c_cnt (y_cl y d) = y_count y /\ y_active y = true /\
    c_idx (y_cl y d) = expect g (y_hw y);
  e_out : forall p, insess (y_cl y p) = false -> c_conn (y_cl y p) = true -> c_ext (y_cl y p) = false ->
    c_cnt (y_cl y p) = y_count y -> c_idx (y_cl y p) = expect g (y_hw y);
  e_lt : forall d p, insess (y_cl y d) = true -> p <> d -> c_conn (y_cl y p) = true ->
    c_ext (y_cl y p) = false -> c_cnt (y_cl y p) < y_count y;
  e_cnt : forall p, c_conn (y_cl y p) = true -> s0 <= c_cnt (y_cl y p) <= y_count y;
  e_end : forall p, c_pc (y_cl y p) = PEnd -> stale p = false ->
    c_cnt (y_cl y p) = y_count y /\ c_ext (y_cl y p) = false /\ c_conn (y_cl y p) = true;
  e_step : in_step (r_pages g) (k0 + r_off g) (y_tr y);
  e_num : k0 + nwrites (y_tr y) = h_recv (y_hw y);
  e_s0 : s0 <= y_count y
}.

(** The status words read in connect() say where the hardware is. *)
Definition fits (g : rcfg) (y : sys) (l : rlab) : Prop :=
  match l with
  | LConn _ => y_active y = false -> reported g (y_hw y) = expect g (y_hw y)
  | LStart _ => reported g (y_hw y) = expect g (y_hw y)
  | _ => True
  end.

Lemma expect_lt : forall g h, 0 < r_pages g -> expect g h < r_pages g.
Proof. intros. unfold expect. apply N.mod_lt. lia. Qed.

Lemma insess_lock : forall c, insess c = true -> c_lock c = true.
Proof. intros c H. unfold insess in H. destruct (c_lock c); [reflexivity|discriminate H]. Qed.

Lemma insess_unlock : forall c, c_lock c = false -> insess c = false.
Proof. intros c H. unfold insess. rewrite H. reflexivity. Qed.

(** A step that leaves hardware, session data and trace alone and changes one
    client only in its position and counters of replies. *)
Lemma einv_local : forall g s0 k0 stale y y' p,
  einv g s0 k0 stale y ->
  (forall q, q <> p -> y_cl y' q = y_cl y q) ->
  insess (y_cl y' p) = insess (y_cl y p) ->
  c_conn (y_cl y' p) = c_conn (y_cl y p) -> c_ext (y_cl y' p) = c_ext (y_cl y p) ->
  c_cnt (y_cl y' p) = c_cnt (y_cl y p) -> c_idx (y_cl y' p) = c_idx (y_cl y p) ->
  c_pc (y_cl y' p) <> PEnd ->
  h_recv (y_hw y') = h_recv (y_hw y) -> y_count y' = y_count y -> y_active y' = y_active y ->
  in_step (r_pages g) (k0 + r_off g) (y_tr y') -> nwrites (y_tr y') = nwrites (y_tr y) ->
  einv g s0 k0 stale y'.
Proof.
  intros g s0 k0 stale y y' p [A B C D E F G K] Ho Hs Hc He Hn Hi Hp Hr Hy Ha Ht Hw.
  assert (X : expect g (y_hw y') = expect g (y_hw y)) by (unfold expect; rewrite Hr; reflexivity).
  split.
  - intros d Hd. destruct (Nat.eq_dec d p) as [->|Hne].
    + rewrite Hs in Hd. rewrite He, Hn, Hi, X, Ha, Hy. auto.
    + rewrite (Ho d Hne) in *. rewrite X, Ha, Hy. auto.
  - intros d Hd. destruct (Nat.eq_dec d p) as [->|Hne].
    + rewrite Hs in Hd. rewrite Hc, He, Hn, Hi, X, Hy. auto.
    + rewrite (Ho d Hne) in *. rewrite X, Hy. auto.
  - intros d q Hd Hdq. rewrite Hy.
    assert (Hd' : insess (y_cl y d) = true).
    { destruct (Nat.eq_dec d p) as [->|Hne]; [rewrite <- Hs; exact Hd|rewrite <- (Ho d Hne); exact Hd]. }
    destruct (Nat.eq_dec q p) as [->|Hne].
    + rewrite Hc, He, Hn. apply (C d); auto.
    + rewrite (Ho q Hne). apply (C d); auto.
  - intros d. rewrite Hy. destruct (Nat.eq_dec d p) as [->|Hne]; [rewrite Hc, Hn; auto|rewrite (Ho d Hne); auto].
  - intros d. rewrite Hy. destruct (Nat.eq_dec d p) as [->|Hne]; [intros Z; contradiction (Hp Z)|rewrite (Ho d Hne); auto].
  - exact Ht.
  - rewrite Hw, Hr. exact G.
  - rewrite Hy. exact K.
Qed.

Lemma eq64_true : forall a b, eq64 a b = true -> b <= a -> a - b < 2 ^ 64 -> a = b.
Proof. intros a b H H1 H2. unfold eq64 in H. apply N.eqb_eq in H. lia. Qed.

Lemma einv_step : forall g s0 k0 stale y l y', 0 < r_pages g -> r_pages g < 2 ^ 32 ->
  rinv g y -> einv g s0 k0 stale y -> fits g y l ->
  match l with LEnd p => stale p = false | _ => True end ->
  y_count y < s0 + 2 ^ 64 ->
  rstep g y l = Some y' -> einv g s0 k0 (stale_next stale l) y'.
Proof.
  intros g s0 k0 stale y l y' Hn Hb I E HF HT HS H.
  destruct l as [p|p b|p|p|p|p|p|p|p|p|p|p|]; cbn [rstep] in H; cbv zeta in H; cbn [stale_next] in *.
  - (* LConn *)
    assert (K : y' = set_cl y p (connect g (y_hw y) (y_count y) (y_active y) (y_cl y p)) /\ c_conn (y_cl y p) = false /\
       c_pc (y_cl y p) <> PEnd).
    { destruct (c_pc (y_cl y p)) eqn:Ep; try discriminate H; destruct (c_conn (y_cl y p)); try discriminate H; inversion H; split; auto; split; auto; discriminate. }
    destruct K as (-> & Hc & Ep). clear H.
    assert (Hlk : c_lock (y_cl y p) = false) by (destruct (c_lock (y_cl y p)) eqn:Z; [apply (ci_conn _ _ _ (I p)) in Z; congruence|reflexivity]).
    assert (Hs : insess (connect g (y_hw y) (y_count y) (y_active y) (y_cl y p)) = false) by (unfold insess; yred; rewrite Hlk; reflexivity).
    cbn [fits] in HF. destruct E as [A B C D E F G K].
    split; yred; auto.
    + intros d Hd. unfold upd in *. destruct (Nat.eqb d p); [congruence|auto].
    + intros d Hd. unfold upd in *. destruct (Nat.eqb d p); [|auto]. yred. rewrite Hlk, andb_true_r. intros _ Z _. auto.
    + intros d q Hd Hne. assert (Hd' : insess (y_cl y d) = true) by (unfold upd in Hd; destruct (Nat.eqb d p); congruence).
      unfold upd. destruct (Nat.eqb q p) eqn:Eq.
      * yred. rewrite Hlk, andb_true_r. destruct (A d Hd') as (_ & _ & Z & _). congruence.
      * apply (C d); auto.
    + intros d. unfold upd. destruct (Nat.eqb d p); yred; [lia|auto].
    + intros d. unfold upd. destruct (Nat.eqb d p); yred; [intros Z; contradiction (Ep Z)|auto].
  - (* LDispatch *)
    destruct (c_pc (y_cl y p)) eqn:Ep; try discriminate H. inversion H; subst; clear H.
    apply (einv_local g s0 k0 stale y _ p E); yred; rewrite ?upd_same; yred; auto.
    + intros q Hq. apply upd_other; auto.
    + unfold insess; yred. rewrite Ep. reflexivity.
    + discriminate.
    + apply (e_step _ _ _ _ _ E).
  - (* LGo *)
    destruct (c_pc (y_cl y p)) eqn:Ep; try discriminate H. destruct (c_conn (y_cl y p)) eqn:Ec; try discriminate H.
    assert (J : exists i, y' = set_cl y p (at_pc (y_cl y p) i) /\ i <> PEnd /\ (forall b, i <> PStart b)).
    { destruct (_ =? _); inversion H; unfold enter_read, enter_write.
      - destruct (eq32 _ _); eexists; split; eauto; split; discriminate.
      - destruct (c_lock _); eexists; split; eauto; split; discriminate. }
    destruct J as (i & -> & J1 & J2). clear H.
    apply (einv_local g s0 k0 stale y _ p E); yred; rewrite ?upd_same; yred; auto.
    + intros q Hq. apply upd_other; auto.
    + unfold insess; yred. rewrite Ep. destruct i; try reflexivity. contradiction (J2 b0 eq_refl).
    + apply (e_step _ _ _ _ _ E).
  - (* LLock *)
    destruct (c_pc (y_cl y p)) eqn:Ep; try discriminate H. destruct (y_owner y) eqn:Eo; try discriminate H. inversion H; subst; clear H.
    pose proof (ci_pc _ _ _ (I p)) as B; unfold cpc in B; rewrite Ep in B. destruct B as [B1 B2].
    apply (einv_local g s0 k0 stale y _ p E); yred; rewrite ?upd_same; yred; auto.
    + intros q Hq. apply upd_other; auto.
    + unfold insess; yred. rewrite B1. reflexivity.
    + discriminate.
    + apply (e_step _ _ _ _ _ E).
  - (* LStart *)
    destruct (c_pc (y_cl y p)) eqn:Ep; try discriminate H.
    pose proof (ci_pc _ _ _ (I p)) as B; unfold cpc in B; rewrite Ep in B. destruct B as [B1 B2].
    set (c2 := if _ || _ then _ else _) in H.
    assert (J : c_ext c2 = false /\ c_cnt c2 = y_count y + 1 /\ c_idx c2 = expect g (y_hw y) /\ c_conn c2 = true /\ c_pc c2 = PWrite b /\ c_lock c2 = true).
    { assert (Hconn : c_conn (y_cl y p) = true) by (apply (ci_conn _ _ _ (I p)); auto).
      subst c2. cbn [fits] in HF. destruct (c_ext (y_cl y p) || negb (eq64 (y_count y + 1) (c_cnt (y_cl y p) + 1))) eqn:Ee.
      - yred. rewrite B1. auto 10.
      - yred. apply orb_false_iff in Ee. destruct Ee as [Ee1 Ee2]. apply negb_false_iff in Ee2.
        pose proof (e_cnt _ _ _ _ _ E p Hconn) as Hcnt. pose proof (e_s0 _ _ _ _ _ E) as Hs0.
        assert (Z : y_count y + 1 = c_cnt (y_cl y p) + 1) by (apply eq64_true; [exact Ee2|lia|lia]).
        repeat split; auto. apply (e_out _ _ _ _ _ E p); auto.
        + unfold insess. rewrite Ep. apply andb_false_r.
        + lia. }
    destruct J as (J1 & J2 & J3 & J4 & J5 & J6). clearbody c2. inversion H; subst; clear H.
    assert (Hs : insess c2 = true) by (unfold insess; rewrite J5, J6; reflexivity).
    destruct E as [A B C D E F G K].
    assert (Hoth : forall q, q <> p -> insess (y_cl y q) = false).
    { intros q Hq. apply insess_unlock. apply (one_owner g y p q I B1 Hq). }
    split; yred; auto.
    + intros d Hd. unfold upd in *. destruct (Nat.eqb d p) eqn:Eq; [auto|]. apply Nat.eqb_neq in Eq. rewrite (Hoth d Eq) in Hd. discriminate.
    + intros d Hd. unfold upd in *. destruct (Nat.eqb d p) eqn:Eq; [congruence|]. intros Z1 Z2 Z3. apply D in Z1. lia.
    + intros d q Hd Hne. unfold upd in *. destruct (Nat.eqb q p) eqn:Eq.
      * apply Nat.eqb_eq in Eq; subst. destruct (Nat.eqb d p) eqn:Eq2; [apply Nat.eqb_eq in Eq2; congruence|].
        apply Nat.eqb_neq in Eq2. rewrite (Hoth d Eq2) in Hd. discriminate.
      * intros Z _. apply D in Z. lia.
    + intros d. unfold upd. destruct (Nat.eqb d p); [lia|]. intros Z; apply D in Z. lia.
    + intros; discriminate.
    + lia.
  - (* LWrite *)
    destruct (c_pc (y_cl y p)) eqn:Ep; try discriminate H. inversion H; subst; clear H.
    pose proof (ci_pc _ _ _ (I p)) as B; unfold cpc in B; rewrite Ep in B. destruct B as [B1 B2].
    assert (Hs : insess (y_cl y p) = true) by (unfold insess; rewrite Ep, B1; reflexivity).
    destruct E as [A B C D E F G K]. destruct (A p Hs) as (A1 & A2 & A3 & A4).
    assert (Hw : hw_write g (y_hw y) (c_idx (y_cl y p)) b =
      mkH (h_recv (y_hw y) + 1) (h_pub (y_hw y)) (h_wait (y_hw y) ++ [b]) (h_rep (y_hw y)) (h_irq (y_hw y))).
    { unfold hw_write. rewrite A4. unfold expect. rewrite N.eqb_refl. reflexivity. }
    assert (Hoth : forall q, q <> p -> insess (y_cl y q) = false).
    { intros q Hq. apply insess_unlock. apply (one_owner g y p q I B1 Hq). }
    split; yred; rewrite ?Hw; auto.
    + intros d Hd. unfold upd in *. destruct (Nat.eqb d p) eqn:Eq.
      * yred. repeat split; auto. unfold expect. yred. rewrite A4. unfold expect.
        rewrite N.add_mod_idemp_l by lia. f_equal. lia.
      * apply Nat.eqb_neq in Eq. rewrite (Hoth d Eq) in Hd. discriminate.
    + intros d Hd. unfold upd in *. destruct (Nat.eqb d p) eqn:Eq.
      * exfalso. unfold insess in Hd. yred. rewrite B1 in Hd. discriminate.
      * apply Nat.eqb_neq in Eq. intros Z1 Z2 Z3. pose proof (C p d Hs Eq Z1 Z2). lia.
    + intros d q Hd Hne. unfold upd in *. destruct (Nat.eqb d p) eqn:Eq; [apply Nat.eqb_eq in Eq; subst|apply Nat.eqb_neq in Eq; rewrite (Hoth d Eq) in Hd; discriminate].
      apply Nat.eqb_neq in Hne. rewrite Hne. apply Nat.eqb_neq in Hne. apply (C p q); auto.
    + intros d. unfold upd. destruct (Nat.eqb d p) eqn:Eq; yred; [|auto]. apply Nat.eqb_eq in Eq; subst. auto.
    + intros d. unfold upd. destruct (Nat.eqb d p); yred; [discriminate|auto].
    + cbn [in_step]. split; [|exact F]. rewrite A4. unfold expect. f_equal. lia.
    + yred. cbn [nwrites]. lia.
  - (* LFlush *)
    destruct (c_pc (y_cl y p)) eqn:Ep; try discriminate H. destruct (c_queue (y_cl y p)) eqn:Eq; try discriminate H. inversion H; subst; clear H.
    unfold enter_flush; rewrite Eq.
    apply (einv_local g s0 k0 stale y _ p E); yred; rewrite ?upd_same; yred; auto.
    + intros q Hq. apply upd_other; auto.
    + unfold insess; yred. rewrite Ep. destruct (eq32 _ _); reflexivity.
    + destruct (eq32 _ _); discriminate.
    + apply (e_step _ _ _ _ _ E).
  - (* LPoll *)
    destruct (c_pc (y_cl y p)) eqn:Ep; try discriminate H.
    destruct (r_intr g p); [destruct (h_irq (y_hw y))|destruct (eq32 _ _)]; inversion H; subst; clear H.
    + apply (einv_local g s0 k0 stale y _ p E); yred; rewrite ?upd_same; yred; auto.
      * intros q Hq. apply upd_other; auto.
      * unfold insess; yred. rewrite Ep. reflexivity.
      * discriminate.
      * apply (e_step _ _ _ _ _ E).
    + apply (einv_local g s0 k0 stale y _ p E); yred; rewrite ?upd_same; yred; auto.
      * intros q Hq. apply upd_other; auto.
      * unfold insess; yred. rewrite Ep. reflexivity.
      * discriminate.
      * apply (e_step _ _ _ _ _ E).
  - (* LRead *)
    destruct (c_pc (y_cl y p)) eqn:Ep; try discriminate H. destruct (c_queue (y_cl y p)) as [|b r] eqn:Eq; try discriminate H.
    assert (Hlk : c_lock (y_cl y p) = true) by (apply (ci_q _ _ _ (I p)); rewrite Eq; discriminate).
    set (c2 := match k with KDisp b' => enter_write _ b' | KFlush => enter_flush _ end) in H.
    assert (J : insess c2 = true /\ c_conn c2 = c_conn (y_cl y p) /\ c_ext c2 = c_ext (y_cl y p) /\ c_cnt c2 = c_cnt (y_cl y p) /\ c_idx c2 = c_idx (y_cl y p) /\ c_pc c2 <> PEnd).
    { subst c2. unfold insess, enter_write, enter_flush, enter_read. destruct k; yred; rewrite ?Hlk; yred.
      - repeat split; discriminate.
      - destruct r; yred; rewrite ?Hlk; [repeat split; discriminate|]. destruct (eq32 _ _); repeat split; discriminate. }
    destruct J as (J1 & J2 & J3 & J4 & J5 & J6). clearbody c2. inversion H; subst; clear H.
    apply (einv_local g s0 k0 stale y _ p E); yred; rewrite ?upd_same; auto.
    + intros q Hq. apply upd_other; auto.
    + rewrite J1. unfold insess. rewrite Ep, Hlk. reflexivity.
    + cbn [in_step]. apply (e_step _ _ _ _ _ E).
  - (* LUnlock *)
    destruct (c_pc (y_cl y p)) eqn:Ep; try discriminate H. inversion H; subst; clear H.
    pose proof (ci_pc _ _ _ (I p)) as B; unfold cpc in B; rewrite Ep in B. destruct B as [B1 B2].
    assert (Hs : insess (y_cl y p) = true) by (unfold insess; rewrite Ep, B1; reflexivity).
    destruct E as [A B C D E F G K]. destruct (A p Hs) as (A1 & A2 & A3 & A4).
    assert (Hoth : forall q, q <> p -> insess (y_cl y q) = false).
    { intros q Hq. apply insess_unlock. apply (one_owner g y p q I B1 Hq). }
    split; yred; auto.
    + intros d Hd. unfold upd in *. destruct (Nat.eqb d p) eqn:Eq; [discriminate Hd|]. apply Nat.eqb_neq in Eq. rewrite (Hoth d Eq) in Hd. discriminate.
    + intros d Hd. unfold upd in *. destruct (Nat.eqb d p) eqn:Eq; yred; auto.
    + intros d q Hd Hne. unfold upd in Hd. destruct (Nat.eqb d p) eqn:Eq; [discriminate Hd|]. apply Nat.eqb_neq in Eq. rewrite (Hoth d Eq) in Hd. discriminate.
    + intros d. unfold upd. destruct (Nat.eqb d p) eqn:Eq; yred; [|auto]. apply Nat.eqb_eq in Eq; subst. auto.
    + intros d. unfold upd. destruct (Nat.eqb d p) eqn:Eq; yred; [|auto]. intros _ _. repeat split; auto. apply (ci_conn _ _ _ (I p)); auto.
  - (* LEnd *)
    destruct (c_pc (y_cl y p)) eqn:Ep; try discriminate H. inversion H; subst; clear H.
    destruct E as [A B C D E F G K]. destruct (E p Ep HT) as (E1 & E2 & E3).
    assert (Hlk : c_lock (y_cl y p) = false) by (pose proof (ci_pc _ _ _ (I p)) as Z; unfold cpc in Z; rewrite Ep in Z; exact Z).
    assert (Hall : forall d, insess (y_cl y d) = false).
    { intros d. destruct (insess (y_cl y d)) eqn:Hd; [|reflexivity].
      destruct (Nat.eq_dec d p) as [->|Hne]; [apply insess_lock in Hd; congruence|].
      assert (Z : c_cnt (y_cl y p) < y_count y) by (apply (C d p); auto). lia. }
    split; yred; auto.
    + intros d Hd. unfold upd in *. destruct (Nat.eqb d p) eqn:Eq; [|rewrite Hall in Hd; discriminate].
      unfold insess in Hd; yred. rewrite Hlk in Hd. discriminate.
    + intros d Hd. unfold upd in *. destruct (Nat.eqb d p) eqn:Eq; yred; auto.
    + intros d q Hd. unfold upd in Hd. destruct (Nat.eqb d p) eqn:Eq; [|rewrite Hall in Hd; discriminate].
      unfold insess in Hd; yred. rewrite Hlk in Hd. discriminate.
    + intros d. unfold upd. destruct (Nat.eqb d p) eqn:Eq; yred; [|auto]. apply Nat.eqb_eq in Eq; subst. auto.
    + intros d. unfold upd. destruct (Nat.eqb d p); yred; [discriminate|auto].
  - (* LFail *)
    inversion H; subst; clear H. destruct E as [A B C D E F G K].
    split; yred; auto.
    + intros d Hd. unfold upd in *. destruct (Nat.eqb d p) eqn:Eq; [discriminate Hd|auto].
    + intros d Hd. unfold upd in *. destruct (Nat.eqb d p) eqn:Eq; yred; [discriminate|auto].
    + intros d q Hd Hne. unfold upd in *. destruct (Nat.eqb d p) eqn:Eq; [discriminate Hd|].
      destruct (Nat.eqb q p) eqn:Eq2; yred; [discriminate|]. apply (C d q); auto.
    + intros d. unfold upd. destruct (Nat.eqb d p); yred; [discriminate|auto].
    + intros d. unfold upd. destruct (Nat.eqb d p); yred; [discriminate|auto].
  - (* LPub *)
    destruct (h_wait (y_hw y)) as [|b w]; try discriminate H. inversion H; subst; clear H.
    destruct E as [A B C D E F G K]. split; yred; auto.
Qed.

Record xin (g : rcfg) (y : sys) (c : cst) : Prop := mkXI {
  xi_num : c_read c + N.of_nat (List.length (c_queue c)) = h_recv (y_hw y);
  xi_le : c_read c <= c_pub c <= h_pub (y_hw y);
  xi_wait : h_wait (y_hw y) = skipn (N.to_nat (h_pub (y_hw y) - c_read c)) (c_queue c);
  xi_pc : match c_pc c with PRead _ => c_read c < c_pub c | PWait _ => c_read c = c_pub c | _ => True end;
  xi_rep : forall i b, nth_error (c_queue c) i = Some b -> c_read c + N.of_nat i < h_pub (y_hw y) ->
    h_rep (y_hw y) ((c_read c + N.of_nat i + r_off g) mod r_pages g) = Some b /\
    last_pub (y_tr y) ((c_read c + N.of_nat i + r_off g) mod r_pages g) = Some b
}.

Record xinv (g : rcfg) (y : sys) : Prop := mkX {
  x_in : forall d, insess (y_cl y d) = true -> xin g y (y_cl y d);
  x_out : forall p, insess (y_cl y p) = false -> c_conn (y_cl y p) = true -> c_ext (y_cl y p) = false ->
    c_cnt (y_cl y p) = y_count y ->
    h_wait (y_hw y) = [] /\ c_read (y_cl y p) = c_pub (y_cl y p) /\ c_pub (y_cl y p) = h_pub (y_hw y);
  x_act : y_active y = false -> h_wait (y_hw y) = [];
  x_num : h_recv (y_hw y) = h_pub (y_hw y) + N.of_nat (List.length (h_wait (y_hw y)));
  x_ok : pub_ok (y_tr y)
}.

Lemma skipn_app_le : forall A (l r : list A) k, (k <= List.length l)%nat -> skipn k (l ++ r) = skipn k l ++ r.
Proof. intros. rewrite skipn_app. replace (k - List.length l)%nat with O by lia. reflexivity. Qed.

Lemma skipn_cons_nth : forall A (l : list A) k b w, skipn k l = b :: w -> nth_error l k = Some b /\ skipn (S k) l = w.
Proof.
  intros A l; induction l as [|x l IH]; intros k b w H.
  - destruct k; discriminate H.
  - destruct k; cbn in *; [inversion H; auto|]. apply IH in H. exact H.
Qed.

Lemma eq32_small : forall a b, a <= b -> b - a < 2 ^ 32 -> eq32 a b = (a =? b).
Proof. intros a b H1 H2. unfold eq32. destruct (a =? b) eqn:E; lia. Qed.

(** Entering read() keeps what is known of the counts. *)
Lemma xin_pc : forall g y c i, xin g y c ->
  match i with PRead _ => c_read c < c_pub c | PWait _ => c_read c = c_pub c | _ => True end -> xin g y (at_pc c i).
Proof. intros g y c i [A B C D E] H. split; auto. Qed.

Lemma xin_enter_read : forall g y c k, xin g y c -> N.of_nat (List.length (c_queue c)) <= r_pages g -> r_pages g < 2 ^ 32 ->
  h_pub (y_hw y) <= h_recv (y_hw y) -> xin g y (enter_read c k).
Proof.
  intros g y c k X Hl Hb Hh. unfold enter_read. apply xin_pc; [exact X|].
  destruct X as [A B C D E]. rewrite eq32_small by lia. destruct (c_read c =? c_pub c) eqn:Z; lia.
Qed.

Lemma xin_frame : forall g y y' c, xin g y c -> y_hw y' = y_hw y -> y_tr y' = y_tr y -> xin g y' c.
Proof. intros g y y' c [A B C D E] H1 H2. split; rewrite ?H1, ?H2; auto. Qed.

Lemma xin_frame_read : forall g y c p b pg v y', xin g y c -> y_hw y' = y_hw y -> y_tr y' = ORead p b pg v :: y_tr y -> xin g y' c.
Proof. intros g y c p b pg v y' [A B C D E] H1 H2. split; rewrite ?H1, ?H2; auto. Qed.

(** The page of the oldest waiting request, by request number. *)
Lemma page_number : forall g h c, 0 < r_pages g -> r_pages g < 2 ^ 32 ->
  N.of_nat (List.length (c_queue c)) <= r_pages g ->
  c_idx c = expect g h -> c_read c + N.of_nat (List.length (c_queue c)) = h_recv h ->
  page_to_read g c = (c_read c + r_off g) mod r_pages g.
Proof.
  intros g h c Hn Hb Hl Hi Hr.
  assert (Hlt : c_idx c < r_pages g) by (rewrite Hi; apply expect_lt; auto).
  rewrite page_to_read_eq by auto. rewrite Hi. unfold expect. rewrite <- Hr.
  set (k := N.of_nat (List.length (c_queue c))) in *. set (n := r_pages g) in *. set (a := c_read c + r_off g).
  replace (c_read c + k + r_off g) with (a + k) by (subst a; lia).
  replace ((a + k) mod n + n - k) with ((a + k) mod n + (n - k)) by lia.
  rewrite N.add_mod_idemp_l by lia. replace (a + k + (n - k)) with (a + 1 * n) by lia.
  apply N.mod_add. lia.
Qed.

Lemma xinv_step : forall g s0 k0 stale y l y', 0 < r_pages g -> r_pages g < 2 ^ 32 ->
  (forall p, r_intr g p = false) ->
  rinv g y -> einv g s0 k0 stale y -> xinv g y ->
  match l with LEnd p => stale p = false | _ => True end ->
  match l with LStart _ => h_wait (y_hw y) = [] | _ => True end ->
  y_count y < s0 + 2 ^ 64 ->
  rstep g y l = Some y' -> xinv g y'.
Proof.
  intros g s0 k0 stale y l y' Hn Hb HI I E X HT HC HS H.
  assert (Hle : h_pub (y_hw y) <= h_recv (y_hw y)) by (rewrite (x_num _ _ X); lia).
  assert (Hql : forall p, N.of_nat (List.length (c_queue (y_cl y p))) <= r_pages g).
  { intros p. pose proof (ci_len _ _ _ (I p)). pose proof (limit_bound g p Hn). lia. }
  destruct l as [p|p b|p|p|p|p|p|p|p|p|p|p|]; cbn [rstep] in H; cbv zeta in H.
  - (* LConn *)
    assert (K : y' = set_cl y p (connect g (y_hw y) (y_count y) (y_active y) (y_cl y p)) /\ c_conn (y_cl y p) = false).
    { destruct (c_pc (y_cl y p)) eqn:Ep; try discriminate H; destruct (c_conn (y_cl y p)); try discriminate H; inversion H; auto. }
    destruct K as (-> & Hc). clear H.
    assert (Hlk : c_lock (y_cl y p) = false) by (destruct (c_lock (y_cl y p)) eqn:Z; [apply (ci_conn _ _ _ (I p)) in Z; congruence|reflexivity]).
    assert (Hs : insess (connect g (y_hw y) (y_count y) (y_active y) (y_cl y p)) = false) by (unfold insess; yred; rewrite Hlk; reflexivity).
    destruct X as [A B C D F]. split; yred; auto.
    + intros d Hd. unfold upd in *. destruct (Nat.eqb d p); [congruence|]. eapply xin_frame; [auto| |]; reflexivity.
    + intros d Hd. unfold upd in *. destruct (Nat.eqb d p); [|auto]. yred. rewrite Hlk, andb_true_r. intros _ Z _. auto.
  - (* LDispatch *)
    destruct (c_pc (y_cl y p)) eqn:Ep; try discriminate H. inversion H; subst; clear H.
    assert (Hs : insess (at_pc (y_cl y p) (PDisp b)) = insess (y_cl y p)) by (unfold insess; yred; rewrite Ep; reflexivity).
    destruct X as [A B C D F]. split; yred; auto; intros d; unfold upd; destruct (Nat.eqb d p) eqn:Eq; yred; auto.
    + rewrite Hs. apply Nat.eqb_eq in Eq; subst. intros Hd. apply xin_pc; [|exact Logic.I]. eapply xin_frame; [auto| |]; reflexivity.
    + intros Hd. eapply xin_frame; [auto| |]; reflexivity.
    + rewrite Hs. apply Nat.eqb_eq in Eq; subst. auto.
  - (* LGo *)
    destruct (c_pc (y_cl y p)) eqn:Ep; try discriminate H. destruct (c_conn (y_cl y p)) eqn:Ec; try discriminate H.
    assert (J : exists i, y' = set_cl y p (at_pc (y_cl y p) i) /\ insess (at_pc (y_cl y p) i) = insess (y_cl y p) /\
       (insess (y_cl y p) = true -> xin g y (at_pc (y_cl y p) i))).
    { destruct (_ =? _); inversion H.
      - exists (if eq32 (c_read (y_cl y p)) (c_pub (y_cl y p)) then PWait (KDisp b) else PRead (KDisp b)).
        split; [reflexivity|]. split; [unfold insess; yred; rewrite Ep; destruct (eq32 _ _); reflexivity|].
        intros Hd. apply (xin_enter_read g y (y_cl y p) (KDisp b)); auto. apply (x_in _ _ X); auto.
      - exists (if c_lock (y_cl y p) then PWrite b else PLock b).
        split; [reflexivity|]. split; [unfold insess; yred; rewrite Ep; destruct (c_lock _); reflexivity|].
        intros Hd. apply xin_pc; [apply (x_in _ _ X); auto|]. destruct (c_lock _); exact Logic.I. }
    destruct J as (i & -> & Hs & J). clear H.
    destruct X as [A B C D F]. split; yred; auto; intros d; unfold upd; destruct (Nat.eqb d p) eqn:Eq; yred; auto.
    + rewrite Hs. intros Hd. eapply xin_frame; [auto| |]; reflexivity.
    + intros Hd. eapply xin_frame; [auto| |]; reflexivity.
    + rewrite Hs. apply Nat.eqb_eq in Eq; subst. auto.
  - (* LLock *)
    destruct (c_pc (y_cl y p)) eqn:Ep; try discriminate H. destruct (y_owner y) eqn:Eo; try discriminate H. inversion H; subst; clear H.
    pose proof (ci_pc _ _ _ (I p)) as B0; unfold cpc in B0; rewrite Ep in B0. destruct B0 as [B1 B2].
    destruct X as [A B C D F]. split; yred; auto; intros d; unfold upd; destruct (Nat.eqb d p) eqn:Eq; yred; auto.
    + intros Hd. discriminate Hd.
    + intros Hd. eapply xin_frame; [auto| |]; reflexivity.
    + intros _. apply Nat.eqb_eq in Eq; subst. apply B. unfold insess; rewrite B1; reflexivity.
  - (* LStart *)
    destruct (c_pc (y_cl y p)) eqn:Ep; try discriminate H.
    pose proof (ci_pc _ _ _ (I p)) as B0; unfold cpc in B0; rewrite Ep in B0. destruct B0 as [B1 B2].
    set (c2 := if _ || _ then _ else _) in H.
    assert (J : c_read c2 = h_pub (y_hw y) /\ c_pub c2 = h_pub (y_hw y) /\ c_queue c2 = [] /\ c_pc c2 = PWrite b /\ c_lock c2 = true).
    { assert (Hconn : c_conn (y_cl y p) = true) by (apply (ci_conn _ _ _ (I p)); auto).
      subst c2. destruct (c_ext (y_cl y p) || negb (eq64 (y_count y + 1) (c_cnt (y_cl y p) + 1))) eqn:Ee.
      - yred. rewrite B1. auto 10.
      - yred. apply orb_false_iff in Ee. destruct Ee as [Ee1 Ee2]. apply negb_false_iff in Ee2.
        pose proof (e_cnt _ _ _ _ _ E p Hconn) as Hcnt. pose proof (e_s0 _ _ _ _ _ E) as Hs0.
        assert (Z : y_count y + 1 = c_cnt (y_cl y p) + 1) by (apply eq64_true; [exact Ee2|lia|lia]).
        destruct (x_out _ _ X p) as (O1 & O2 & O3); auto; [unfold insess; rewrite Ep; apply andb_false_r|lia|].
        rewrite O2, O3. auto. }
    destruct J as (J1 & J2 & J3 & J4 & J5). clearbody c2. inversion H; subst; clear H.
    assert (Hoth : forall q, q <> p -> insess (y_cl y q) = false).
    { intros q Hq. apply insess_unlock. apply (one_owner g y p q I B1 Hq). }
    destruct X as [A B C D F]. split; yred; auto; try discriminate.
    + intros d Hd. unfold upd in *. destruct (Nat.eqb d p) eqn:Eq; [|apply Nat.eqb_neq in Eq; rewrite (Hoth d Eq) in Hd; discriminate].
      split; yred; rewrite ?J1, ?J2, ?J3, ?J4; auto.
      * rewrite D, HC. cbn. lia.
      * lia.
      * rewrite HC. destruct (N.to_nat _); reflexivity.
      * intros i b0 Z. destruct i; discriminate Z.
    + intros d Hd. unfold upd in *. destruct (Nat.eqb d p) eqn:Eq; [unfold insess in Hd; rewrite J4, J5 in Hd; discriminate|].
      intros Z1 Z2 Z3. pose proof (e_cnt _ _ _ _ _ E d Z1). lia.
  - (* LWrite *)
    destruct (c_pc (y_cl y p)) eqn:Ep; try discriminate H. inversion H; subst; clear H.
    pose proof (ci_pc _ _ _ (I p)) as B0; unfold cpc in B0; rewrite Ep in B0. destruct B0 as [B1 B2].
    pose proof (limit_bound g p Hn) as HL.
    assert (Hs : insess (y_cl y p) = true) by (unfold insess; rewrite Ep, B1; reflexivity).
    destruct (e_in _ _ _ _ _ E p Hs) as (E1 & E2 & E3 & E4).
    assert (Hw : hw_write g (y_hw y) (c_idx (y_cl y p)) b =
      mkH (h_recv (y_hw y) + 1) (h_pub (y_hw y)) (h_wait (y_hw y) ++ [b]) (h_rep (y_hw y)) (h_irq (y_hw y))).
    { unfold hw_write. rewrite E4. unfold expect. rewrite N.eqb_refl. reflexivity. }
    assert (Hoth : forall q, q <> p -> insess (y_cl y q) = false).
    { intros q Hq. apply insess_unlock. apply (one_owner g y p q I B1 Hq). }
    destruct (x_in _ _ X p Hs) as [X1 X2 X3 X4 X5].
    destruct X as [A B C D F]. split; yred; rewrite ?Hw; yred; auto.
    + intros d Hd. unfold upd in *. destruct (Nat.eqb d p) eqn:Eq; [|apply Nat.eqb_neq in Eq; rewrite (Hoth d Eq) in Hd; discriminate].
      split; yred; rewrite ?Hw; yred; auto.
      * rewrite app_length. cbn [List.length]. lia.
      * rewrite skipn_app_le by lia. rewrite X3. reflexivity.
      * intros i b0 Hi Hlt.
        assert (Hi' : (i < List.length (c_queue (y_cl y p)))%nat) by lia.
        rewrite nth_error_app1 in Hi by exact Hi'. destruct (X5 i b0 Hi Hlt) as [Y1 Y2]. split; [exact Y1|].
        cbn [last_pub]. destruct (N.eqb_spec (c_idx (y_cl y p)) ((c_read (y_cl y p) + N.of_nat i + r_off g) mod r_pages g)) as [Z|Z]; [exfalso|exact Y2].
        revert Z. rewrite E4. unfold expect. apply mod_add_ne; lia.
    + intros d Hd. unfold upd in *. destruct (Nat.eqb d p) eqn:Eq.
      * exfalso. unfold insess in Hd. yred. rewrite B1 in Hd. discriminate.
      * apply Nat.eqb_neq in Eq. intros Z1 Z2 Z3. pose proof (e_lt _ _ _ _ _ E p d Hs Eq Z1 Z2). lia.
    + congruence.
    + rewrite app_length. cbn [List.length]. lia.
  - (* LFlush *)
    destruct (c_pc (y_cl y p)) eqn:Ep; try discriminate H. destruct (c_queue (y_cl y p)) eqn:Eq; try discriminate H. inversion H; subst; clear H.
    unfold enter_flush; rewrite Eq.
    assert (Hs : insess (enter_read (y_cl y p) KFlush) = insess (y_cl y p)) by (unfold insess; yred; rewrite Ep; destruct (eq32 _ _); reflexivity).
    destruct X as [A B C D F]. split; yred; auto; intros d; unfold upd; destruct (Nat.eqb d p) eqn:Ed; yred; auto.
    + apply Nat.eqb_eq in Ed; subst. rewrite Hs. intros Hd.
      apply (xin_frame g y); [|reflexivity|reflexivity]. apply (xin_enter_read g y (y_cl y p) KFlush); auto.
    + intros Hd. eapply xin_frame; [auto| |]; reflexivity.
    + rewrite Hs. apply Nat.eqb_eq in Ed; subst. auto.
  - (* LPoll *)
    destruct (c_pc (y_cl y p)) eqn:Ep; try discriminate H. rewrite HI in H. destruct (eq32 _ _) eqn:Ee; inversion H; subst; clear H.
    assert (Hlk : c_lock (y_cl y p) = true).
    { apply (ci_q _ _ _ (I p)). pose proof (ci_pc _ _ _ (I p)) as Z. unfold cpc in Z. rewrite Ep in Z. exact Z. }
    assert (Hs : insess (y_cl y p) = true) by (unfold insess; rewrite Ep, Hlk; reflexivity).
    destruct (x_in _ _ X p Hs) as [X1 X2 X3 X4 X5]. rewrite Ep in X4.
    destruct X as [A B C D F]. split; yred; auto; intros d; unfold upd; destruct (Nat.eqb d p) eqn:Ed; yred; auto.
    + intros Hd. split; yred; auto; try lia.
      destruct (N.eq_dec (c_read (y_cl y p)) (h_pub (y_hw y))) as [Z|Z]; [|lia].
      exfalso. rewrite <- X4, <- Z in Ee. unfold eq32 in Ee. rewrite N.eqb_refl in Ee. discriminate.
    + intros Hd. eapply xin_frame; [auto| |]; reflexivity.
    + intros Hd. exfalso. unfold insess in Hd. yred. rewrite Hlk in Hd. discriminate.
  - (* LRead *)
    destruct (c_pc (y_cl y p)) eqn:Ep; try discriminate H. destruct (c_queue (y_cl y p)) as [|b r] eqn:Eq; try discriminate H.
    assert (Hlk : c_lock (y_cl y p) = true) by (apply (ci_q _ _ _ (I p)); rewrite Eq; discriminate).
    assert (Hs : insess (y_cl y p) = true) by (unfold insess; rewrite Ep, Hlk; reflexivity).
    pose proof (x_in _ _ X p Hs) as [X1 X2 X3 X4 X5]. rewrite Ep in X4.
    destruct (e_in _ _ _ _ _ E p Hs) as (E1 & E2 & E3 & E4).
    assert (Hpg : page_to_read g (y_cl y p) = (c_read (y_cl y p) + r_off g) mod r_pages g) by (apply (page_number g (y_hw y)); auto).
    destruct (X5 O b) as [Y1 Y2]; [rewrite Eq; reflexivity|cbn; lia|].
    replace (c_read (y_cl y p) + N.of_nat 0) with (c_read (y_cl y p)) in Y1, Y2 by lia.
    set (c1 := mkC _ _ _ _ _ _ _ (c_read (y_cl y p) + 1) r) in H.
    assert (XX : xin g y (at_pc c1 PIdle)).
    { subst c1. split; yred; auto.
      - rewrite Eq in X1. cbn [List.length] in X1. lia.
      - lia.
      - rewrite X3, Eq. replace (N.to_nat (h_pub (y_hw y) - c_read (y_cl y p))) with (S (N.to_nat (h_pub (y_hw y) - (c_read (y_cl y p) + 1)))) by lia. reflexivity.
      - intros i b0 Hi Hlt. replace (c_read (y_cl y p) + 1 + N.of_nat i) with (c_read (y_cl y p) + N.of_nat (S i)) by lia.
        apply X5; [rewrite Eq; exact Hi|lia]. }
    set (c2 := match k with KDisp b' => enter_write c1 b' | KFlush => enter_flush c1 end) in H.
    assert (Hrl : N.of_nat (List.length r) <= r_pages g) by (pose proof (Hql p) as Z; rewrite Eq in Z; cbn [List.length] in Z; lia).
    assert (J : xin g y c2 /\ insess c2 = true).
    { subst c2. destruct k as [b'|].
      - split; [|unfold insess, enter_write; subst c1; yred; rewrite Hlk; reflexivity].
        assert (Hl1 : c_lock c1 = true) by (subst c1; exact Hlk). unfold enter_write. rewrite Hl1. refine (xin_pc g y _ (PWrite b') XX _). exact Logic.I.
      - unfold enter_flush. destruct (c_queue c1) eqn:Ec1.
        + split; [|unfold insess; subst c1; yred; rewrite Hlk; reflexivity].
          refine (xin_pc g y _ PUnlock XX _). exact Logic.I.
        + split; [|unfold insess, enter_read; subst c1; yred; rewrite Hlk; destruct (eq32 _ _); reflexivity].
          refine (xin_enter_read g y _ KFlush XX _ Hb Hle). exact Hrl. }
    destruct J as [J1 J2]. clearbody c2. clear XX. inversion H; subst; clear H.
    destruct X as [A B C D F]. split; yred; auto.
    + intros d; unfold upd; destruct (Nat.eqb d p) eqn:Ed; intros Hd; (eapply (xin_frame_read g y); [auto|reflexivity|reflexivity]).
    + intros d; unfold upd; destruct (Nat.eqb d p) eqn:Ed; yred; auto. congruence.
    + cbn [pub_ok]. rewrite Hpg. auto.
  - (* LUnlock *)
    destruct (c_pc (y_cl y p)) eqn:Ep; try discriminate H. inversion H; subst; clear H.
    pose proof (ci_pc _ _ _ (I p)) as B0; unfold cpc in B0; rewrite Ep in B0. destruct B0 as [B1 B2].
    assert (Hs : insess (y_cl y p) = true) by (unfold insess; rewrite Ep, B1; reflexivity).
    destruct (x_in _ _ X p Hs) as [X1 X2 X3 X4 X5]. rewrite B2 in *. cbn [List.length] in X1.
    assert (Hw0 : h_wait (y_hw y) = []) by (rewrite X3; destruct (N.to_nat _); reflexivity).
    destruct X as [A B C D F]. rewrite Hw0 in D. cbn [List.length] in D. split; yred; auto.
    + intros d; unfold upd; destruct (Nat.eqb d p) eqn:Ed; [discriminate|]. intros Hd. eapply xin_frame; [auto| |]; reflexivity.
    + intros d; unfold upd; destruct (Nat.eqb d p) eqn:Ed; yred; auto. intros _ _ _ _. split; [exact Hw0|lia].
    + rewrite Hw0. cbn [List.length]. exact D.
  - (* LEnd *)
    destruct (c_pc (y_cl y p)) eqn:Ep; try discriminate H. inversion H; subst; clear H.
    destruct (e_end _ _ _ _ _ E p Ep HT) as (E1 & E2 & E3).
    assert (Hlk : c_lock (y_cl y p) = false) by (pose proof (ci_pc _ _ _ (I p)) as Z; unfold cpc in Z; rewrite Ep in Z; exact Z).
    assert (Hs : insess (y_cl y p) = false) by (apply insess_unlock; exact Hlk).
    destruct X as [A B C D F]. destruct (B p Hs E3 E2 E1) as (O1 & O2 & O3). split; yred; auto.
    + intros d; unfold upd; destruct (Nat.eqb d p) eqn:Ed.
      * intros Hd. unfold insess in Hd. yred. rewrite Hlk in Hd. discriminate.
      * intros Hd. eapply xin_frame; [auto| |]; reflexivity.
    + intros d; unfold upd; destruct (Nat.eqb d p) eqn:Ed; yred; auto.
  - (* LFail *)
    inversion H; subst; clear H. destruct X as [A B C D F]. split; yred; auto.
    + intros d; unfold upd; destruct (Nat.eqb d p) eqn:Ed; [discriminate|]. intros Hd.
      destruct (A d Hd) as [X1 X2 X3 X4 X5]. split; yred; auto.
    + intros d; unfold upd; destruct (Nat.eqb d p) eqn:Ed; yred; [discriminate|auto].
  - (* LPub *)
    destruct (h_wait (y_hw y)) as [|b w] eqn:Ew; try discriminate H. inversion H; subst; clear H.
    destruct X as [A B C D F]. rewrite Ew in *. cbn [List.length] in D. split; yred; auto.
    + intros d Hd. destruct (A d Hd) as [X1 X2 X3 X4 X5]. rewrite Ew in X3. symmetry in X3.
      apply skipn_cons_nth in X3. destruct X3 as [X3a X3b].
      split; yred; auto.
      * lia.
      * replace (N.to_nat (h_pub (y_hw y) + 1 - c_read (y_cl y d))) with (S (N.to_nat (h_pub (y_hw y) - c_read (y_cl y d)))) by lia. auto.
      * intros i b0 Hi Hlt. cbn [last_pub]. unfold updN.
        assert (Hi' : (i < List.length (c_queue (y_cl y d)))%nat) by (apply nth_error_Some; rewrite Hi; discriminate).
        destruct (N.eq_dec (c_read (y_cl y d) + N.of_nat i) (h_pub (y_hw y))) as [Z|Z].
        -- rewrite Z. rewrite !N.eqb_refl.
           replace (N.to_nat (h_pub (y_hw y) - c_read (y_cl y d))) with i in X3a by lia. rewrite X3a in Hi. inversion Hi; auto.
        -- assert (Q : (h_pub (y_hw y) + r_off g) mod r_pages g <> (c_read (y_cl y d) + N.of_nat i + r_off g) mod r_pages g).
           { pose proof (Hql d). apply mod_add_ne; lia. }
           destruct (N.eqb_spec ((c_read (y_cl y d) + N.of_nat i + r_off g) mod r_pages g) ((h_pub (y_hw y) + r_off g) mod r_pages g)); [congruence|].
           destruct (N.eqb_spec ((h_pub (y_hw y) + r_off g) mod r_pages g) ((c_read (y_cl y d) + N.of_nat i + r_off g) mod r_pages g)); [congruence|].
           apply X5; [exact Hi|lia].
    + intros d Hd Z1 Z2 Z3. destruct (B d Hd Z1 Z2 Z3) as (Z & _). discriminate Z.
    + intros Z. specialize (C Z). discriminate C.
    + lia.
Qed.

(** All invariants together. *)
Record linv (g : rcfg) (s0 k0 : N) (stale : nat -> bool) (y : sys) : Prop := mkL {
  l_r : rinv g y;
  l_e : einv g s0 k0 stale y;
  l_x : xinv g y
}.

Lemma calm_fits : forall g y l, xinv g y ->
  match l with LStart _ => h_wait (y_hw y) = [] | _ => True end -> fits g y l.
Proof.
  intros g y l X HC.
  assert (Z : h_wait (y_hw y) = [] -> reported g (y_hw y) = expect g (y_hw y)).
  { intros W. unfold reported, expect. rewrite (x_num _ _ X), W. destruct (r_early g); cbn [List.length]; f_equal; lia. }
  destruct l; cbn [fits] in *; auto. intros Ha. apply Z. apply (x_act _ _ X Ha).
Qed.

Lemma linv_step : forall g s0 k0 stale y l y', 0 < r_pages g -> r_pages g < 2 ^ 32 ->
  (forall p, r_intr g p = false) -> linv g s0 k0 stale y ->
  match l with LEnd p => stale p = false | _ => True end ->
  match l with LStart _ => h_wait (y_hw y) = [] | _ => True end ->
  y_count y < s0 + 2 ^ 64 ->
  rstep g y l = Some y' -> linv g s0 k0 (stale_next stale l) y'.
Proof.
  intros g s0 k0 stale y l y' Hn Hb HI [R E X] HT HC HS H. split.
  - eapply rinv_step; eauto.
  - eapply einv_step; eauto. apply calm_fits; auto.
  - eapply xinv_step; eauto.
Qed.

Lemma count_step : forall g y l y', rstep g y l = Some y' -> y_count y' = y_count y + nstarts [l].
Proof.
  intros g y l y' H.
  destruct l as [p|p b|p|p|p|p|p|p|p|p|p|p|]; cbn [rstep] in H; cbv zeta in H.
  - destruct (c_pc (y_cl y p)); try discriminate H; destruct (c_conn (y_cl y p)); inversion H; cbn; lia.
  - destruct (c_pc (y_cl y p)); inversion H; cbn; lia.
  - destruct (c_pc (y_cl y p)); try discriminate H. destruct (c_conn (y_cl y p)); try discriminate H.
    destruct (_ =? _); inversion H; cbn; lia.
  - destruct (c_pc (y_cl y p)); try discriminate H. destruct (y_owner y); inversion H; cbn; lia.
  - destruct (c_pc (y_cl y p)); inversion H; cbn; lia.
  - destruct (c_pc (y_cl y p)); inversion H; cbn; lia.
  - destruct (c_pc (y_cl y p)); try discriminate H. destruct (c_queue (y_cl y p)); inversion H; cbn; lia.
  - destruct (c_pc (y_cl y p)); try discriminate H. destruct (r_intr g p); [destruct (h_irq (y_hw y))|destruct (eq32 _ _)]; inversion H; cbn; lia.
  - destruct (c_pc (y_cl y p)); try discriminate H. destruct (c_queue (y_cl y p)); inversion H; cbn; lia.
  - destruct (c_pc (y_cl y p)); inversion H; cbn; lia.
  - destruct (c_pc (y_cl y p)); inversion H; cbn; lia.
  - inversion H; cbn; lia.
  - destruct (h_wait (y_hw y)); inversion H; cbn; lia.
Qed.

Lemma nstarts_cons : forall l t, nstarts (l :: t) = nstarts [l] + nstarts t.
Proof. intros l t; destruct l; cbn [nstarts]; lia. Qed.

(** Stale marks after a run. *)
Definition stale_after (stale : nat -> bool) (ls : list rlab) : nat -> bool := fold_left stale_next ls stale.

Lemma run_linv : forall g s0 k0 ls stale y y', 0 < r_pages g -> r_pages g < 2 ^ 32 ->
  (forall p, r_intr g p = false) -> linv g s0 k0 stale y ->
  tidy stale ls -> calm g y ls -> y_count y + nstarts ls < s0 + 2 ^ 64 ->
  rrun g y ls = Some y' ->
  linv g s0 k0 (stale_after stale ls) y' /\ y_count y' < s0 + 2 ^ 64.
Proof.
  intros g s0 k0 ls; induction ls as [|l t IH]; intros stale y y' Hn Hb HI L HT HC HS H; cbn [rrun] in H.
  - inversion H; subst. cbn in HS. split; [exact L|lia].
  - destruct (rstep g y l) as [y1|] eqn:E; [|discriminate H].
    cbn [tidy] in HT. cbn [calm] in HC. rewrite E in HC. destruct HT as [HT1 HT2]. destruct HC as [HC1 HC2].
    rewrite nstarts_cons in HS. pose proof (count_step g y l y1 E) as HN.
    apply (IH (stale_next stale l) y1 y'); auto.
    + eapply linv_step; eauto. lia.
    + lia.
Qed.

Lemma run_einv : forall g s0 k0 ls stale y y', 0 < r_pages g -> r_pages g < 2 ^ 32 ->
  r_early g = true -> rinv g y -> einv g s0 k0 stale y ->
  tidy stale ls -> y_count y + nstarts ls < s0 + 2 ^ 64 ->
  rrun g y ls = Some y' -> in_step (r_pages g) (k0 + r_off g) (y_tr y').
Proof.
  intros g s0 k0 ls; induction ls as [|l t IH]; intros stale y y' Hn Hb He R E HT HS H; cbn [rrun] in H.
  - inversion H; subst. apply (e_step _ _ _ _ _ E).
  - destruct (rstep g y l) as [y1|] eqn:Es; [|discriminate H].
    cbn [tidy] in HT. destruct HT as [HT1 HT2].
    rewrite nstarts_cons in HS. pose proof (count_step g y l y1 Es) as HN.
    apply (IH (stale_next stale l) y1 y'); auto.
    + eapply rinv_step; eauto.
    + eapply einv_step; eauto; [|lia].
      assert (Z : reported g (y_hw y) = expect g (y_hw y)) by (unfold reported, expect; rewrite He; reflexivity).
      destruct l; cbn [fits]; auto.
    + lia.
Qed.

Lemma einv_init : forall g k n a r stale, einv g n k stale (init_ring k n a r).
Proof.
  intros. split; cbn; try discriminate; auto; try lia.
Qed.

Lemma xinv_init : forall g k n a r, xinv g (init_ring k n a r).
Proof.
  intros. split; cbn; try discriminate; auto; try lia.
Qed.

Lemma linv_init : forall g k n a r stale, linv g n k stale (init_ring k n a r).
Proof. intros. split; [apply rinv_init|apply einv_init|apply xinv_init]. Qed.

(** Steps of client [p] inside Flush, and of the hardware. *)
Definition flush_lab (p : nat) (l : rlab) : Prop :=
  l = LPub \/ l = LPoll p \/ l = LRead p \/ l = LUnlock p \/ l = LEnd p \/ l = LFlush p.

Lemma rrun_app : forall g ls1 ls2 y y1, rrun g y ls1 = Some y1 -> rrun g y (ls1 ++ ls2) = rrun g y1 ls2.
Proof.
  intros g ls1; induction ls1 as [|l t IH]; intros ls2 y y1 H; cbn [rrun app] in *.
  - inversion H; reflexivity.
  - destruct (rstep g y l); [auto|discriminate H].
Qed.

Lemma linv_insess_wait : forall g s0 k0 stale y p k, linv g s0 k0 stale y ->
  c_pc (y_cl y p) = PWait k \/ c_pc (y_cl y p) = PRead k -> insess (y_cl y p) = true.
Proof.
  intros g s0 k0 stale y p k [R E X] H.
  assert (Hlk : c_lock (y_cl y p) = true).
  { apply (ci_q _ _ _ (R p)). pose proof (ci_pc _ _ _ (R p)) as Z. unfold cpc in Z. destruct H as [H|H]; rewrite H in Z; exact Z. }
  unfold insess. rewrite Hlk. destruct H as [H|H]; rewrite H; reflexivity.
Qed.

(** When the reply is published, the next poll sees it. *)
Lemma poll_enabled : forall g s0 k0 stale y p k, r_pages g < 2 ^ 32 -> 0 < r_pages g ->
  (forall p, r_intr g p = false) -> linv g s0 k0 stale y ->
  c_pc (y_cl y p) = PWait k -> c_read (y_cl y p) < h_pub (y_hw y) ->
  exists y', rstep g y (LPoll p) = Some y' /\ c_pc (y_cl y' p) = PRead k /\ c_queue (y_cl y' p) = c_queue (y_cl y p) /\ y_tr y' = y_tr y.
Proof.
  intros g s0 k0 stale y p k Hb Hn HI L Hp Hlt.
  assert (Hs : insess (y_cl y p) = true) by (eapply linv_insess_wait; eauto).
  destruct L as [R E X]. destruct (x_in _ _ X p Hs) as [X1 X2 X3 X4 X5]. rewrite Hp in X4.
  pose proof (ci_len _ _ _ (R p)) as Hl. pose proof (limit_bound g p Hn) as HL. pose proof (x_num _ _ X) as HN.
  cbn [rstep]. cbv zeta. rewrite Hp, HI.
  assert (Z : eq32 (h_pub (y_hw y)) (c_pub (y_cl y p)) = false).
  { unfold eq32. apply N.eqb_neq. intros Q.
    assert (Q' : eq32 (c_pub (y_cl y p)) (h_pub (y_hw y)) = true) by (unfold eq32; rewrite Q; apply N.eqb_refl).
    rewrite eq32_small in Q' by lia. apply N.eqb_eq in Q'. lia. }
  rewrite Z. eexists; split; [reflexivity|]. yred. rewrite upd_same. yred. auto.
Qed.

Lemma wait_to_read : forall g s0 k0 stale y p k, 0 < r_pages g -> r_pages g < 2 ^ 32 ->
  (forall p, r_intr g p = false) -> linv g s0 k0 stale y -> y_count y < s0 + 2 ^ 64 ->
  c_pc (y_cl y p) = PWait k ->
  exists ls y', Forall (flush_lab p) ls /\ rrun g y ls = Some y' /\ c_pc (y_cl y' p) = PRead k /\
    c_queue (y_cl y' p) = c_queue (y_cl y p) /\ linv g s0 k0 stale y' /\ y_count y' = y_count y.
Proof.
  intros g s0 k0 stale y p k Hn Hb HI L HS Hp.
  destruct (N.lt_ge_cases (c_read (y_cl y p)) (h_pub (y_hw y))) as [Hlt|Hge].
  - destruct (poll_enabled g s0 k0 stale y p k Hb Hn HI L Hp Hlt) as (y1 & S1 & S2 & S3 & S4).
    exists [LPoll p], y1. cbn [rrun]. rewrite S1.
    split; [repeat (apply Forall_cons; [unfold flush_lab; tauto|]); apply Forall_nil|]. split; [reflexivity|]. split; [exact S2|]. split; [exact S3|].
    split; [exact (linv_step g s0 k0 stale y (LPoll p) y1 Hn Hb HI L Logic.I Logic.I HS S1)|].
    rewrite (count_step _ _ _ _ S1). cbn. lia.
  - assert (Hs : insess (y_cl y p) = true) by (eapply linv_insess_wait; eauto).
    pose proof L as [R E X]. destruct (x_in _ _ X p Hs) as [X1 X2 X3 X4 X5]. rewrite Hp in X4.
    pose proof (ci_pc _ _ _ (R p)) as Z. unfold cpc in Z. rewrite Hp in Z.
    replace (N.to_nat (h_pub (y_hw y) - c_read (y_cl y p))) with O in X3 by lia. cbn [skipn] in X3.
    destruct (c_queue (y_cl y p)) as [|b q] eqn:Eq; [contradiction (Z eq_refl)|].
    assert (S0 : exists y0, rstep g y LPub = Some y0 /\ c_pc (y_cl y0 p) = PWait k /\ c_queue (y_cl y0 p) = b :: q /\
                 c_read (y_cl y0 p) < h_pub (y_hw y0)).
    { cbn [rstep]. cbv zeta. rewrite X3. eexists; split; [reflexivity|]. yred. repeat split; auto. lia. }
    destruct S0 as (y0 & S0 & T1 & T2 & T3).
    pose proof (linv_step g s0 k0 stale y LPub y0 Hn Hb HI L Logic.I Logic.I HS S0) as L0. cbn [stale_next] in L0.
    assert (HS0 : y_count y0 = y_count y) by (rewrite (count_step _ _ _ _ S0); cbn; lia).
    destruct (poll_enabled g s0 k0 stale y0 p k Hb Hn HI L0 T1 T3) as (y1 & S1 & S2 & S3 & S4).
    exists [LPub; LPoll p], y1. cbn [rrun]. rewrite S0, S1.
    split; [repeat (apply Forall_cons; [unfold flush_lab; tauto|]); apply Forall_nil|]. split; [reflexivity|]. split; [exact S2|]. split; [congruence|].
    split; [refine (linv_step g s0 k0 stale y0 (LPoll p) y1 Hn Hb HI L0 Logic.I Logic.I _ S1); lia|].
    rewrite (count_step _ _ _ _ S1). cbn. lia.
Qed.

Lemma flush_loop : forall g s0 k0 stale p, 0 < r_pages g -> r_pages g < 2 ^ 32 ->
  (forall p, r_intr g p = false) ->
  forall m y, List.length (c_queue (y_cl y p)) = m -> linv g s0 k0 stale y -> y_count y < s0 + 2 ^ 64 ->
  (c_pc (y_cl y p) = PWait KFlush \/ c_pc (y_cl y p) = PRead KFlush \/ c_pc (y_cl y p) = PUnlock) ->
  exists ls y', Forall (flush_lab p) ls /\ rrun g y ls = Some y' /\ c_pc (y_cl y' p) = PUnlock /\
    c_queue (y_cl y' p) = [] /\ linv g s0 k0 stale y' /\ y_count y' = y_count y.
Proof.
  intros g s0 k0 stale p Hn Hb HI m; induction m as [|m IH]; intros y Hm L HS Hp.
  - destruct (c_queue (y_cl y p)) eqn:Eq; [|discriminate Hm].
    destruct Hp as [Hp|[Hp|Hp]].
    + pose proof (ci_pc _ _ _ (l_r _ _ _ _ _ L p)) as Z. unfold cpc in Z. rewrite Hp in Z. contradiction (Z Eq).
    + pose proof (ci_pc _ _ _ (l_r _ _ _ _ _ L p)) as Z. unfold cpc in Z. rewrite Hp in Z. contradiction (Z Eq).
    + exists [], y. split; [apply Forall_nil|]. split; [reflexivity|]. split; [exact Hp|]. split; [auto; fail|]. split; [exact L|reflexivity].
  - assert (Hr : exists ls y1, Forall (flush_lab p) ls /\ rrun g y ls = Some y1 /\ c_pc (y_cl y1 p) = PRead KFlush /\
      c_queue (y_cl y1 p) = c_queue (y_cl y p) /\ linv g s0 k0 stale y1 /\ y_count y1 = y_count y).
    { destruct Hp as [Hp|[Hp|Hp]].
      - apply wait_to_read; auto.
      - exists [], y. split; [apply Forall_nil|]. split; [reflexivity|]. split; [exact Hp|]. split; [auto; fail|]. split; [exact L|reflexivity].
      - pose proof (ci_pc _ _ _ (l_r _ _ _ _ _ L p)) as Z. unfold cpc in Z. rewrite Hp in Z. destruct Z as [_ Z]. rewrite Z in Hm. discriminate Hm. }
    destruct Hr as (ls1 & y1 & F1 & R1 & P1 & Q1 & L1 & C1).
    rewrite <- Q1 in Hm. destruct (c_queue (y_cl y1 p)) as [|b q] eqn:Eq; [discriminate Hm|].
    assert (S2 : exists y2, rstep g y1 (LRead p) = Some y2 /\ c_queue (y_cl y2 p) = q /\
      (c_pc (y_cl y2 p) = PWait KFlush \/ c_pc (y_cl y2 p) = PRead KFlush \/ c_pc (y_cl y2 p) = PUnlock)).
    { cbn [rstep]. cbv zeta. rewrite P1, Eq. eexists; split; [reflexivity|]. yred. rewrite upd_same.
      unfold enter_flush, enter_read. yred. destruct q; yred; auto. split; [auto|]. destruct (eq32 _ _); auto. }
    destruct S2 as (y2 & S2 & Q2 & P2).
    assert (C2 : y_count y2 = y_count y1) by (rewrite (count_step _ _ _ _ S2); cbn; lia).
    assert (L2 : linv g s0 k0 stale y2).
    { refine (linv_step g s0 k0 stale y1 (LRead p) y2 Hn Hb HI L1 Logic.I Logic.I _ S2). lia. }
    destruct (IH y2) as (ls3 & y3 & F3 & R3 & P3 & Q3 & L3 & C3); auto.
    { rewrite Q2. cbn in Hm. lia. }
    { lia. }
    exists (ls1 ++ LRead p :: ls3), y3.
    split; [apply Forall_app; split; [exact F1|constructor; [unfold flush_lab; auto|exact F3]]|].
    split; [rewrite (rrun_app g ls1 _ y y1 R1); cbn [rrun]; rewrite S2; exact R3|].
    split; [exact P3|]. split; [exact Q3|]. split; [exact L3|lia].
Qed.
