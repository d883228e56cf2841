(** Whole executions of a client over its transport, and over a transport whose
    replies come from a device. *)
From Coq Require Import NArith ZArith List Lia Bool PeanoNat.
From Verif Require Import Word Bits Header ValMem Client Validate Target Spec System E2E E2ECor Net Stack Prop_Frame Prop_Valid StackProofs.
Import ListNotations.

(** ** The simulation along an execution *)
Section Gen.
Variables (T L : Type).
Variable tstep : T -> L -> option T.
Variable passes : T -> L -> T -> list tev.
Variable away : T -> bool.
Variable failed : T -> bool.
Variable g : cfg.
(** Condition on the steps of the transport, and what relates it to [dst]. *)
Variable P : T -> L -> Prop.
Variable J : T -> dst -> Prop.
Hypothesis J_step : forall t l t' d, J t d -> tstep t l = Some t' -> P t l ->
  exists d', drun d (passes t l t') = Some d' /\ J t' d'.
Hypothesis J_fail : forall t d, J t d -> away t = true -> failed t = d_fail d.

Notation sstep := (sstep T L tstep passes away failed g).
Notation srun := (srun T L tstep passes away failed g).
Notation passed := (passed T L tstep passes away failed g).

(** The condition holds for all steps of an execution. *)
Fixpoint sgood (k : stack T) (ls : list (slab L)) : Prop :=
  match ls with
  | [] => True
  | l :: t =>
      match l with STrans l _ => P (k_trans k) l | SCall _ _ => True end /\
      match sstep k l with Some k' => sgood k' t | None => True end
  end.

(** The checks of an execution: the packets and what was found in their reply buffers. *)
Fixpoint schecks (k : stack T) (ls : list (slab L)) : list (buf * list N) :=
  match ls with
  | [] => []
  | l :: t =>
      match sstep k l with
      | None => []
      | Some k' =>
          match l with
          | SCall _ _ => []
          | STrans l ws => echecks (a_bufs (k_half k)) (passes (k_trans k) l (k_trans k')) ws
          end ++ schecks k' t
      end
  end.

Lemma srun_app : forall a k b, srun k (a ++ b) = match srun k a with Some z => srun z b | None => None end.
Proof. induction a as [|l a IH]; intros k b; cbn; [reflexivity|]. destruct (sstep k l); [apply IH|reflexivity]. Qed.
Lemma passed_app : forall a k b, passed k (a ++ b) =
  passed k a ++ match srun k a with Some z => passed z b | None => [] end.
Proof.
  induction a as [|l a IH]; intros k b; cbn [app Stack.passed Stack.srun]; [reflexivity|]. destruct (sstep k l); [|reflexivity].
  rewrite IH, app_assoc. reflexivity.
Qed.
Lemma sgood_app : forall a k b, sgood k (a ++ b) <-> sgood k a /\ match srun k a with Some z => sgood z b | None => True end.
Proof.
  induction a as [|l a IH]; intros k b; cbn [app sgood Stack.srun]; [tauto|]. destruct (sstep k l); [rewrite IH; tauto|tauto].
Qed.

Lemma sim_srun : forall ls k d y n k', sim (k_half k) d y n -> J (k_trans k) d -> sgood k ls -> srun k ls = Some k' ->
  exists d' nls y', drun d (passed k ls) = Some d' /\ J (k_trans k') d' /\
    nrun g y nls = Some y' /\ ncalls nls = scalls ls /\ nreplies g y nls = schecks k ls /\
    sim (k_half k') d' y' (n + throws (passed k ls)).
Proof using J_step J_fail.
  induction ls as [|l ls IH]; intros k d y n k' S0 J0 GD R; cbn [Stack.srun Stack.passed sgood schecks] in *.
  { injection R as <-. exists d, [], y. rewrite Nat.add_0_r. repeat split; auto; apply S0. }
  destruct GD as (G1 & G2). destruct (sstep k l) as [k1|] eqn:ST; [|discriminate]. destruct l as [o cut|l ws]; cbn [Stack.sstep] in ST.
  - destruct (away (k_trans k)) eqn:AW; [|discriminate]. destruct (acall g (failed (k_trans k)) (k_half k) o cut) as [a|] eqn:A; [|discriminate]. injection ST as <-.
    destruct (sim_call _ _ _ _ _ _ _ _ _ S0 A (J_fail _ _ J0 AW)) as (l1 & y1 & R1 & C1 & P1 & S1).
    destruct (IH (mkStack a (k_trans k)) _ _ _ _ S1 J0 G2 R) as (d' & l2 & y2 & D2 & J2 & R2 & C2 & P2 & S2).
    exists d', (l1 ++ l2), y2. split; [exact D2|]. split; [exact J2|]. split; [rewrite nrun_app, R1; exact R2|].
    split; [unfold ncalls, scalls in *; rewrite flat_map_app, C1, C2; destruct o; reflexivity|]. split; [rewrite nreplies_app, R1, P1; exact P2|exact S2].
  - destruct (tstep (k_trans k) l) as [t|] eqn:TS; [|discriminate]. destruct (aevents g (k_half k) (passes (k_trans k) l t) ws) as [a|] eqn:A; [|discriminate]. injection ST as <-.
    destruct (J_step _ _ _ _ J0 TS G1) as (d1 & D1 & J1).
    destruct (sim_events _ _ _ _ _ _ _ _ _ S0 A D1) as (l1 & y1 & R1 & C1 & P1 & S1).
    destruct (IH (mkStack a t) _ _ _ _ S1 J1 G2 R) as (d' & l2 & y2 & D2 & J2 & R2 & C2 & P2 & S2). cbn [k_half k_trans] in *.
    exists d', (l1 ++ l2), y2. split; [rewrite drun_app, D1; exact D2|]. split; [exact J2|]. split; [rewrite nrun_app, R1; exact R2|].
    split; [unfold ncalls, scalls in *; rewrite flat_map_app, C1, C2; reflexivity|]. split; [rewrite nreplies_app, R1, P1, P2; reflexivity|].
    rewrite throws_app, Nat.add_assoc. exact S2.
Qed.
End Gen.

(** ** Replies from a device *)
Section Dev.
Variable D : Type.
Variable rd : D -> N -> D * N.
Variable wr : D -> N -> N -> D.
Variable cf : D -> N -> D * N.
Variable g : cfg.

(** The replies are those of a device which takes the packets one after the other. *)
Fixpoint served (d : D) (l : list (buf * list N)) (d' : D) : Prop :=
  match l with
  | [] => d' = d
  | (b, ws) :: t => exists d1 ok, target_packet D rd wr cf g d (b_send b) = (d1, ws, ok) /\ served d1 t d'
  end.
Lemma served_app : forall a d b d', served d (a ++ b) d' <-> exists d1, served d a d1 /\ served d1 b d'.
Proof.
  induction a as [|[x ws] a IH]; intros d b d'; cbn [app served].
  - split; [intros H; exists d; auto|intros (d1 & -> & H); exact H].
  - split.
    + intros (d1 & ok & E & H). apply IH in H. destruct H as (d2 & H1 & H2). exists d2. split; [exists d1, ok; auto|exact H2].
    + intros (d2 & (d1 & ok & E & H1) & H2). exists d1, ok. split; [exact E|]. apply IH. exists d2. auto.
Qed.

Lemma nstep_fail y l y' : nstep g y l = Some y' ->
  n_exc y' = S (n_exc y) \/ n_exc y' = n_exc y /\ (n_fail y = true -> n_fail y' = true) /\ (n_doom y = true -> n_doom y' = true).
Proof.
  intros ST. destruct l; cbn [nstep] in ST.
  - destruct (n_wait y); [discriminate|]. destruct (run_op g _ o) as [s r|s []|]; injection ST as <-; cbn; auto.
  - destruct (n_wait y); [discriminate|]. destruct (s_cur (n_c y)); [|injection ST as <-; auto]. destruct (dispatch_send g _); injection ST as <-; cbn; auto.
  - destruct (n_wait y), (n_fail y), (n_doom y); cbn in ST; try discriminate. destruct (s_out (n_c y)); [|discriminate]. injection ST as <-. cbn. auto.
  - destruct (n_wait y && (n_fail y || n_doom y)); [|discriminate]. injection ST as <-. cbn. auto.
  - destruct (n_fail y) eqn:F; [discriminate|]. destruct (s_out (n_c y)); [discriminate|]. destruct (receive_packet g _ b ws) as [h []]; injection ST as <-; cbn; auto.
  - destruct (s_out (n_c y)); [discriminate|]. injection ST as <-. cbn. auto.
  - destruct (n_wait y || n_fail y) eqn:W; [discriminate|]. apply orb_false_iff in W. destruct W as (_ & F). rewrite F.
    match goal with H : match ?x with _ => _ end = _ |- _ => destruct x; [|discriminate] end. injection ST as <-. cbn. right. split; [reflexivity|]. split; [discriminate|auto].
Qed.
Lemma nrun_fail : forall ls y y', nrun g y ls = Some y' -> (n_exc y <= n_exc y')%nat /\
  (n_exc y' = n_exc y -> (n_fail y = true -> n_fail y' = true) /\ (n_doom y = true -> n_doom y' = true)).
Proof.
  induction ls as [|l ls IH]; intros y y' R; cbn [nrun] in R; [injection R as <-; auto|].
  destruct (nstep g y l) as [z|] eqn:ST; [|discriminate]. destruct (IH _ _ R) as (I1 & I2). destruct (nstep_fail _ _ _ ST) as [E|(E & F & G)]; split; try lia.
  intros X. destruct I2 as (I2 & I3); [lia|]. auto.
Qed.

(** Without failure the network of [Net.v] is that of [System.v]. *)
Definition sys_of (y : net) (d : D) (b : bool) : sys D := mkSys D (set_budget (n_c y) false) [] d (n_wait y) b.

Lemma net_sys : forall ls y y' d d' b, nrun g y ls = Some y' -> n_exc y' = n_exc y -> n_fail y' = false -> n_doom y' = false ->
  served d (nreplies g y ls) d' ->
  exists ms b', run D rd wr cf g (sys_of y d b) ms = Some (sys_of y' d' b') /\ calls ms = ncalls ls.
Proof.
  induction ls as [|l ls IH]; intros y y' d d' b R X F DM SV.
  - injection R as <-. cbn in SV. subst d'. exists [], b. split; reflexivity.
  - cbn [nrun nreplies] in R, SV. destruct (nstep g y l) as [z|] eqn:ST; [|discriminate].
    destruct (nrun_fail _ _ _ R) as (M1 & M2). assert (M3 := nstep_fail _ _ _ ST).
    assert (XZ : n_exc z = n_exc y) by (destruct M3 as [E|(E & _)]; lia).
    assert (FZ : n_fail z = false) by (destruct (n_fail z); [exfalso; destruct M2 as (M2 & _); [lia|]; rewrite M2 in F by reflexivity; discriminate|reflexivity]).
    assert (DZ : n_doom z = false) by (destruct (n_doom z); [exfalso; destruct M2 as (_ & M2); [lia|]; rewrite M2 in DM by reflexivity; discriminate|reflexivity]).
    apply served_app in SV. destruct SV as (d1 & SV1 & SV2).
    assert (ONE : exists ms b1, run D rd wr cf g (sys_of y d b) ms = Some (sys_of z d1 b1) /\ calls ms = ncalls [l]).
    { destruct M3 as [E|(_ & F0 & D0)]; [lia|].
      assert (FY : n_fail y = false) by (destruct (n_fail y); [rewrite F0 in FZ by reflexivity; discriminate|reflexivity]).
      assert (DY : n_doom y = false) by (destruct (n_doom y); [rewrite D0 in DZ by reflexivity; discriminate|reflexivity]).
      assert (BUD : forall s, s_budget s = None -> set_budget s false = s) by (intros [] HB; cbn in HB; subst; reflexivity).
      destruct l as [o| | | |ws| |oo k]; cbn [nstep] in ST; cbn [served] in SV1; try subst d1.
      - destruct (n_wait y) eqn:W; [discriminate|]. rewrite FY in ST. assert (NT := nt_op g (set_budget (n_c y) false) o eq_refl).
        exists [LOp o]. unfold sys_of at 1. cbn [System.run System.step y_wait y_c y_rep y_dev y_bad]. rewrite W.
        destruct (run_op g (set_budget (n_c y) false) o) as [s r|s e|]; cbn [nt] in NT.
        + injection ST as <-. eexists. unfold sys_of. cbn [n_c n_wait]. rewrite BUD by exact NT. split; reflexivity.
        + destruct NT as (NT & NE). assert (ZE : z = mkNet s false false (n_bad y) (n_base y) (n_exc y) (n_doom y)) by (destruct e; try congruence).
          subst z. eexists. unfold sys_of. cbn [n_c n_wait]. rewrite BUD by exact NT. split; reflexivity.
        + injection ST as <-. eexists. unfold sys_of. cbn [n_c n_wait]. split; reflexivity.
      - destruct (n_wait y) eqn:W; [discriminate|]. rewrite FY in ST.
        exists [LDispatch]. unfold sys_of at 1. cbn [System.run System.step y_wait y_c y_rep y_dev y_bad]. rewrite W. cbn [set_budget s_cur].
        destruct (s_cur (n_c y)) as [bb|] eqn:CUR.
        2: { injection ST as <-. exists b. unfold sys_of. rewrite W. split; reflexivity. }
        fold (set_budget (n_c y) false) in *.
        assert (NT : nt (dispatch_send g (set_budget (n_c y) false))) by (unfold dispatch_send; cbn [set_budget s_cur]; rewrite CUR; apply nt_send; reflexivity).
        destruct (dispatch_send g (set_budget (n_c y) false)) as [s r|s e|]; cbn [nt] in NT.
        + injection ST as <-. eexists. unfold sys_of. cbn [n_c n_wait]. rewrite BUD by exact NT. split; reflexivity.
        + injection ST as <-. cbn in XZ. lia.
        + injection ST as <-. eexists. unfold sys_of. cbn [n_c n_wait]. split; reflexivity.
      - destruct (n_wait y) eqn:W; [|discriminate]. rewrite FY, DY in ST. cbn in ST. destruct (s_out (n_c y)) eqn:SO; [|discriminate]. injection ST as <-.
        exists [LReturn], b. unfold sys_of. cbn [System.run System.step y_wait y_c y_rep y_dev y_bad n_c n_wait set_budget s_out]. rewrite W, SO. split; reflexivity.
      - rewrite FY, DY in ST. rewrite andb_false_r in ST. discriminate.
      - rewrite FY in ST. destruct (s_out (n_c y)) as [|bb q] eqn:SO; [discriminate|]. cbn [served] in SV1. destruct SV1 as (d2 & ok & TP & E). subst d1.
        exists [LTarget; LReply]. unfold sys_of at 1. cbn [System.run System.step y_wait y_c y_rep y_dev y_bad set_budget s_out s_heap set_out]. rewrite SO, TP.
        cbn [System.run System.step y_wait y_c y_rep y_dev y_bad set_budget s_out s_heap set_out app].
        destruct (receive_packet g (s_heap (n_c y)) bb ws) as [h []]; injection ST as <-; try discriminate FZ.
        eexists. split; reflexivity.
      - destruct (s_out (n_c y)); [discriminate|]. injection ST as <-. discriminate FZ.
      - exfalso. rewrite FY, orb_false_r in ST. destruct (n_wait y); [discriminate|].
        match goal with H : match ?x with _ => _ end = _ |- _ => destruct x; [|discriminate] end. injection ST as <-. discriminate DZ. }
    destruct ONE as (m1 & b1 & R1 & C1). destruct (IH z y' d1 d' b1 R ltac:(lia) F DM SV2) as (m2 & b2 & R2 & C2).
    exists (m1 ++ m2), b2. split.
    + clear - R1 R2. revert R1. generalize (sys_of y d b). induction m1 as [|m m1 IH]; intros x R1; cbn [app System.run] in *; [injection R1 as ->; exact R2|].
      destruct (step D rd wr cf g x m); [apply IH, R1|discriminate].
    + assert (CA : forall a c, calls (a ++ c) = calls a ++ calls c) by (clear; induction a as [|[]]; intros; cbn; f_equal; auto).
      rewrite CA, C1, C2. unfold ncalls. cbn [flat_map]. rewrite app_nil_r. reflexivity.
Qed.

Lemma net_sys_return ls y y' d d' b : nrun g y (ls ++ [NReturn]) = Some y' -> n_exc y' = n_exc y ->
  served d (nreplies g y (ls ++ [NReturn])) d' ->
  exists ms b', run D rd wr cf g (sys_of y d b) (ms ++ [LReturn]) = Some (sys_of y' d' b') /\ calls ms = ncalls (ls ++ [NReturn]).
Proof.
  intros R X SV. rewrite nrun_app in R. rewrite nreplies_app in SV. destruct (nrun g y ls) as [z|] eqn:RZ; [|discriminate].
  assert (SV2 : served d (nreplies g y ls) d').
  { cbn [nreplies] in SV. apply served_app in SV. destruct SV as (d1 & H1 & H2). cbn [app] in H2. destruct (nstep g z NReturn); cbn in H2; subst; exact H1. }
  cbn [nrun] in R. destruct (nstep g z NReturn) as [z'|] eqn:ST; [|discriminate]. injection R as ->. cbn [nstep] in ST.
  destruct (n_wait z) eqn:W; [|discriminate]. destruct (n_fail z) eqn:F; [discriminate|]. destruct (n_doom z) eqn:DM; [discriminate|].
  cbn in ST. destruct (s_out (n_c z)) eqn:SO; [|discriminate]. injection ST as <-. cbn [n_exc] in X.
  destruct (net_sys ls y z d d' b RZ X F DM SV2) as (ms & b' & R2 & C2). exists ms, b'. split.
  - clear - R2 W SO. revert R2. generalize (sys_of y d b). induction ms as [|m ms IH]; intros x R; cbn [app System.run] in *.
    + injection R as ->. unfold sys_of. cbn [System.step y_wait y_c y_rep y_dev y_bad set_budget s_out n_c n_wait]. rewrite W, SO. reflexivity.
    + destruct (step D rd wr cf g x m); [apply IH, R|discriminate].
  - unfold ncalls in *. rewrite flat_map_app, C2. cbn. rewrite app_nil_r. reflexivity.
Qed.
End Dev.

(** ** Consequences *)
Lemma aevents_app g ws : forall a h b, aevents g h (a ++ b) ws = match aevents g h a ws with Some z => aevents g z b ws | None => None end.
Proof. induction a as [|v a IH]; intros h b; cbn; [reflexivity|]. destruct (aevent g h v ws); [apply IH|reflexivity]. Qed.
Lemma aevents_bufs g ws : forall vs a a', aevents g a vs ws = Some a' -> a_bufs a' = a_bufs a.
Proof.
  induction vs as [|v vs IH]; intros a a' A; cbn in A; [injection A as <-; reflexivity|]. destruct (aevent g a v ws) as [a1|] eqn:E; [|discriminate].
  rewrite (IH _ _ A). apply (aevent_bufs _ _ _ _ _ E).
Qed.

(** Normal return of dispatch(). *)
Lemma sim_return g a d y k ws a' d' : sim a d y k -> aevent g a VReturn ws = Some a' -> dstep d VReturn = Some d' ->
  exists y', nrun g y [NReturn] = Some y' /\ n_c y' = n_c y /\ n_exc y' = n_exc y /\ n_exc y = k /\ sim a' d' y' k /\
    n_wait y' = false /\ same a' y'.
Proof.
  intros S0 A D. destruct S0 as [B F TD M]. cbn [aevent dstep] in A, D. destruct (a_mode a) eqn:AM; try discriminate. injection A as <-.
  destruct M as [(S0 & R & NF & W & DM & X)|(MC & _)]; [|discriminate].
  destruct (d_fail d); [discriminate|]. destruct (d_flush d); [|discriminate]. destruct (d_pend d) eqn:DP; [|discriminate]. injection D as <-.
  rewrite (TD eq_refl) in R. unfold are in R. cbn in R. destruct (s_out (n_c y)) eqn:SO; [|discriminate]. cbn in W, DM.
  eexists. split; [cbn [nrun nstep]; rewrite W, NF, DM, SO; reflexivity|]. cbn [n_c n_exc n_wait]. do 3 (split; [first [reflexivity|exact X]|]).
  split; [|split; [reflexivity|exact S0]].
  constructor; cbn; auto. left. split; [exact S0|]. unfold are. rewrite SO. repeat split; auto.
Qed.

(** An exception reaching the user. *)
Lemma sim_throw g a d y k ws a' d' : sim a d y k -> aevent g a VThrow ws = Some a' -> dstep d VThrow = Some d' ->
  exists ls y', nrun g y ls = Some y' /\ ncalls ls = [] /\ nreplies g y ls = [] /\ sim a' d' y' (S k) /\
    set_budget (n_c y') false = mkSt 0 None (s_heap (a_c a')) [] None /\ n_wait y' = false /\ n_fail y' = false /\ n_doom y' = false.
Proof.
  intros S0 A D. destruct (sim_event g a d y k VThrow ws a' d' S0 A D) as (ls & y' & R & C & P & S1).
  change (k + throws [VThrow])%nat with (k + 1)%nat in S1. rewrite Nat.add_1_r in S1.
  exists ls, y'. split; [exact R|]. split; [exact C|]. split; [exact P|]. split; [exact S1|].
  assert (A0 : a_mode a' = MOp /\ a_todo a' = [] /\ a_c a' = drop_all (a_c a)).
  { cbn [aevent] in A. destruct (a_mode a), (a_todo a); try discriminate; injection A as <-; auto. }
  destruct A0 as (AM & AT & AC). cbn [dstep] in D. destruct (d_flush d && negb (d_fail d)); [discriminate|]. injection D as <-.
  destruct S1 as [B F TD M]. destruct M as [(S0' & R1 & NF & W & DM & X)|(MC & _)]; [|congruence].
  rewrite AT, AM in *. cbn in *. unfold are in R1. cbn in R1. destruct S0' as (S1 & S2 & S3). rewrite AC in *. cbn in S1, S2, S3.
  destruct (n_c y') as [c1 c2 c3 c4 c5] eqn:NC. cbn in *. subst. destruct c4; [|discriminate].
  split; [reflexivity|auto].
Qed.

Section Cons.
Variables (T L : Type).
Variable tstep : T -> L -> option T.
Variable passes : T -> L -> T -> list tev.
Variable away : T -> bool.
Variable failed : T -> bool.
Variable g : cfg.
Variable P : T -> L -> Prop.
Variable J : T -> dst -> Prop.
Hypothesis J_step : forall t l t' d, J t d -> tstep t l = Some t' -> P t l ->
  exists d', drun d (passes t l t') = Some d' /\ J t' d'.
Hypothesis J_fail : forall t d, J t d -> away t = true -> failed t = d_fail d.
Variable t0 : T.
Hypothesis J_init : J t0 init_d.

Notation srun := (srun T L tstep passes away failed g).
Notation passed := (passed T L tstep passes away failed g).
Notation sgood := (sgood T L tstep passes away failed g P).
Notation schecks := (schecks T L tstep passes away failed g).
Notation k0 := (mkStack init_half t0).

(** The execution ends with this event. *)
Definition ends (k : stack T) (ls : list (slab L)) (v : tev) : Prop :=
  exists ms l ws vs z, ls = ms ++ [STrans l ws] /\ srun k ms = Some z /\ passed z [STrans l ws] = vs ++ [v].

Lemma stack_net ls k : srun k0 ls = Some k -> sgood k0 ls ->
  exists nls y, nrun g init_net nls = Some y /\ ncalls nls = scalls ls /\ nreplies g init_net nls = schecks k0 ls /\
    n_bad y = a_bad (k_half k) /\ s_heap (n_c y) = s_heap (a_c (k_half k)) /\
    (outside (k_half k) = true -> same (k_half k) y /\ n_wait y = false /\ n_exc y = throws (passed k0 ls)).
Proof using J_step J_fail J_init.
  intros R G. destruct (sim_srun T L tstep passes away failed g P J J_step J_fail ls k0 init_d init_net 0 k sim_init J_init G R)
    as (d & nls & y & D & Jk & RN & C & RP & S1).
  exists nls, y. split; [exact RN|]. split; [exact C|]. split; [exact RP|]. destruct S1 as [B F TD M]. split; [exact B|]. split.
  - destruct M as [((_ & _ & H) & _)|(_ & _ & H & _)]; [exact H|]. rewrite H. reflexivity.
  - intros O. unfold outside in O. destruct (a_mode (k_half k)) eqn:AM; try discriminate. destruct M as [(S0 & _ & _ & W & _ & X)|(MC & _)]; [|discriminate].
    split; [exact S0|]. split; [exact W|]. exact X.
Qed.

(** Up to the last event of a step. *)
Lemma last_step ls k k' v d y n : sim (k_half k) d y n -> J (k_trans k) d -> sgood k ls -> srun k ls = Some k' -> ends k ls v ->
  exists ws a1 d1 nls y1 d' n1, nrun g y nls = Some y1 /\ sim a1 d1 y1 n1 /\
    aevent g a1 v ws = Some (k_half k') /\ dstep d1 v = Some d' /\ J (k_trans k') d' /\
    ncalls nls = scalls ls /\ nreplies g y nls ++ echecks (a_bufs a1) [v] ws = schecks k ls /\ (n1 + throws [v] = n + throws (passed k ls))%nat.
Proof using J_step J_fail t0.
  intros S0 J0 G R (ms & l & ws & vs & z & -> & RZ & LV). rewrite (srun_app T L tstep passes away failed g), RZ in R.
  apply (sgood_app T L tstep passes away failed g P) in G. rewrite RZ in G. destruct G as (G1 & G2).
  destruct (sim_srun T L tstep passes away failed g P J J_step J_fail ms k d y n z S0 J0 G1 RZ) as (dz & l1 & y1 & D1 & J1 & R1 & C1 & P1 & S1).
  cbn [Stack.srun Stack.passed] in R, LV. destruct (sstep T L tstep passes away failed g z (STrans l ws)) as [z'|] eqn:ST; [|discriminate]. injection R as ->.
  rewrite app_nil_r in LV. assert (ST0 := ST). cbn [sstep] in ST. destruct (tstep (k_trans z) l) as [t|] eqn:TS; [|discriminate].
  destruct (aevents g (k_half z) (passes (k_trans z) l t) ws) as [a|] eqn:A; [|discriminate]. injection ST as <-. cbn [k_trans k_half] in *.
  cbn [StackRun.sgood] in G2. destruct G2 as (G2 & _).
  destruct (J_step _ _ _ _ J1 TS G2) as (d' & D2 & J2). rewrite LV in A, D2. rewrite aevents_app in A. rewrite drun_app in D2.
  destruct (aevents g (k_half z) vs ws) as [a1|] eqn:A1; [|discriminate]. destruct (drun dz vs) as [d1|] eqn:DV; [|discriminate].
  cbn [aevents drun] in A, D2. destruct (aevent g a1 v ws) as [a2|] eqn:A2; [|discriminate]. injection A as ->. destruct (dstep d1 v) as [d2|] eqn:D3; [|discriminate]. injection D2 as ->.
  destruct (sim_events _ _ _ _ _ _ _ _ _ S1 A1 DV) as (l2 & y2 & R2 & C2 & P2 & S2).
  exists ws, a1, d1, (l1 ++ l2), y2, d', (n + throws (passed k ms) + throws vs)%nat.
  split; [rewrite nrun_app, R1; exact R2|]. split; [exact S2|]. split; [exact A2|]. split; [exact D3|]. split; [exact J2|].
  split; [unfold ncalls, scalls in *; rewrite !flat_map_app, C1, C2; cbn; rewrite !app_nil_r; reflexivity|]. split.
  - rewrite nreplies_app, R1, P1, P2, (aevents_bufs _ _ _ _ _ A1). 
    assert (SA : forall a x b, schecks x (a ++ b) = schecks x a ++ match srun x a with Some y => schecks y b | None => [] end).
    { clear. induction a as [|l a IH]; intros x b; cbn [app StackRun.schecks Stack.srun]; [reflexivity|]. destruct (sstep T L tstep passes away failed g x l); [rewrite IH, app_assoc; reflexivity|reflexivity]. }
    rewrite SA, RZ. cbn [StackRun.schecks]. rewrite ST0. cbn [k_trans]. rewrite LV. unfold echecks. rewrite flat_map_app, <- !app_assoc. cbn [flat_map]. rewrite !app_nil_r. reflexivity.
  - rewrite (passed_app T L tstep passes away failed g), RZ. cbn [Stack.passed]. rewrite ST0. cbn [k_trans]. rewrite LV, app_nil_r, !throws_app. lia.
Qed.

(** Handles after a normal return. *)
Lemma stack_return ls1 k1 ls2 k2 c : srun k0 ls1 = Some k1 -> srun k1 ls2 = Some k2 -> sgood k0 (ls1 ++ ls2) ->
  throws (passed k1 ls2) = 0%nat -> ends k1 ls2 VReturn ->
  (throws (passed k0 ls1) = 0%nat \/ (length (s_heap (a_c (k_half k1))) <= c)%nat) ->
  (c < length (s_heap (a_c (k_half k2))))%nat ->
  exists x, nth_error (s_heap (a_c (k_half k2))) c = Some x /\ cell_valid x = true /\
    forall ls3 k3, srun k2 ls3 = Some k3 -> sgood k2 ls3 -> nth_error (s_heap (a_c (k_half k3))) c = Some x.
Proof using J_step J_fail J_init.
  intros R1 R2 G TH EN B LT. apply (sgood_app T L tstep passes away failed g P) in G. rewrite R1 in G. destruct G as (G1 & G2).
  destruct (sim_srun T L tstep passes away failed g P J J_step J_fail ls1 k0 init_d init_net 0 k1 sim_init J_init G1 R1)
    as (d1 & n1 & y1 & D1 & J1 & N1 & _ & _ & S1).
  destruct (last_step ls2 k1 k2 VReturn d1 y1 _ S1 J1 G2 R2 EN) as (ws & a1 & d2 & n2 & y2 & d' & m & N2 & S2 & A2 & DS & J2 & _ & _ & TT).
  change (throws [VReturn]) with 0%nat in TT. rewrite TH in TT.
  destruct (sim_return _ _ _ _ _ _ _ _ S2 A2 DS) as (y' & N3 & NC & NX & NX2 & S3 & _ & (_ & _ & HP)).
  assert (N23 : nrun g y1 (n2 ++ [NReturn]) = Some y') by (rewrite nrun_app, N2; exact N3).
  destruct (nrun_fail g _ _ _ N23) as (M & _).
  assert (EX : n_exc y' = n_exc y1 /\ n_exc y1 = throws (passed k0 ls1)).
  { destruct S1 as [_ _ _ [(_ & _ & _ & _ & _ & X)|(_ & _ & _ & _ & _ & _ & X)]]; cbn in X; lia. }
  destruct EX as (EX & EX1).
  assert (H1 : s_heap (n_c y1) = s_heap (a_c (k_half k1))).
  { destruct S1 as [_ _ _ [((_ & _ & H) & _)|(_ & _ & H & _)]]; [exact H|]. rewrite H. reflexivity. }
  destruct (C21_dispatch_makes_readable g n1 y1 n2 y' c N1 N23 EX) as (x & X1 & X2 & X3).
  { rewrite H1, EX1. exact B. }
  { rewrite HP. exact LT. }
  exists x. rewrite HP in X1. split; [exact X1|]. split; [exact X2|]. intros ls3 k3 R3 G3.
  destruct (sim_srun T L tstep passes away failed g P J J_step J_fail ls3 k2 d' y' _ k3 S3 J2 G3 R3) as (d4 & n4 & y4 & _ & _ & N4 & _ & _ & S4).
  rewrite <- (X3 _ _ N4). f_equal. destruct S4 as [_ _ _ [((_ & _ & H) & _)|(_ & _ & H & _)]]; rewrite H; reflexivity.
Qed.

(** With a device. *)
Lemma stack_device D rd wr cf (d d' : D) ls1 k1 ls2 k2 : cfg_ok g -> Forall op_ok (scalls ls2) ->
  srun k0 ls1 = Some k1 -> srun k1 ls2 = Some k2 -> sgood k0 (ls1 ++ ls2) ->
  ls1 = [] \/ ends k0 ls1 VThrow -> throws (passed k1 ls2) = 0%nat -> ends k1 ls2 VReturn ->
  served D rd wr cf g d (schecks k1 ls2) d' ->
  d' = fst (direct D rd wr cf (g_ver g) d (scalls ls2)) /\
  s_heap (a_c (k_half k2)) = s_heap (a_c (k_half k1)) ++ snd (direct D rd wr cf (g_ver g) d (scalls ls2)).
Proof using J_step J_fail J_init.
  intros CG OK R1 R2 G ST TH EN SV. apply (sgood_app T L tstep passes away failed g P) in G. rewrite R1 in G. destruct G as (G1 & G2).
  assert (Q : exists d1 y1 n, sim (k_half k1) d1 y1 n /\ J (k_trans k1) d1 /\ set_budget (n_c y1) false = mkSt 0 None (s_heap (a_c (k_half k1))) [] None /\
            n_wait y1 = false /\ n_exc y1 = n).
  { destruct ST as [->|ST].
    - injection R1 as <-. exists init_d, init_net, 0%nat. split; [exact sim_init|]. split; [exact J_init|]. repeat split.
    - destruct (last_step ls1 k0 k1 VThrow init_d init_net 0 sim_init J_init G1 R1 ST) as (ws & a1 & dd & n1 & z & dd' & m & _ & S1 & A1 & D1 & J1 & _).
      destruct (sim_throw _ _ _ _ _ _ _ _ S1 A1 D1) as (l & y' & _ & _ & _ & S2 & NC & W & F & DM). exists dd', y', (S m).
      split; [exact S2|]. split; [exact J1|]. split; [exact NC|]. split; [exact W|].
      destruct S2 as [_ _ _ [(_ & _ & _ & _ & _ & X)|(X & _)]]; [exact X|].
      exfalso. cbn [aevent] in A1. destruct (a_mode a1), (a_todo a1); try discriminate; injection A1 as A1; rewrite <- A1 in X; discriminate. }
  destruct Q as (d1 & y1 & n & S1 & J1 & NC & W & EX).
  destruct (last_step ls2 k1 k2 VReturn d1 y1 _ S1 J1 G2 R2 EN) as (ws & a1 & d2 & n2 & y2 & dd & m & N2 & S2 & A2 & DS & J2 & CL & RP & TT).
  change (throws [VReturn]) with 0%nat in TT. rewrite TH in TT.
  destruct (sim_return _ _ _ _ _ _ _ _ S2 A2 DS) as (y' & N3 & NCE & NX & NX2 & S3 & W' & (_ & _ & HP)).
  assert (N23 : nrun g y1 (n2 ++ [NReturn]) = Some y') by (rewrite nrun_app, N2; exact N3).
  assert (RR : nreplies g y1 (n2 ++ [NReturn]) = schecks k1 ls2).
  { rewrite nreplies_app, N2, <- RP. f_equal. cbn [nreplies]. destruct (nstep g y2 NReturn); reflexivity. }
  rewrite <- RR in SV. destruct (net_sys_return D rd wr cf g n2 y1 y' d d' false N23 ltac:(lia) SV) as (ms & b' & RS & CS).
  assert (ST0 : sys_of D y1 d false = start D (s_heap (a_c (k_half k1))) d) by (unfold sys_of, start; rewrite NC, W; reflexivity).
  rewrite ST0 in RS. assert (CC : calls ms = scalls ls2).
  { rewrite CS. unfold ncalls in *. rewrite flat_map_app, CL. cbn. apply app_nil_r. }
  destruct (return_quiescent_from D rd wr cf g CG _ d ms _ ltac:(rewrite CC; exact OK) RS) as (_ & _ & _ & _ & BD & DH).
  unfold sys_of in DH. cbn [y_dev y_c set_budget s_heap] in DH. rewrite CC in DH. unfold above in DH. injection DH as E1 E2.
  split; [exact E1|]. rewrite <- HP. exact E2.
Qed.
End Cons.
