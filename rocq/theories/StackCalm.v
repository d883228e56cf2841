(** A client over a transport whose network does nothing wrong, with the replies of
    a device: every reply is found valid (C104). *)
From Coq Require Import NArith ZArith List Lia Bool PeanoNat.
From Verif Require Import Word Bits Header ValMem Client Validate Target Spec System E2E E2ECor Net Stack Prop_Frame Prop_Valid StackProofs StackRun.
Import ListNotations.

(** Events other than failures. *)
Definition benign (v : tev) : Prop := match v with VCheck _ false | VFail | VThrow => False | _ => True end.

Lemma benign_throws vs : Forall benign vs -> throws vs = 0%nat.
Proof. induction 1 as [|v vs B _ IH]; [reflexivity|]. destruct v as [| |? []| | |]; cbn in *; try contradiction; exact IH. Qed.
Lemma benign_fail : forall vs d d', Forall benign vs -> drun d vs = Some d' -> d_fail d = false -> d_fail d' = false.
Proof.
  induction vs as [|v vs IH]; intros d d' B R F; cbn [drun] in R; [congruence|]. inversion B as [|? ? B1 B2]; subst.
  destruct (dstep d v) as [d1|] eqn:ST; [|discriminate]. apply (IH d1 d' B2 R). destruct v as [p| |p []| | |]; try contradiction B1; cbn [dstep] in ST.
  - rewrite F in ST. cbn [orb] in ST. destruct (d_flush d); [discriminate|]. injection ST as <-. reflexivity.
  - destruct (d_flush d); [discriminate|]. injection ST as <-. exact F.
  - rewrite F in ST. destruct (d_pend d); [discriminate|]. destruct (Nat.eqb p n); [|discriminate]. injection ST as <-. reflexivity.
  - rewrite F in ST. destruct (d_flush d), (d_pend d); try discriminate. injection ST as <-. reflexivity.
Qed.
Lemma aevent_mode g a v ws a' : aevent g a v ws = Some a' -> a_mode a <> MCut -> a_mode a' <> MCut.
Proof.
  intros A M. destruct v; cbn [aevent] in A.
  - destruct (a_mode a) eqn:E, (a_todo a); try discriminate; destruct (Nat.eqb p n); try discriminate; injection A as <-; cbn; congruence.
  - destruct (a_mode a), (a_todo a); try discriminate; injection A as <-; discriminate.
  - destruct (nth_error (a_bufs a) p); [|discriminate]. destruct (receive_packet g (s_heap (a_c a)) b ws). destruct (Bool.eqb v (accepts v0)); [|discriminate].
    injection A as <-. exact M.
  - injection A as <-. exact M.
  - destruct (a_mode a); try discriminate. injection A as <-. discriminate.
  - destruct (a_mode a), (a_todo a); try discriminate; injection A as <-; discriminate.
Qed.
Lemma aevents_mode g ws : forall vs a a', aevents g a vs ws = Some a' -> a_mode a <> MCut -> a_mode a' <> MCut.
Proof.
  induction vs as [|v vs IH]; intros a a' A M; cbn [aevents] in A; [congruence|]. destruct (aevent g a v ws) as [a1|] eqn:E; [|discriminate].
  exact (IH _ _ A (aevent_mode _ _ _ _ _ E M)).
Qed.
Lemma acall_mode g f a o a' : acall g f a o None = Some a' -> a_mode a <> MCut -> a_mode a' <> MCut.
Proof.
  unfold acall. intros A M. destruct (negb (outside a)); [discriminate|]. rewrite andb_false_r in A. destruct o as [o|].
  - destruct (run_op g _ o) as [s r|s []|]; try discriminate; injection A as <-; cbn; try discriminate; exact M.
  - destruct (s_cur (a_c a)); [|injection A as <-; exact M]. destruct (dispatch_send g _) as [s r|s e|]; try discriminate; injection A as <-; cbn; try discriminate; exact M.
Qed.

Section Smooth.
Variables (T L : Type).
Variable tstep : T -> L -> option T.
Variable passes : T -> L -> T -> list tev.
Variable away : T -> bool.
Variable failed : T -> bool.
Variable g : cfg.
Variable P : T -> L -> Prop.
Variable J : T -> dst -> Prop.
Hypothesis J_step : forall t l t' d, J t d -> tstep t l = Some t' -> P t l ->
  exists d', drun d (passes t l t') = Some d' /\ J t' d'.
Hypothesis J_fail : forall t d, J t d -> away t = true -> failed t = d_fail d.
(** The network does nothing wrong in a step; what is so while nothing goes wrong. *)
Variable ok : T -> L -> Prop.
Variable Snd : T -> Prop.
Hypothesis ok_P : forall t l t', Snd t -> ok t l -> tstep t l = Some t' -> P t l.
Hypothesis ok_step : forall t l t', Snd t -> ok t l -> tstep t l = Some t' ->
  Snd t' /\ Forall benign (passes t l t') \/ exists p r, passes t l t' = VCheck p false :: r.

Notation sstep := (sstep T L tstep passes away failed g).
Notation srun := (srun T L tstep passes away failed g).
Notation passed := (passed T L tstep passes away failed g).
Notation schecks := (schecks T L tstep passes away failed g).
Notation sgood := (sgood T L tstep passes away failed g P).

Lemma schecks_app : forall a k b, schecks k (a ++ b) = schecks k a ++ match srun k a with Some z => schecks z b | None => [] end.
Proof using.
  induction a as [|l a IH]; intros k b; cbn [app StackRun.schecks Stack.srun]; [reflexivity|].
  destruct (sstep k l); [rewrite IH, app_assoc; reflexivity|reflexivity].
Qed.

(** Nothing goes wrong in the network, and no call announces a refusal. *)
Fixpoint smooth (k : stack T) (ls : list (slab L)) : Prop :=
  match ls with
  | [] => True
  | l :: t =>
      match l with STrans l _ => ok (k_trans k) l | SCall _ None => True | SCall _ (Some _) => False end /\
      match sstep k l with Some k' => smooth k' t | None => True end
  end.

Lemma smooth_app : forall a k b, smooth k (a ++ b) <-> smooth k a /\ match srun k a with Some z => smooth z b | None => True end.
Proof using.
  induction a as [|l a IH]; intros k b; cbn [app smooth Stack.srun]; [tauto|]. destruct (sstep k l); [rewrite IH; tauto|tauto].
Qed.

(** Replies from a device. *)
Variable D : Type.
Variable rd : D -> N -> D * N.
Variable wr : D -> N -> N -> D.
Variable cf : D -> N -> D * N.
Hypothesis CG : cfg_ok g.
Variable hb : list cell.
Variable d0 : D.

Definition cinv (k : stack T) (dev : D) (os : list op) : Prop :=
  exists d y n ms b, sim (k_half k) d y n /\ J (k_trans k) d /\ Snd (k_trans k) /\ a_mode (k_half k) <> MCut /\ d_fail d = false /\
    run D rd wr cf g (start D hb d0) ms = Some (sys_of D y dev b) /\ calls ms = os.

(** What the simulation says while nothing has gone wrong. *)
Lemma sim_calm a d y n : sim a d y n -> a_mode a <> MCut -> d_fail d = false ->
  same a y /\ are (a_bufs a) (d_pend d ++ a_todo a) (s_out (n_c y)) /\ n_fail y = false /\ n_doom y = false /\ n_exc y = n.
Proof using.
  intros [_ _ _ M] AM F. destruct M as [(S0 & R & NF & _ & DM & X)|(C & _)]; [|congruence].
  split; [exact S0|]. split; [exact R|]. split; [congruence|]. split; [|exact X]. rewrite DM. destruct (a_mode a); try reflexivity. congruence.
Qed.

(** A reply of the device passes the checks. *)
Lemma reply_valid (k : stack T) dev os d y n ms b p t x ws d1 o h r :
  sim (k_half k) d y n -> a_mode (k_half k) <> MCut -> d_fail d = false ->
  run D rd wr cf g (start D hb d0) ms = Some (sys_of D y dev b) -> calls ms = os -> Forall op_ok os ->
  d_pend d = p :: t -> nth_error (a_bufs (k_half k)) p = Some x ->
  target_packet D rd wr cf g dev (b_send x) = (d1, ws, o) ->
  receive_packet g (s_heap (a_c (k_half k))) x ws = (h, r) -> r = VOk.
Proof using CG.
  intros SM AM F R C OK DP NT TP RP. destruct (sim_calm _ _ _ _ SM AM F) as ((_ & _ & HE) & AR & _). unfold are in AR. rewrite DP in AR. cbn [app map] in AR.
  destruct (s_out (n_c y)) as [|x' q] eqn:SO; [discriminate|]. cbn [map] in AR. injection AR as AR _. rewrite NT in AR. injection AR as <-.
  assert (R2 : exists y2, run D rd wr cf g (start D hb d0) (ms ++ [LTarget; LReply]) = Some y2 /\ (r <> VOk -> y_bad D y2 = true)).
  { rewrite (run_app D rd wr cf g), R. unfold sys_of. cbn [System.run System.step y_wait y_c y_rep y_dev y_bad set_budget s_out s_heap set_out]. rewrite SO, TP.
    cbn [System.run System.step y_wait y_c y_rep y_dev y_bad set_budget s_out s_heap set_out app]. rewrite HE, RP.
    destruct r; eexists; (split; [reflexivity|]); intros Z; try reflexivity; congruence. }
  destruct R2 as (y2 & R2 & B2).
  assert (CC : calls (ms ++ [LTarget; LReply]) = os) by (rewrite calls_app, C; cbn; apply app_nil_r).
  assert (I := reach_inv_from D rd wr cf g CG hb d0 _ _ ltac:(rewrite CC; exact OK) R2). destruct I as (? & ? & ? & ? & _ & B & _).
  destruct r; [reflexivity| |]; rewrite B2 in B by discriminate; discriminate.
Qed.

(** One step. *)
Lemma smooth_step k dev os l k' dev' : cinv k dev os -> Forall op_ok (os ++ scalls [l]) -> smooth k [l] -> sstep k l = Some k' ->
  served D rd wr cf g dev (schecks k [l]) dev' ->
  cinv k' dev' (os ++ scalls [l]) /\ Forall benign (passed k [l]) /\ sgood k [l].
Proof using J_step J_fail ok_P ok_step CG.
  intros (d & y & n & ms & b & SM & J0 & S0 & AM & F & R & C) OK SO ST SV. cbn [smooth] in SO. destruct SO as (SO & _).
  destruct (sim_calm _ _ _ _ SM AM F) as (SA & AR & NF & ND & NX).
  cbn [StackRun.schecks Stack.passed StackRun.sgood] in *. rewrite ST in *. rewrite app_nil_r in *.
  assert (RUN : forall nls y1 a1 d2 k1, nrun g y nls = Some y1 -> sim a1 d2 y1 k1 -> k1 = n -> a_mode a1 <> MCut -> d_fail d2 = false ->
            served D rd wr cf g dev (nreplies g y nls) dev' ->
            exists ms' b', run D rd wr cf g (start D hb d0) ms' = Some (sys_of D y1 dev' b') /\ calls ms' = os ++ ncalls nls).
  { intros nls y1 a1 d2 k1 RN S1 K1 M1 F1 SV1. destruct (sim_calm _ _ _ _ S1 M1 F1) as (_ & _ & NF1 & ND1 & NX1).
    destruct (net_sys D rd wr cf g nls y y1 dev dev' b RN ltac:(congruence) NF1 ND1 SV1) as (m2 & b2 & R2 & C2).
    exists (ms ++ m2), b2. split; [rewrite (run_app D rd wr cf g), R; exact R2|]. rewrite calls_app, C, C2. reflexivity. }
  destruct l as [o cut|l ws]; cbn [Stack.sstep] in ST.
  - destruct cut; [contradiction SO|]. destruct (away (k_trans k)) eqn:AW; [|discriminate].
    destruct (acall g (failed (k_trans k)) (k_half k) o None) as [a|] eqn:A; [|discriminate]. injection ST as <-. cbn [k_half k_trans] in *.
    destruct (sim_call _ _ _ _ _ _ _ _ _ SM A (J_fail _ _ J0 AW)) as (l1 & y1 & R1 & C1 & P1 & S1).
    assert (M1 := acall_mode _ _ _ _ _ A AM). rewrite <- P1 in SV.
    destruct (RUN _ _ _ _ _ R1 S1 eq_refl M1 F SV) as (ms' & b' & R2 & C2).
    split; [|split; [constructor|split; exact I]]. exists d, y1, n, ms', b'. cbn [k_half k_trans]. repeat (split; [assumption|]).
    rewrite C2, C1. unfold scalls, callop. cbn [flat_map]. destruct o; reflexivity.
  - destruct (tstep (k_trans k) l) as [t|] eqn:TS; [|discriminate]. destruct (aevents g (k_half k) (passes (k_trans k) l t) ws) as [a|] eqn:A; [|discriminate].
    injection ST as <-. cbn [k_half k_trans] in *.
    destruct (J_step _ _ _ _ J0 TS (ok_P _ _ _ S0 SO TS)) as (d1 & D1 & J1).
    destruct (ok_step _ _ _ S0 SO TS) as [(S1 & B1)|(p & r & E)].
    + destruct (sim_events _ _ _ _ _ _ _ _ _ SM A D1) as (l1 & y1 & R1 & C1 & P1 & S2). rewrite (benign_throws _ B1), Nat.add_0_r in S2.
      assert (F1 := benign_fail _ _ _ B1 D1 F). assert (M1 := aevents_mode _ _ _ _ _ A AM). rewrite <- P1 in SV.
      destruct (RUN _ _ _ _ _ R1 S2 eq_refl M1 F1 SV) as (ms' & b' & R2 & C2).
      split; [|split; [exact B1|split; [exact (ok_P _ _ _ S0 SO TS)|exact I]]]. exists d1, y1, n, ms', b'. cbn [k_half k_trans]. repeat (split; [assumption|]).
      rewrite C2, C1. reflexivity.
    + exfalso. rewrite E in A, D1, SV. cbn [aevents drun] in A, D1.
      destruct (aevent g (k_half k) (VCheck p false) ws) as [a1|] eqn:A1; [|discriminate]. destruct (dstep d (VCheck p false)) as [d2|] eqn:D2; [|discriminate].
      cbn [dstep] in D2. rewrite F in D2. destruct (d_pend d) as [|q tl] eqn:DP; [discriminate|]. destruct (Nat.eqb p q) eqn:PQ; [|discriminate]. apply Nat.eqb_eq in PQ. subst q.
      cbn [aevent] in A1. destruct (nth_error (a_bufs (k_half k)) p) as [x|] eqn:NT; [|discriminate].
      destruct (receive_packet g (s_heap (a_c (k_half k))) x ws) as (h, rr) eqn:RP.
      unfold echecks in SV. cbn [flat_map] in SV. rewrite NT in SV. cbn [app served] in SV. destruct SV as (dv & o & TP & _).
      rewrite (reply_valid k dev os d y n ms b p tl x ws dv o h rr SM AM F R C ltac:(apply Forall_app in OK; tauto) DP NT TP RP) in A1. discriminate.
Qed.

Lemma smooth_run : forall ls k dev os k' dev', cinv k dev os -> Forall op_ok (os ++ scalls ls) -> smooth k ls -> srun k ls = Some k' ->
  served D rd wr cf g dev (schecks k ls) dev' ->
  cinv k' dev' (os ++ scalls ls) /\ Forall benign (passed k ls) /\ sgood k ls.
Proof using J_step J_fail ok_P ok_step CG.
  induction ls as [|l ls IH]; intros k dev os k' dev' V OK SO R SV; cbn [Stack.srun StackRun.schecks smooth Stack.passed StackRun.sgood] in *.
  { injection R as <-. cbn in SV. subst dev'. rewrite app_nil_r. split; [exact V|]. split; [constructor|exact I]. }
  destruct (sstep k l) as [k1|] eqn:ST; [|discriminate]. destruct SO as (SO1 & SO2).
  assert (CS : scalls (l :: ls) = scalls [l] ++ scalls ls) by (unfold scalls; cbn [flat_map]; rewrite app_nil_r; reflexivity).
  rewrite CS, app_assoc in OK |- *.
  apply served_app in SV. destruct SV as (dev1 & SV1 & SV2).
  assert (SC : schecks k [l] = match l with SCall _ _ => [] | STrans l0 ws => echecks (a_bufs (k_half k)) (passes (k_trans k) l0 (k_trans k1)) ws end)
    by (cbn [StackRun.schecks]; rewrite ST, app_nil_r; reflexivity).
  rewrite <- SC in SV1.
  destruct (smooth_step k dev os l k1 dev1 V ltac:(apply Forall_app in OK; tauto) ltac:(cbn [smooth]; rewrite ST; auto) ST SV1) as (V1 & B1 & G1).
  destruct (IH k1 dev1 _ k' dev' V1 OK SO2 R SV2) as (V2 & B2 & G2). split; [exact V2|]. split.
  - apply Forall_app. split; [|exact B2]. cbn [Stack.passed] in B1. rewrite ST, app_nil_r in B1. exact B1.
  - split; [|exact G2]. cbn [StackRun.sgood] in G1. tauto.
Qed.

(** A step of the transport in which nothing but a check passes is possible with
    the reply of the device. *)
Lemma can_step k dev os l t' : cinv k dev os -> Forall op_ok os -> ok (k_trans k) l -> tstep (k_trans k) l = Some t' ->
  (passes (k_trans k) l t' = [] \/ exists p, passes (k_trans k) l t' = [VCheck p true]) ->
  exists ws k' dev', sstep k (STrans l ws) = Some k' /\ served D rd wr cf g dev (schecks k [STrans l ws]) dev'.
Proof using J_step ok_P CG.
  intros (d & y & n & ms & b & SM & J0 & S0 & AM & F & R & C) OK SO TS PS.
  destruct PS as [PS|(p & PS)].
  - exists [], (mkStack (k_half k) t'), dev. assert (E : sstep k (STrans l []) = Some (mkStack (k_half k) t')) by (cbn [Stack.sstep]; rewrite TS, PS; reflexivity).
    split; [exact E|]. cbn [StackRun.schecks]. rewrite E. cbn [k_trans]. rewrite PS. reflexivity.
  - destruct (J_step _ _ _ _ J0 TS (ok_P _ _ _ S0 SO TS)) as (d1 & D1 & _). rewrite PS in D1. cbn [drun dstep] in D1. rewrite F in D1.
    destruct (d_pend d) as [|q tl] eqn:DP; [discriminate|]. destruct (Nat.eqb p q) eqn:PQ; [|discriminate]. apply Nat.eqb_eq in PQ. subst q.
    destruct (sim_calm _ _ _ _ SM AM F) as (_ & AR & _). unfold are in AR. rewrite DP in AR. cbn [app map] in AR.
    destruct (nth_error (a_bufs (k_half k)) p) as [x|] eqn:NT; [|destruct (s_out (n_c y)); discriminate].
    destruct (target_packet D rd wr cf g dev (b_send x)) as ((dv, ws), o) eqn:TP.
    destruct (receive_packet g (s_heap (a_c (k_half k))) x ws) as (h, r) eqn:RP.
    assert (RV := reply_valid k dev os d y n ms b p tl x ws dv o h r SM AM F R C OK DP NT TP RP). subst r.
    assert (E : exists a, sstep k (STrans l ws) = Some (mkStack a t')).
    { cbn [Stack.sstep]. rewrite TS, PS. cbn [aevents aevent]. rewrite NT, RP. cbn. eauto. }
    destruct E as (a & E). exists ws, (mkStack a t'), dv. split; [exact E|]. cbn [StackRun.schecks]. rewrite E. cbn [k_trans]. rewrite PS.
    unfold echecks. cbn [flat_map]. rewrite NT. cbn [app served]. exists dv, o. split; [exact TP|reflexivity].
Qed.

(** A new client, and one that has just raised an exception. *)
Variable t0 : T.
Hypothesis J_init : J t0 init_d.
Notation k0 := (mkStack init_half t0).
Lemma start_cinv ls1 k1 : srun k0 ls1 = Some k1 -> sgood k0 ls1 ->
  ls1 = [] \/ ends T L tstep passes away failed g k0 ls1 VThrow -> Snd (k_trans k1) -> hb = s_heap (a_c (k_half k1)) -> cinv k1 d0 [].
Proof using J_step J_fail J_init.
  intros R1 G1 ST S1 HB. destruct ST as [->|ST].
  - injection R1 as <-. exists init_d, init_net, 0%nat, [], false. split; [exact sim_init|]. split; [exact J_init|]. split; [exact S1|].
    split; [discriminate|]. split; [reflexivity|]. split; [|reflexivity]. cbn in HB. rewrite HB. reflexivity.
  - destruct (last_step T L tstep passes away failed g P J J_step J_fail t0 ls1 k0 k1 VThrow init_d init_net 0 sim_init J_init G1 R1 ST) as (ws & a1 & dd & n1 & z & dd' & m & _ & SM & A1 & D1 & J1 & _).
    destruct (sim_throw _ _ _ _ _ _ _ _ SM A1 D1) as (l & y' & _ & _ & _ & S2 & NC & W & F & DM). exists dd', y', (S m), [], false.
    split; [exact S2|]. split; [exact J1|]. split; [exact S1|].
    assert (AM : a_mode (k_half k1) = MOp) by (cbn [aevent] in A1; destruct (a_mode a1), (a_todo a1); try discriminate; injection A1 as A1; rewrite <- A1; reflexivity).
    split; [congruence|]. split; [cbn [dstep] in D1; destruct (_ && _); [discriminate|]; injection D1 as <-; reflexivity|].
    split; [|reflexivity]. cbn [System.run]. unfold start, sys_of. rewrite NC, W, HB. reflexivity.
Qed.
End Smooth.
