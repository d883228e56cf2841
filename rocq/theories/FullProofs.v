(** Proof layer: every execution of [Full.v] is one of [Shared.v]. *)
From Verif Require Import Word Bits Header ValMem Client Validate Target Spec System.
From Verif Require Tcp.
From Verif Require Import Tx E2E Shared SharedSpec E2ECor Prop_E2E.
From Verif Require Import Hub HubSpec HubProofs HubInv HubAsk HubSafe Manager ManSpec Prop_Hub Prop_Manager CHub CHubSpec Prop_CHub Full FullSpec FullWords FullBytes FullSim.
From Coq Require Import NArith ZArith List Lia Bool PeanoNat ZifyBool ZifyNat ZifyN.
Import ListNotations.
Open Scope N_scope.

Section F.
Variable D : Type.
Variable rd : D -> N -> D * N.
Variable wr : D -> N -> N -> D.
Variable cf : D -> N -> D * N.
Variable depth absmax lag : nat.
Variable t : target.
Variable allow : target -> bool.
Variable g : nat -> cfg.
Hypothesis RD : reads32 rd.
Hypothesis CF : reads32 cf.
Hypothesis T : good_target t.
Hypothesis AL : allow t = true.
Hypothesis D1 : (1 <= depth)%nat.
Hypothesis A1 : (1 <= absmax)%nat.
Hypothesis LAG : N.of_nat (lag + window depth absmax + depth) < 65534.
Hypothesis H : forall p, hub_client t (g p).
Notation exec := (dev_exec D rd wr cf).
Notation hstep := (Hub.step D exec false depth absmax).
Notation hrun := (Hub.run D exec false depth absmax).
Notation wstep := (CHub.wstep D exec false depth absmax t allow).
Notation wrun := (CHub.wrun D exec false depth absmax t allow).
Notation fstep := (Full.fstep D rd wr cf depth absmax t allow g).
Notation frun := (Full.frun D rd wr cf depth absmax t allow g).
Notation Sim := (FullSim.Sim D rd wr cf g).
Notation dead W := (h_mode (w_hub D (c_hub D W)) = MDead).

Lemma frun_snoc ls l : forall F F' tr, frun F (ls ++ [l]) = Some (F', tr) -> exists F1 tr1 e, frun F ls = Some (F1, tr1) /\ fstep F1 l = Some (F', e) /\ tr = tr1 ++ e.
Proof using Type.
  induction ls as [|k ls IH]; intros F F' tr R; cbn [app Full.frun] in *.
  - destruct (fstep F l) as [[F1 e1]|] eqn:FS; [|discriminate]. injection R as <- <-. exists F, [], e1. rewrite app_nil_r. auto.
  - destruct (fstep F k) as [[F1 e1]|]; [|discriminate]. destruct (frun F1 (ls ++ [l])) as [[F2 e2]|] eqn:R1; [|discriminate]. injection R as <- <-.
    destruct (IH _ _ _ R1) as (F3 & tr1 & e & R2 & S & ->). rewrite R2. exists F3, (e1 ++ tr1), e. rewrite app_assoc. auto.
Qed.
Lemma wrun_snoc ls l W W1 tr W2 e : wrun W ls = Some (W1, tr) -> wstep W1 l = Some (W2, e) -> wrun W (ls ++ [l]) = Some (W2, tr ++ e).
Proof using Type.
  revert W tr. induction ls as [|k ls IH]; intros W tr R S; cbn [app CHub.wrun] in *; [injection R as <- <-; rewrite S, app_nil_r; reflexivity|].
  destruct (wstep W k) as [[W3 e3]|]; [|discriminate]. destruct (wrun W3 ls) as [[W4 e4]|] eqn:R4; [|discriminate]. injection R as <- <-. rewrite (IH _ _ R4 S), app_assoc. reflexivity.
Qed.

Lemma along_app P a : forall w w1 e b, along hstep P w (a ++ b) -> hrun w a = Some (w1, e) -> along hstep P w1 b.
Proof using Type.
  induction a as [|l a IH]; intros w w1 e b A R; [injection R as <- <-; exact A|]. cbn [app along Hub.run] in *. destruct A as (_ & A). destruct (hstep w l) as [[w2 e2]|]; [|discriminate].
  destruct (hrun w2 a) as [[w3 e3]|] eqn:R3; [|discriminate]. injection R as <- <-. eapply IH; eassumption.
Qed.
Lemma dead_run ls : forall w w' e, along hstep (prompt false lag) w ls -> hrun w ls = Some (w', e) -> h_mode (w_hub D w) = MDead -> h_mode (w_hub D w') = MDead.
Proof using Type.
  induction ls as [|l ls IH]; intros w w' e A R M; [injection R as <- <-; exact M|]. cbn [along Hub.run] in *. destruct A as (P & A). destruct (hstep w l) as [[w1 e1]|] eqn:S; [|discriminate].
  destruct (hrun w1 ls) as [[w2 e2]|] eqn:R2; [|discriminate]. injection R as <- <-. apply (IH _ _ _ A R2). destruct l; try (exact (proj1 (dead_step D exec false depth absmax lag w _ w1 e1 P M S))).
  cbn [Hub.step] in S. rewrite M in S. injection S as <- <-. exact M.
Qed.

Lemma fstep_hub F l F' e : fstep F l = Some (F', e) -> hrun (c_hub D (f_w D F)) (hub_labels e) = Some (c_hub D (f_w D F'), hub_events e).
Proof using Type.
  intros S. destruct l as [p o|p|p|p k|p|wl]; cbn [Full.fstep] in S.
  - destruct (fc_wait (f_c D F p) || fc_bad (f_c D F p)); [discriminate|]. destruct (run_op (g p) (fc_st (f_c D F p)) o); injection S as <- <-; reflexivity.
  - destruct (fc_wait (f_c D F p) || fc_bad (f_c D F p)); [discriminate|]. destruct (s_cur (fc_st (f_c D F p))); [destruct (dispatch_send (g p) (fc_st (f_c D F p)))|]; injection S as <- <-; reflexivity.
  - destruct (fc_wait (f_c D F p) && _); [|discriminate]. destruct (s_out (fc_st (f_c D F p))); [|discriminate]. destruct (fc_fly (f_c D F p)); [|discriminate]. injection S as <- <-. reflexivity.
  - destruct (_ && _); [|discriminate]. unfold arrive in S. destruct (man_step _ _ _) as ((m0, cs), o0). injection S as <- <-. reflexivity.
  - destruct (fc_bad (f_c D F p)); [discriminate|]. destruct (fc_fly (f_c D F p)); [discriminate|]. destruct (fc_in (f_c D F p)); [discriminate|]. destruct (if room_of l <? _ then _ else _) as (h, ok). injection S as <- <-. reflexivity.
  - destruct wl as [p reqs|p|p|hl]; [discriminate| | |];
      match type of S with context [CHub.wstep _ _ _ _ _ _ _ ?W ?x] => destruct (wstep W x) as [[W1 e1]|] eqn:WS; [|discriminate] end; injection S as <- <-; apply wstep_hub in WS; exact WS.
Qed.
Lemma frun_hub ls : forall F F' tr, frun F ls = Some (F', tr) -> hrun (c_hub D (f_w D F)) (hub_labels tr) = Some (c_hub D (f_w D F'), hub_events tr).
Proof using Type.
  induction ls as [|l ls IH]; intros F F' tr R; cbn [Full.frun] in R; [injection R as <- <-; reflexivity|].
  destruct (fstep F l) as [[F1 e1]|] eqn:S; [|discriminate]. destruct (frun F1 ls) as [[F2 e2]|] eqn:R1; [|discriminate]. injection R as <- <-.
  rewrite hl_app, he_app. eapply run_app; [eapply fstep_hub, S|eapply IH, R1].
Qed.

(** Several requests carried out. *)
Lemma sim_execs d0 F u chunks sent k : forall reqs ys d d' zs, Sim d0 F u chunks sent reqs ys d -> (length ys + k <= length reqs)%nat ->
  (forall p, exists rest, cast_by p reqs ++ rest = concat (chunks p)) ->
  carried exec d (map (fun r => body (q_pkt r)) (firstn k (skipn (length ys) reqs))) = (d', zs) -> Sim d0 F u chunks sent reqs (ys ++ zs) d'.
Proof using All.
  induction k as [|k IH]; intros reqs ys d d' zs S L CH C.
  - cbn [firstn map carried] in C. injection C as <- <-. rewrite app_nil_r. exact S.
  - set (a := firstn (length ys) reqs). destruct (skipn (length ys) reqs) as [|r b] eqn:SK; [apply (f_equal (@length _)) in SK; rewrite skipn_length in SK; cbn in SK; lia|].
    assert (RQ : reqs = a ++ r :: b) by (rewrite <- SK; symmetry; apply firstn_skipn). assert (LA : length ys = length a) by (unfold a; rewrite firstn_length; lia). clearbody a. clear SK. subst reqs.
    cbn [firstn map carried] in C. destruct (exec d (body (q_pkt r))) as (d1, x) eqn:X. destruct (carried exec d1 _) as (d2, rs) eqn:C2. injection C as <- <-.
    pose proof (sim_exec D rd wr cf t g RD CF T H d0 F u chunks sent a r b ys d (d1, x) S LA CH X) as S1. cbn [fst snd] in S1.
    replace (ys ++ x :: rs) with ((ys ++ [x]) ++ rs) by (rewrite <- app_assoc; reflexivity). apply (IH _ _ d1); [exact S1| |exact CH|].
    + rewrite !app_length in *. cbn [length] in *. lia.
    + rewrite app_length, LA, Nat.add_1_r, skipn_app. rewrite skipn_all2 by lia. replace (Datatypes.S (length a) - length a)%nat with 1%nat by lia. exact C2.
Qed.

Lemma sim_ext d0 F u chunks sent reqs ys d F' u' chunks' sent' reqs' ys' d' : Sim d0 F u chunks sent reqs ys d ->
  (forall p, F' p = F p) -> (forall p, u' p = u p) -> (forall p, chunks' p = chunks p) -> (forall p, sent' p = sent p) -> reqs' = reqs -> ys' = ys -> d' = d -> Sim d0 F' u' chunks' sent' reqs' ys' d'.
Proof using Type.
  intros (ls & s & R & E & C) E1 E2 E3 E4 -> -> ->. exists ls, s. split; [exact R|]. split; [exact E|]. intros p. rewrite E1, E2, E3, E4. apply C.
Qed.

(** What is kept.  [F0]: the clients as they are in [Shared.v]; one that has met an
    error is there as it was before, with packets that have no reply. *)
Definition ghost (F F0 : nat -> fclient) (sent : nat -> list (list response)) : Prop := forall p,
  (fc_bad (F p) = false -> F0 p = F p /\ all_ok (firstn (length (sent p) - length (fc_in (F p))) (sent p))) /\
  (fc_bad (F p) = true -> fc_fly (F0 p) <> []).
Definition Inv (d0 : D) (W0 : whole D) (ls : list flabel) (F : full D) (tr : list wev) : Prop :=
  exists wls F0, wrun W0 wls = Some (f_w D F, tr) /\ Forall (good_label false) wls /\
    Sim d0 F0 (fun p => user_of p ls) (fun p => chunks_by p wls) (fun p => sent_to p tr) (asked (hub_labels tr)) (map snd (execs (hub_events tr))) (v_d _ (w_dev D (c_hub D (f_w D F)))) /\
    ghost (f_c D F) F0 (fun p => sent_to p tr) /\ (~ dead (f_w D F) -> forall p, fc_bad (f_c D F p) = false).

Lemma ghost_put F F0 sent p c : ghost F F0 sent -> fc_bad (F p) = false -> fc_bad c = false -> fc_in c = fc_in (F p) -> ghost (put F p c) (put F0 p c) sent.
Proof using Type.
  intros G B0 B1 FI q. unfold put. destruct (Nat.eqb_spec q p) as [->|]; [|apply G]. split; [|congruence]. intros _. split; [reflexivity|]. rewrite FI. apply G, B0.
Qed.
Lemma ghost_give F F0 sent e : ghost F F0 sent -> (forall p, length (fc_in (F0 p)) <= length (sent p))%nat ->
  ghost (give F e) (fun p => mkFc (fc_st (F0 p)) (fc_wait (F0 p)) (fc_bad (F0 p)) (fc_fly (F0 p)) (fc_in (F0 p) ++ map chunk_bytes (sent_to p e))) (fun p => sent p ++ sent_to p e).
Proof using Type.
  intros G LE p. assert (GV : give F e p = mkFc (fc_st (F p)) (fc_wait (F p)) (fc_bad (F p)) (fc_fly (F p)) (fc_in (F p) ++ map chunk_bytes (sent_to p e))).
  { unfold give. f_equal. f_equal. clear. induction e as [|[l x|q x o] e IH]; [reflexivity|exact IH|]. unfold sent_to in *. cbn [flat_map]. rewrite IH. destruct (Nat.eqb q p); [rewrite map_app|]; reflexivity. }
  rewrite GV. cbn [fc_bad fc_fly fc_in fc_st fc_wait]. destruct (G p) as (G1 & G2). split; [|exact G2]. intros B. destruct (G1 B) as (EF & AO). specialize (LE p). rewrite EF in *. split; [reflexivity|].
  rewrite !app_length, map_length. replace (length (sent p) + length (sent_to p e) - (length (fc_in (F p)) + length (sent_to p e)))%nat with (length (sent p) - length (fc_in (F p)))%nat by (clear - LE; lia).
  rewrite firstn_app. replace (length (sent p) - length (fc_in (F p)) - length (sent p))%nat with 0%nat by (clear - LE; lia). cbn [firstn]. rewrite app_nil_r. exact AO.
Qed.
Lemma asked_app a b : asked (a ++ b) = asked a ++ asked b. Proof using Type. apply flat_map_app. Qed.
Lemma user_app p a b : user_of p (a ++ b) = user_of p a ++ user_of p b. Proof using Type. apply flat_map_app. Qed.

Lemma sim_in d0 F u chunks sent reqs ys d p : Sim d0 F u chunks sent reqs ys d -> (length (fc_in (F p)) <= length (sent p))%nat.
Proof using Type. intros (ls & s & _ & _ & C). destruct (C p) as (R0 & xsR & xsX & X & O & _ & C2 & C3 & _). rewrite C2, map_length, skipn_length. apply Nat.le_sub_l. Qed.
Lemma dead_later F l F' e W0 tr : fstep F l = Some (F', e) -> hrun (c_hub D W0) (hub_labels tr) = Some (c_hub D (f_w D F), hub_events tr) ->
  along hstep (prompt false lag) (c_hub D W0) (hub_labels (tr ++ e)) -> ~ dead (f_w D F') -> ~ dead (f_w D F).
Proof using Type.
  intros ST R PR ND DE. apply ND. rewrite hl_app in PR. eapply dead_run; [|eapply fstep_hub, ST|exact DE]. eapply along_app; [exact PR|exact R].
Qed.

(** A step of the ControlHub. *)
Lemma inv_hub d0 W0 ls F tr wl W' e fl : begun false depth W0 -> d0 = v_d _ (w_dev D (c_hub D W0)) -> Inv d0 W0 ls F tr ->
  wstep (f_w D F) wl = Some (W', e) -> (forall p, chunks_by p [wl] = []) -> good_label false wl ->
  along hstep (prompt false lag) (c_hub D W0) (hub_labels (tr ++ e)) ->
  (forall p, user_of p [fl] = []) -> (~ dead W' -> ~ dead (f_w D F)) ->
  Inv d0 W0 (ls ++ [fl]) (mkFull D (give (f_c D F) e) W') (tr ++ e).
Proof using All.
  intros BG ED (wls & F0 & R & GL & S & GH & LV) ST NC GW PR NU DL. assert (R' := wrun_snoc _ _ _ _ _ _ _ R ST).
  assert (GL' : Forall (good_label false) (wls ++ [wl])) by (apply Forall_app; auto).
  assert (PR1 : along hstep (prompt false lag) (c_hub D W0) (hub_labels tr)) by (rewrite hl_app in PR; eapply along_prefix, PR).
  destruct (C89_clients D exec false depth absmax lag t allow wls W0 _ tr T AL D1 A1 LAG BG GL R PR1) as (m & k & c & n & MN & _ & _ & EX & RU & _ & _).
  destruct (C89_clients D exec false depth absmax lag t allow _ W0 _ _ T AL D1 A1 LAG BG GL' R' PR) as (m' & k' & c' & n' & MN' & _ & _ & EX' & RU' & _ & VW').
  exists (wls ++ [wl]), (fun p => mkFc (fc_st (F0 p)) (fc_wait (F0 p)) (fc_bad (F0 p)) (fc_fly (F0 p)) (fc_in (F0 p) ++ map chunk_bytes (sent_to p e))). split; [exact R'|]. split; [exact GL'|]. cbn [f_c f_w].
  split; [|split; [|intros ND p; exact (LV (DL ND) p)]].
  2:{ pose proof (ghost_give _ _ _ e GH (fun p => sim_in _ _ _ _ _ _ _ _ p S)) as G2. intros p. rewrite st_app. apply G2. }
  rewrite hl_app, he_app, asked_app, execs_app, map_app. rewrite hl_app, asked_app in MN'. rewrite he_app, hl_app, asked_app, execs_app, map_app in EX'. rewrite he_app, execs_app, !map_app in RU'. set (reqs := asked (hub_labels tr)) in *. set (more := asked (hub_labels e)) in *. set (ys := map snd (execs (hub_events tr))) in *. set (zs := map snd (execs (hub_events e))) in *.
  assert (LN : length ys = n) by (unfold ys; rewrite map_length, <- (map_length fst), EX, map_length, firstn_length; lia).
  assert (LN' : (length ys + length zs = n')%nat) by (unfold ys, zs; apply (f_equal (@length _)) in EX'; rewrite app_length, !map_length, firstn_length in EX'; rewrite !map_length; lia).
  pose proof (sim_more D rd wr cf t g H d0 _ _ _ _ reqs ys _ more (fun p => sent_to p e) S) as S1. specialize (S1 ltac:(lia)).
  assert (S2 := S1). apply (sim_execs _ _ _ _ _ (length zs) _ _ _ (v_d _ (w_dev D (c_hub D W'))) zs) in S2.
  - eapply sim_ext; [exact S2| | | | |reflexivity|reflexivity|reflexivity].
    + intros p. reflexivity.
    + intros p. rewrite user_app, NU, app_nil_r. reflexivity.
    + intros p. rewrite cb_app, NC, app_nil_r. reflexivity.
    + intros p. apply st_app.
  - rewrite app_length. rewrite app_length in MN'. lia.
  - intros p. destruct (VW' p) as (_ & CB & _). rewrite hl_app, asked_app, cb_app, NC, app_nil_r in CB. eexists. exact CB.
  - rewrite carried_app, RU in RU'. cbn [fst snd] in RU'. destruct (carried exec _ (map fst (execs (hub_events e)))) as (d2, rs) eqn:C2. cbn [fst snd] in RU'. injection RU' as <- RU'. apply app_inv_head in RU'. fold zs in RU'. subst rs.
    rewrite <- C2. f_equal. rewrite EX in EX'. rewrite <- (firstn_skipn n (firstn n' (reqs ++ more))) in EX'. rewrite map_app, firstn_firstn, Nat.min_l in EX' by lia.
    rewrite (firstn_app n) in EX'. replace (n - length reqs)%nat with 0%nat in EX' by lia. cbn [firstn] in EX'. rewrite app_nil_r in EX'. apply app_inv_head in EX'. rewrite EX', skipn_firstn_comm, LN. replace (length zs) with (n' - n)%nat by lia. reflexivity.
Qed.

Lemma inv_step d0 W0 ls F tr l F' e : begun false depth W0 -> d0 = v_d _ (w_dev D (c_hub D W0)) -> Inv d0 W0 ls F tr ->
  fstep F l = Some (F', e) -> (forall p, Forall op_ok (calls (user_of p (ls ++ [l])))) -> (forall p, Forall op_words (calls (user_of p (ls ++ [l])))) ->
  along hstep (prompt false lag) (c_hub D W0) (hub_labels (tr ++ e)) -> Inv d0 W0 (ls ++ [l]) F' (tr ++ e).
Proof using All.
  intros BG ED IN ST FO FW PR. pose proof IN as IN0. destruct IN as (wls & F0 & R & GL & S & GH & LV).
  pose proof (dead_later F l F' e W0 tr ST (wrun_hub D exec false depth absmax t allow _ _ _ _ R) PR) as DL.
  destruct l as [p o|p|p|p k|p|wl]; cbn [Full.fstep] in ST.
  - destruct (fc_wait (f_c D F p)) eqn:WT; [discriminate|]. destruct (fc_bad (f_c D F p)) eqn:BD; [discriminate|]. cbn [orb] in ST.
    assert (UE : forall q, user_of q (ls ++ [FOp p o]) = put (fun k => user_of k ls) p (user_of p ls ++ [LOp o]) q).
    { intros q. rewrite user_app. unfold put. cbn. rewrite (Nat.eqb_sym p q). destruct (Nat.eqb_spec q p) as [->|]; [reflexivity|apply app_nil_r]. }
    assert (WO : op_words o). { specialize (FW p). rewrite UE, put_same, calls_app in FW. apply Forall_app in FW. destruct FW as (_ & FW). inversion FW. assumption. }
    assert (FO' : forall q, Forall op_ok (calls (put (fun k => user_of k ls) p (user_of p ls ++ [LOp o]) q))) by (intros q; rewrite <- UE; apply FO).
    assert (EF : F0 p = f_c D F p) by (apply (GH p), BD).
    pose proof (sim_op D rd wr cf t g H d0 _ _ _ _ _ _ _ p o S FO' WO ltac:(rewrite EF; exact WT)) as S'. cbn zeta in S'. rewrite EF in S'.
    pose proof (sim_ok D rd wr cf t g H _ _ _ _ _ _ _ _ S' FO' p) as NB. rewrite put_same in NB.
    match type of S' with FullSim.Sim _ _ _ _ _ _ (put _ _ ?c) _ _ _ _ _ _ => set (c' := c) in * end.
    assert (EQ : (F', e) = (with_client D F p c', [])) by (subst c'; destruct (run_op (g p) (fc_st (f_c D F p)) o); congruence). injection EQ as -> ->.
    exists wls, (put F0 p c'). cbn [with_client f_w f_c]. rewrite app_nil_r. split; [exact R|]. split; [exact GL|]. split; [eapply sim_ext; [exact S'|intros; reflexivity|exact UE|intros; reflexivity|intros; reflexivity|reflexivity|reflexivity|reflexivity]|].
    split; [apply ghost_put; try assumption; subst c'; destruct (run_op (g p) (fc_st (f_c D F p)) o); reflexivity|].
    intros ND q. unfold put. destruct (Nat.eqb q p); [exact NB|exact (LV ND q)].
  - destruct (fc_wait (f_c D F p)) eqn:WT; [discriminate|]. destruct (fc_bad (f_c D F p)) eqn:BD; [discriminate|]. cbn [orb] in ST.
    assert (UE : forall q, user_of q (ls ++ [FDispatch p]) = put (fun k => user_of k ls) p (user_of p ls ++ [LDispatch]) q).
    { intros q. rewrite user_app. unfold put. cbn. rewrite (Nat.eqb_sym p q). destruct (Nat.eqb_spec q p) as [->|]; [reflexivity|apply app_nil_r]. }
    assert (FO' : forall q, Forall op_ok (calls (put (fun k => user_of k ls) p (user_of p ls ++ [LDispatch]) q))) by (intros q; rewrite <- UE; apply FO).
    assert (EF : F0 p = f_c D F p) by (apply (GH p), BD).
    pose proof (sim_dispatch D rd wr cf t g H d0 _ _ _ _ _ _ _ p S FO' ltac:(rewrite EF; exact WT)) as S'. cbn zeta in S'. rewrite EF in S'.
    pose proof (sim_ok D rd wr cf t g H _ _ _ _ _ _ _ _ S' FO' p) as NB. rewrite put_same in NB.
    match type of S' with FullSim.Sim _ _ _ _ _ _ (put _ _ ?c) _ _ _ _ _ _ => set (c' := c) in * end.
    assert (EQ : (f_w D F', e) = (f_w D F, []) /\ (forall q, f_c D F' q = put (f_c D F) p c' q)).
    { subst c'. destruct (s_cur (fc_st (f_c D F p))); [destruct (dispatch_send (g p) (fc_st (f_c D F p)))|]; injection ST as <- <-; cbn [with_client f_w f_c]; (split; [reflexivity|]); rewrite ?BD; try (intros; reflexivity).
      intros q. unfold put. destruct (Nat.eqb_spec q p) as [->|]; reflexivity. }
    destruct EQ as (EQ & EC). injection EQ as EW ->.
    exists wls, (put F0 p c'). rewrite app_nil_r, EW. split; [exact R|]. split; [exact GL|]. split; [eapply sim_ext; [exact S'|intros; reflexivity|exact UE|intros; reflexivity|intros; reflexivity|reflexivity|reflexivity|reflexivity]|].
    assert (GP : ghost (put (f_c D F) p c') (put F0 p c') (fun p => sent_to p tr)).
    { apply ghost_put; try assumption. subst c'. destruct (s_cur (fc_st (f_c D F p))); [destruct (dispatch_send (g p) (fc_st (f_c D F p)))|]; reflexivity. }
    split; [intros q; rewrite EC; apply GP|].
    intros ND q. rewrite EC. unfold put. destruct (Nat.eqb q p); [exact NB|exact (LV ND q)].
  - destruct (fc_wait (f_c D F p)) eqn:WT; [|discriminate]. destruct (fc_bad (f_c D F p)) eqn:BD; [discriminate|]. cbn [negb andb] in ST.
    destruct (s_out (fc_st (f_c D F p))) eqn:SO; [|discriminate]. destruct (fc_fly (f_c D F p)) eqn:FE; [|discriminate]. injection ST as <- <-.
    assert (UE : forall q, user_of q (ls ++ [FReturn p]) = put (fun k => user_of k ls) p (user_of p ls ++ [LReturn]) q).
    { intros q. rewrite user_app. unfold put. cbn. rewrite (Nat.eqb_sym p q). destruct (Nat.eqb_spec q p) as [->|]; [reflexivity|apply app_nil_r]. }
    assert (EF : F0 p = f_c D F p) by (apply (GH p), BD).
    pose proof (sim_return D rd wr cf g d0 _ _ _ _ _ _ _ p S ltac:(rewrite EF; exact WT) ltac:(rewrite EF; exact SO) ltac:(rewrite EF; exact FE)) as S'. cbn zeta in S'. rewrite EF, BD in S'.
    eexists wls, _. cbn [with_client f_w f_c]. rewrite app_nil_r. split; [exact R|]. split; [exact GL|]. split; [eapply sim_ext; [exact S'|intros; reflexivity|exact UE|intros; reflexivity|intros; reflexivity|reflexivity|reflexivity|reflexivity]|].
    split; [apply ghost_put; try assumption; reflexivity|].
    intros ND q. unfold put. destruct (Nat.eqb q p); [reflexivity|exact (LV ND q)].
  - destruct (fc_bad (f_c D F p)) eqn:BD; [discriminate|]. destruct (Nat.ltb_spec 0 k) as [K0|]; [|discriminate]. destruct (Nat.leb_spec k (length (s_out (fc_st (f_c D F p))))) as [K1|]; [|discriminate]. cbn [andb negb] in ST.
    assert (EF : F0 p = f_c D F p) by (apply (GH p), BD).
    destruct (sim_chunk D rd wr cf t g H d0 _ _ _ _ _ _ _ p k S K0 ltac:(rewrite EF; exact K1)) as (GB & NE & S'). cbn zeta in *. rewrite EF in *.
    set (bs := firstn k (s_out (fc_st (f_c D F p)))) in *. rewrite (chunk_bytes_of t (g p) T (H p) bs GB) in ST.
    destruct (arrive D t allow (f_w D F) p (chunk t (map req_of bs))) as (W1, out) eqn:AR. injection ST as <- <-.
    assert (WS : wstep (f_w D F) (WChunk p (map req_of bs)) = Some (W1, [XMan p (TChunk (map req_of bs)) out])).
    { cbn [CHub.wstep]. unfold arrive in AR. destruct (man_step allow (c_man D (f_w D F) p) (MChunk (chunk t (map req_of bs)))) as ((m0, cs), o0). injection AR as <- <-. reflexivity. }
    assert (HU : c_hub D W1 = c_hub D (f_w D F)). { unfold arrive in AR. destruct (man_step _ _ _) as ((m0, cs), o0). injection AR as <- <-. reflexivity. }
    pose proof (wrun_snoc _ _ _ _ _ _ _ R WS) as R'. change (map (fun b => bytes_of (skipn 2 (b_send b))) bs) with (map req_of bs) in *.
    eexists (wls ++ [WChunk p (map req_of bs)]), _. split; [exact R'|]. cbn [f_w f_c]. split; [apply Forall_app; split; [exact GL|]; constructor; [exact (good_bufs t (g p) T (H p) bs NE GB)|constructor]|].
    destruct (C89_clients D exec false depth absmax lag t allow wls W0 _ tr T AL D1 A1 LAG BG GL R) as (m & k' & c & n & MN & _ & _ & EX & RU & _ & _).
    { rewrite hl_app in PR. eapply along_prefix, PR. }
    pose proof (sim_more D rd wr cf t g H d0 _ _ _ _ _ _ _ [] (fun q => sent_to q [XMan p (TChunk (map req_of bs)) out]) S') as S2.
    specialize (S2 ltac:(rewrite map_length, <- (map_length fst), EX, map_length, firstn_length; lia)).
    split; [eapply sim_ext; [exact S2| | | | | | |]|].
    + intros q. reflexivity.
    + intros q. rewrite user_app. cbn. apply app_nil_r.
    + intros q. rewrite cb_app. unfold put. cbn. rewrite (Nat.eqb_sym p q). destruct (Nat.eqb_spec q p) as [->|]; [reflexivity|apply app_nil_r].
    + intros q. apply st_app.
    + rewrite hl_app. cbn. rewrite !app_nil_r. reflexivity.
    + rewrite he_app. cbn. rewrite !app_nil_r. reflexivity.
    + rewrite HU. reflexivity.
    + split.
      * pose proof (ghost_put _ _ _ p (mkFc (set_out (fc_st (f_c D F p)) (skipn k (s_out (fc_st (f_c D F p))))) (fc_wait (f_c D F p)) (fc_bad (f_c D F p)) (fc_fly (f_c D F p) ++ [bs]) (fc_in (f_c D F p))) GH BD BD eq_refl) as G1.
        pose proof (ghost_give _ _ _ [XMan p (TChunk (map req_of bs)) out] G1 (fun q => sim_in _ _ _ _ _ _ _ _ q S')) as G2. intros q. rewrite st_app. rewrite BD in *. apply G2.
      * intros ND q. cbn [give fc_bad]. unfold put. specialize (LV (DL ND) q). destruct (Nat.eqb q p); [reflexivity|exact LV].
  - destruct (fc_bad (f_c D F p)) eqn:BD; [discriminate|]. destruct (fc_fly (f_c D F p)) as [|bs q] eqn:FE; [discriminate|]. destruct (fc_in (f_c D F p)) as [|r rest] eqn:IE; [discriminate|].
    rewrite hl_app in PR. pose proof (along_prefix D exec false depth absmax _ _ _ _ PR) as PR1.
    destruct (C89_clients D exec false depth absmax lag t allow wls W0 _ tr T AL D1 A1 LAG BG GL R PR1) as (m & k & c & n & MN & _ & EC & EX & _ & LV0 & VW).
    destruct (VW p) as (_ & CB & j & _ & SN). rewrite mine_app in SN.
    assert (FO' : forall q, Forall op_ok (calls (user_of q ls))). { intros z. specialize (FO z). rewrite user_app, calls_app in FO. apply Forall_app in FO. apply FO. }
    assert (LY : length (map snd (execs (hub_events tr))) = n) by (rewrite map_length, <- (map_length fst), EX, map_length, firstn_length; lia).
    destruct (proj1 (GH p) BD) as (EF & AO).
    set (E0 := mine p (map (error_to t c) (firstn k (skipn m (asked (hub_labels tr)))))) in *.
    assert (EE : Forall (fun r => exists c, error_code c /\ r = mkR (Some t) c []) E0).
    { subst E0. unfold mine. apply Forall_map, Forall_forall. intros x I. apply filter_In in I. destruct I as (I & _). apply in_map_iff in I. destruct I as (y & <- & _). exists c. split; [exact EC|reflexivity]. }
    pose proof (sim_back D rd wr cf t g T H d0 _ _ _ _ _ _ _ p m j bs q r rest E0 S FO' ltac:(lia) ltac:(lia) (ex_intro _ _ CB) SN EE ltac:(rewrite EF; exact FE) ltac:(rewrite EF; exact IE) ltac:(rewrite EF; exact AO)) as S'. cbn zeta in S'. rewrite EF in S'.
    destruct (if room_of bs <? _ then _ else _) as (h, ok). destruct S' as (OK & S'). injection ST as <- <-. rewrite app_nil_r. cbn [orb].
    assert (UE : forall z, user_of z (ls ++ [FBack p]) = user_of z ls) by (intros z; rewrite user_app; cbn; apply app_nil_r).
    assert (LV' : ~ dead (f_w D F) -> ok = true). { intros ND. apply OK. destruct (LV0 ND) as (-> & _). subst E0. reflexivity. }
    destruct ok; cbn [negb].
    + destruct (S' eq_refl) as (S2 & AO2). eexists wls, _. cbn [with_client f_w f_c]. split; [exact R|]. split; [exact GL|]. rewrite BD in S2.
      split; [eapply sim_ext; [exact S2|intros; reflexivity|exact UE|intros; reflexivity|intros; reflexivity|reflexivity|reflexivity|reflexivity]|]. split.
      * intros z. unfold put. destruct (Nat.eqb_spec z p) as [->|]; [|apply GH]. cbn [fc_bad fc_in]. split; [|discriminate]. intros _. split; [reflexivity|exact AO2].
      * intros ND z. unfold put. destruct (Nat.eqb z p); [reflexivity|exact (LV ND z)].
    + exists wls, F0. cbn [with_client f_w f_c]. split; [exact R|]. split; [exact GL|].
      split; [eapply sim_ext; [exact S|intros; reflexivity|exact UE|intros; reflexivity|intros; reflexivity|reflexivity|reflexivity|reflexivity]|]. split.
      * intros z. unfold put. destruct (Nat.eqb_spec z p) as [->|]; [|apply GH]. cbn [fc_bad]. split; [discriminate|]. intros _. rewrite EF, FE. discriminate.
      * intros ND. discriminate (LV' ND).
  - destruct wl as [p reqs|p|p|hl]; [discriminate| | |].
    all: match type of ST with context [CHub.wstep _ _ _ _ _ _ _ ?W ?x] => destruct (wstep W x) as [[W1 e1]|] eqn:WS; [|discriminate] end; injection ST as <- <-;
      (eapply inv_hub; [exact BG|exact ED|exact IN0|exact WS|intros; reflexivity|exact I|exact PR|intros; reflexivity|exact DL]).
Qed.

Lemma inv_run W0 ls : forall F tr, begun false depth W0 -> let d0 := v_d _ (w_dev D (c_hub D W0)) in
  (forall p, Forall op_ok (calls (user_of p ls))) -> (forall p, Forall op_words (calls (user_of p ls))) ->
  frun (init_full D W0) ls = Some (F, tr) ->
  along hstep (prompt false lag) (c_hub D W0) (hub_labels tr) -> Inv d0 W0 ls F tr.
Proof using All.
  induction ls as [|l ls IH] using rev_ind; intros F tr BG d0 FO FW R PR.
  - injection R as <- <-. exists [], (fun _ => mkFc init_st false false [] []). split; [reflexivity|]. split; [constructor|]. split; [|split].
    + exists [], (init_shared D d0). split; [reflexivity|]. split; [reflexivity|].
      intros p. exists [], [], [], [], []. cbn. repeat split; auto; try (constructor; fail); destruct ms; discriminate.
    + intros p. split; [|discriminate]. intros _. split; [reflexivity|constructor].
    + reflexivity.
  - destruct (frun_snoc _ _ _ _ _ R) as (F1 & tr1 & e & R1 & ST & ->).
    assert (I1 : Inv d0 W0 ls F1 tr1).
    { apply IH; try assumption.
      - intros p. specialize (FO p). rewrite user_app, calls_app in FO. apply Forall_app in FO. apply FO.
      - intros p. specialize (FW p). rewrite user_app, calls_app in FW. apply Forall_app in FW. apply FW.
      - rewrite hl_app in PR. eapply along_prefix, PR. }
    eapply inv_step; eassumption || reflexivity.
Qed.
End F.
