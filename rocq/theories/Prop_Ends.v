(** C100: dispatch() through the ControlHub ends.  Whatever has happened before, and
    although nothing comes from the network any more: the client and the ControlHub
    alone can bring it to an end, in a number of steps that is known, with the
    results or with an exception; the only other case is that of [Prop_Live.v], that
    a request came when the device client had stopped. *)
From Verif Require Import Word Bits Header ValMem Client Validate Target Spec System.
From Verif Require Tcp.
From Verif Require Import Tx E2E Devices Shared SharedSpec E2ECor Prop_E2E.
From Verif Require Import Hub HubSpec HubProofs HubInv HubAsk HubSafe Manager ManSpec Prop_Hub Prop_Manager CHub CHubSpec Prop_CHub Full FullSpec FullWords FullBytes FullSim FullProofs Prop_Live Prop_Full.
From Coq Require Import NArith ZArith List Lia Bool PeanoNat ZifyBool ZifyNat ZifyN.
Import ListNotations.
Open Scope N_scope.
Ltac Zify.zify_post_hook ::= idtac.

(** The steps of the ControlHub itself and of client [p] in dispatch(): nothing comes
    from the network, and no user calls anything. *)
Definition served (p : nat) (l : flabel) : bool :=
  match l with FChunk q _ | FBack q | FReturn q => Nat.eqb q p | FHub w => wown w | _ => false end.
Definition hub_step (l : flabel) : bool := match l with FHub w => wown w | _ => false end.
(** The packets the clients have sent. *)
Definition packets (tr : list wev) : nat := list_sum (map (fun v => match v with XMan _ (TChunk reqs) _ => length reqs | _ => 0%nat end) tr).
(** The steps of the ControlHub itself, as they are seen. *)
Definition own_event (v : wev) : bool := match v with XHub (LCast _) _ => true | XHub l _ => own_step l | XMan _ (TResp _ _) _ => true | XMan _ _ _ => false end.

Section E.
Variable D : Type.
Variable rd : D -> N -> D * N.
Variable wr : D -> N -> N -> D.
Variable cf : D -> N -> D * N.
Variable depth absmax : nat.
Variable t : target.
Variable allow : target -> bool.
Variable g : nat -> cfg.
Notation exec := (dev_exec D rd wr cf).
Notation wstep := (CHub.wstep D exec false depth absmax t allow).
Notation wrun := (CHub.wrun D exec false depth absmax t allow).
Notation fstep := (Full.fstep D rd wr cf depth absmax t allow g).
Notation frun := (Full.frun D rd wr cf depth absmax t allow g).

Lemma frun_app a : forall F F1 e1 b F2 e2, frun F a = Some (F1, e1) -> frun F1 b = Some (F2, e2) -> frun F (a ++ b) = Some (F2, e1 ++ e2).
Proof.
  induction a as [|l a IH]; intros F F1 e1 b F2 e2 R1 R2; cbn [app Full.frun] in *; [injection R1 as <- <-; exact R2|].
  destruct (fstep F l) as [[F3 e3]|]; [|discriminate]. destruct (frun F3 a) as [[F4 e4]|] eqn:R; [|discriminate]. injection R1 as <- <-. rewrite (IH _ _ _ _ _ _ R R2), app_assoc. reflexivity.
Qed.

(** What is seen of a step. *)
Lemma wstep_seen W l W' e : wstep W l = Some (W', e) -> length (filter own_event e) = (if wown l then 1 else 0)%nat /\ packets e = requests [l].
Proof.
  intros S. destruct l as [p reqs|p|p|l]; cbn [CHub.wstep] in S.
  - destruct (man_step _ _ _) as ((m, cs), out). injection S as <- <-. split; [reflexivity|]. unfold packets, requests. cbn. lia.
  - destruct (c_out D W p); [discriminate|]. destruct (Hub.step _ _ _ _ _ _ _) as [(w, ev)|]; [|discriminate]. injection S as <- <-. split; reflexivity.
  - destruct (c_in D W p) as [|(c, d) rest]; [discriminate|]. destruct (man_step _ _ _) as ((m, cs), out). injection S as <- <-. split; reflexivity.
  - destruct l; try discriminate; (destruct (Hub.step _ _ _ _ _ _ _) as [(w, ev)|]; [|discriminate]; injection S as <- <-; split; reflexivity).
Qed.
Lemma packets_app a b : packets (a ++ b) = (packets a + packets b)%nat.
Proof. unfold packets. rewrite map_app, list_sum_app. reflexivity. Qed.
Lemma wrun_seen ls : forall W W' tr, wrun W ls = Some (W', tr) -> length (filter own_event tr) = count wown ls /\ packets tr = requests ls.
Proof.
  induction ls as [|l ls IH]; intros W W' tr R; cbn [CHub.wrun] in R; [injection R as <- <-; split; reflexivity|].
  destruct (wstep W l) as [[W1 e1]|] eqn:S; [|discriminate]. destruct (wrun W1 ls) as [[W2 e2]|] eqn:R1; [|discriminate]. injection R as <- <-.
  destruct (IH _ _ _ R1) as (I1 & I2). destruct (wstep_seen _ _ _ _ S) as (S1 & S2). rewrite filter_app, app_length, packets_app, S1, S2, I1, I2. unfold count, requests, list_sum. cbn [filter map fold_right]. destruct (wown l); cbn [length]; split; lia.
Qed.
Lemma fstep_seen F l F' e : fstep F l = Some (F', e) -> length (filter own_event e) = (if hub_step l then 1 else 0)%nat.
Proof.
  intros S. destruct l as [p o|p|p|p k|p|wl]; cbn [Full.fstep] in S.
  - destruct (_ || _); [discriminate|]. destruct (run_op _ _ _); injection S as <- <-; reflexivity.
  - destruct (_ || _); [discriminate|]. destruct (s_cur _); [destruct (dispatch_send _ _)|]; injection S as <- <-; reflexivity.
  - destruct (_ && _); [|discriminate]. destruct (s_out _); [|discriminate]. destruct (fc_fly _); [|discriminate]. injection S as <- <-. reflexivity.
  - destruct (_ && _); [|discriminate]. destruct (arrive _ _ _ _ _ _) as (W, out). injection S as <- <-. reflexivity.
  - destruct (fc_bad _); [discriminate|]. destruct (fc_fly _) as [|bs q]; [discriminate|]. destruct (fc_in _); [discriminate|]. destruct (if room_of bs <? _ then _ else _) as (h, ok). injection S as <- <-. reflexivity.
  - destruct wl as [p reqs|p|p|hl]; [discriminate| | |];
      match type of S with context [CHub.wstep _ _ _ _ _ _ _ ?W ?x] => destruct (wstep W x) as [[W1 e1]|] eqn:WS; [|discriminate] end; injection S as <- <-; apply wstep_seen in WS; apply WS.
Qed.
Lemma frun_seen ls : forall F F' tr, frun F ls = Some (F', tr) -> length (filter own_event tr) = count hub_step ls.
Proof.
  induction ls as [|l ls IH]; intros F F' tr R; cbn [Full.frun] in R; [injection R as <- <-; reflexivity|].
  destruct (fstep F l) as [[F1 e1]|] eqn:S; [|discriminate]. destruct (frun F1 ls) as [[F2 e2]|] eqn:R1; [|discriminate]. injection R as <- <-.
  rewrite filter_app, app_length, (fstep_seen _ _ _ _ S), (IH _ _ _ R1). unfold count. cbn [filter]. destruct (hub_step l); reflexivity.
Qed.

(** Steps of the ControlHub. *)
Lemma give_nil c p : give c [] p = c p.
Proof. unfold give. cbn [flat_map]. rewrite app_nil_r. destruct (c p); reflexivity. Qed.
Lemma give_app c a b p : give c (a ++ b) p = give (give c a) b p.
Proof. unfold give. cbn [fc_st fc_wait fc_bad fc_fly fc_in]. rewrite flat_map_app, app_assoc. reflexivity. Qed.
Lemma give_ext c c' e p : c p = c' p -> give c e p = give c' e p.
Proof. unfold give. intros ->. reflexivity. Qed.
Lemma lift_hub ls : forall F W' tr, Forall (fun l => wown l = true) ls -> wrun (f_w D F) ls = Some (W', tr) ->
  exists F', frun F (map FHub ls) = Some (F', tr) /\ f_w D F' = W' /\ forall p, f_c D F' p = give (f_c D F) tr p.
Proof.
  induction ls as [|l ls IH]; intros F W' tr O R; cbn [CHub.wrun] in R.
  - injection R as <- <-. exists F. split; [reflexivity|]. split; [reflexivity|]. intros p. symmetry. apply give_nil.
  - inversion O as [|? ? O1 O2]; subst. destruct (wstep (f_w D F) l) as [[W1 e1]|] eqn:S; [|discriminate]. destruct (wrun W1 ls) as [[W2 e2]|] eqn:R1; [|discriminate]. injection R as <- <-.
    destruct (IH (mkFull D (give (f_c D F) e1) W1) _ _ O2 R1) as (F' & RF & EW & EC).
    assert (FS : fstep F (FHub l) = Some (mkFull D (give (f_c D F) e1) W1, e1)). { destruct l; [discriminate| | |]; cbn [Full.fstep]; rewrite S; reflexivity. }
    exists F'. cbn [map Full.frun]. rewrite FS, RF. split; [reflexivity|]. split; [exact EW|]. intros p. rewrite EC. cbn [f_c]. symmetry. apply give_app.
Qed.

(** The client takes the replies. *)
Lemma backs p : forall n F, fc_bad (f_c D F p) = false -> length (fc_fly (f_c D F p)) = n -> length (fc_in (f_c D F p)) = n ->
  exists m F', (m <= n)%nat /\ frun F (repeat (FBack p) m) = Some (F', []) /\
    (fc_bad (f_c D F' p) = true \/ fc_bad (f_c D F' p) = false /\ fc_fly (f_c D F' p) = [] /\ fc_wait (f_c D F' p) = fc_wait (f_c D F p) /\ s_out (fc_st (f_c D F' p)) = s_out (fc_st (f_c D F p))).
Proof.
  induction n as [|n IH]; intros F BD L1 L2.
  - exists 0%nat, F. split; [lia|]. split; [reflexivity|]. right. split; [exact BD|]. split; [destruct (fc_fly (f_c D F p)); [reflexivity|discriminate]|]. auto.
  - destruct (fc_fly (f_c D F p)) as [|bs q] eqn:FE; [discriminate|]. destruct (fc_in (f_c D F p)) as [|r rest] eqn:IE; [discriminate|].
    set (x := if room_of bs <? N.of_nat (length r) then (s_heap (fc_st (f_c D F p)), false) else take_replies (g p) (s_heap (fc_st (f_c D F p))) bs (words_of r)).
    set (F1 := with_client D F p (mkFc (set_heap (fc_st (f_c D F p)) (fst x)) (fc_wait (f_c D F p)) (negb (snd x)) q rest)).
    assert (FS : fstep F (FBack p) = Some (F1, [])). { cbn [Full.fstep]. rewrite BD, FE, IE. fold x. subst F1. destruct x as (h, ok). reflexivity. }
    assert (C1 : f_c D F1 p = mkFc (set_heap (fc_st (f_c D F p)) (fst x)) (fc_wait (f_c D F p)) (negb (snd x)) q rest) by (subst F1; cbn [with_client f_c]; apply put_same).
    destruct (snd x) eqn:OK.
    + destruct (IH F1) as (m & F' & M & R & E); try (rewrite C1; cbn [fc_bad fc_fly fc_in negb] in *; cbn [length] in *; try reflexivity; lia).
      exists (S m), F'. split; [lia|]. cbn [repeat Full.frun]. rewrite FS, R. split; [reflexivity|]. rewrite C1 in E. exact E.
    + exists 1%nat, F1. split; [lia|]. cbn [repeat Full.frun]. rewrite FS. split; [reflexivity|]. left. rewrite C1. reflexivity.
Qed.
End E.

(** In every execution: the ControlHub makes at most so many steps of its own as the
    packets allow. *)
Theorem C100_bounded : forall D rd wr cf depth absmax lag t allow g W0 ls F tr,
  reads32 rd -> reads32 cf -> good_target t -> allow t = true ->
  (1 <= depth)%nat -> (1 <= absmax)%nat -> N.of_nat (lag + window depth absmax + depth) < 65534 ->
  (forall p, hub_client t (g p)) -> begun false depth W0 ->
  (forall p, Forall op_ok (calls (user_of p ls))) -> (forall p, Forall op_words (calls (user_of p ls))) ->
  frun D rd wr cf depth absmax t allow g (init_full D W0) ls = Some (F, tr) ->
  along (Hub.step D (dev_exec D rd wr cf) false depth absmax) (prompt false lag) (c_hub D W0) (hub_labels tr) ->
  (count hub_step ls <= 42 * packets tr + 33)%nat.
Proof.
  intros D rd wr cf depth absmax lag t allow g W0 ls F tr RD CF T AL D1 A1 LAG H BG FO FW R PR.
  destruct (inv_run D rd wr cf depth absmax lag t allow g RD CF T AL D1 A1 LAG H W0 ls F tr BG FO FW R PR) as (wls & F0 & WR & GL & _).
  destruct (C99_answered D _ false depth absmax lag t allow wls W0 _ tr T AL D1 A1 LAG BG GL WR PR) as (BN & _).
  destruct (wrun_seen D rd wr cf depth absmax t allow g _ _ _ _ WR) as (S1 & S2). rewrite <- (frun_seen D rd wr cf depth absmax t allow g _ _ _ _ R), S1, S2. exact BN.
Qed.

(** In every state a client in dispatch() can be brought to the end of it. *)
Theorem C100_ends : forall D rd wr cf depth absmax lag t allow g W0 ls F tr p,
  reads32 rd -> reads32 cf -> good_target t -> allow t = true ->
  (1 <= depth)%nat -> (1 <= absmax)%nat -> N.of_nat (lag + window depth absmax + depth) < 65534 ->
  (forall p, hub_client t (g p)) -> begun false depth W0 ->
  (forall p, Forall op_ok (calls (user_of p ls))) -> (forall p, Forall op_words (calls (user_of p ls))) ->
  frun D rd wr cf depth absmax t allow g (init_full D W0) ls = Some (F, tr) ->
  along (Hub.step D (dev_exec D rd wr cf) false depth absmax) (prompt false lag) (c_hub D W0) (hub_labels tr) ->
  let c := f_c D F p in fc_wait c = true -> fc_bad c = false ->
  exists ls' F' tr', Forall (fun l => served p l = true) ls' /\
    (length ls' <= 42 * (packets tr + length (s_out (fc_st c))) + length (fc_fly c) + 36)%nat /\
    frun D rd wr cf depth absmax t allow g F ls' = Some (F', tr') /\
    along (Hub.step D (dev_exec D rd wr cf) false depth absmax) (prompt false lag) (c_hub D W0) (hub_labels (tr ++ tr')) /\
    (fc_wait (f_c D F' p) = false /\ user_of p ls' = [LReturn] \/ fc_bad (f_c D F' p) = true \/ lost_of p (tr ++ tr')).
Proof.
  intros D rd wr cf depth absmax lag t allow g W0 ls F tr p RD CF T AL D1 A1 LAG H BG FO FW R PR c WT BD.
  (* with nothing left to send *)
  assert (K : forall ls F tr, (forall p, Forall op_ok (calls (user_of p ls))) -> (forall p, Forall op_words (calls (user_of p ls))) ->
    frun D rd wr cf depth absmax t allow g (init_full D W0) ls = Some (F, tr) ->
    along (Hub.step D (dev_exec D rd wr cf) false depth absmax) (prompt false lag) (c_hub D W0) (hub_labels tr) ->
    fc_wait (f_c D F p) = true -> fc_bad (f_c D F p) = false -> s_out (fc_st (f_c D F p)) = [] ->
    exists ls' F' tr', Forall (fun l => served p l = true) ls' /\
      (length ls' <= 42 * packets tr + length (fc_fly (f_c D F p)) + 34)%nat /\
      frun D rd wr cf depth absmax t allow g F ls' = Some (F', tr') /\
      along (Hub.step D (dev_exec D rd wr cf) false depth absmax) (prompt false lag) (c_hub D W0) (hub_labels (tr ++ tr')) /\
      (fc_wait (f_c D F' p) = false /\ user_of p ls' = [LReturn] \/ fc_bad (f_c D F' p) = true \/ lost_of p (tr ++ tr'))).
  { clear ls F tr FO FW R PR c WT BD. intros ls F tr FO FW R PR WT BD SO.
    destruct (inv_run D rd wr cf depth absmax lag t allow g RD CF T AL D1 A1 LAG H W0 ls F tr BG FO FW R PR) as (wls & F0 & WR & GL & S & GH & _).
    destruct (wrun_seen D rd wr cf depth absmax t allow g _ _ _ _ WR) as (_ & PK).
    destruct (C99_finish D _ false depth absmax lag t allow wls W0 _ tr p T AL D1 A1 LAG BG GL WR PR) as (ls' & W' & tr' & OW & LN & WR' & PR' & FIN).
    destruct (lift_hub D rd wr cf depth absmax t allow g ls' F W' tr' OW WR') as (F1 & R1 & EW & EC).
    assert (OWs : Forall (fun l => served p l = true) (map FHub ls')) by (apply Forall_map; exact OW).
    destruct FIN as [AN|LO].
    2:{ exists (map FHub ls'), F1, tr'. split; [exact OWs|]. split; [rewrite map_length; lia|]. split; [exact R1|]. split; [exact PR'|]. auto. }
    destruct (proj1 (GH p) BD) as (EF & _). destruct S as (sls & s & _ & _ & C). destruct (C p) as (R0 & xsR & xsX & X & O & C1 & C2 & C3 & _). rewrite EF in C1, C2.
    assert (LF : length (fc_in (f_c D F1 p)) = length (fc_fly (f_c D F1 p))).
    { rewrite EC. unfold give. cbn [fc_in fc_fly]. rewrite app_length, C2, map_length, skipn_length.
      assert (L1 : length (sent_to p (tr ++ tr')) = length (chunks_by p wls)) by (apply (f_equal (@length _)) in AN; rewrite !map_length in AN; exact AN).
      rewrite st_app, app_length, C1, map_length, app_length in L1.
      match goal with |- (_ + length (flat_map ?f tr') = _)%nat => assert (L2 : length (flat_map f tr') = length (sent_to p tr')) end.
      { clear. induction tr' as [|[l x|q x o] e IH]; [reflexivity|exact IH|]. unfold sent_to in *. cbn [flat_map]. rewrite !app_length, IH. destruct (Nat.eqb q p); [rewrite map_length|]; reflexivity. }
      rewrite L2. lia. }
    assert (B1 : fc_bad (f_c D F1 p) = false) by (rewrite EC; exact BD).
    assert (FL1 : fc_fly (f_c D F1 p) = fc_fly (f_c D F p)) by (rewrite EC; reflexivity).
    destruct (backs D rd wr cf depth absmax t allow g p _ F1 B1 eq_refl LF) as (m & F2 & M & R2 & E2).
    assert (Rp : Forall (fun l => served p l = true) (repeat (FBack p) m)) by (apply Forall_forall; intros l I; apply repeat_spec in I; subst l; cbn; apply Nat.eqb_refl).
    pose proof (frun_app D rd wr cf depth absmax t allow g _ _ _ _ _ _ _ R1 R2) as R12. rewrite app_nil_r in R12.
    destruct E2 as [B2|(B2 & F2e & W2 & S2)].
    - exists (map FHub ls' ++ repeat (FBack p) m), F2, tr'. split; [apply Forall_app; auto|]. split; [rewrite app_length, map_length, repeat_length; rewrite FL1 in M; lia|]. split; [exact R12|]. split; [exact PR'|]. auto.
    - set (F3 := with_client D F2 p (mkFc (fc_st (f_c D F2 p)) false false [] (fc_in (f_c D F2 p)))).
      assert (R3 : frun D rd wr cf depth absmax t allow g F2 [FReturn p] = Some (F3, [])).
      { cbn [Full.frun Full.fstep]. rewrite W2, B2, S2, F2e, EC. cbn [give fc_wait fc_st fc_bad]. rewrite WT, SO. reflexivity. }
      exists ((map FHub ls' ++ repeat (FBack p) m) ++ [FReturn p]), F3, tr'. split; [apply Forall_app; split; [apply Forall_app; auto|constructor; [cbn; apply Nat.eqb_refl|constructor]]|].
      split; [rewrite !app_length, map_length, repeat_length; cbn [length]; rewrite FL1 in M; lia|]. split; [rewrite <- (app_nil_r tr'); eapply frun_app; [exact R12|exact R3]|]. split; [exact PR'|]. left.
      split; [subst F3; cbn [with_client f_c]; rewrite put_same; reflexivity|]. unfold user_of. rewrite !flat_map_app. cbn [flat_map]. rewrite Nat.eqb_refl.
      assert (N1 : forall l, flat_map (fun l0 => match l0 with FOp q o => if Nat.eqb q p then [LOp o] else [] | FDispatch q => if Nat.eqb q p then [LDispatch] else [] | FReturn q => if Nat.eqb q p then [LReturn] else [] | _ => [] end) (map FHub l) = []) by (clear; induction l; [reflexivity|assumption]).
      rewrite N1. clear. induction m; [reflexivity|assumption]. }
  destruct (s_out (fc_st c)) as [|b bs] eqn:SO.
  - destruct (K ls F tr FO FW R PR WT BD SO) as (ls' & F' & tr' & A & B & E). exists ls', F', tr'. split; [exact A|]. split; [|exact E]. fold c in B. lia.
  - (* first everything is sent *)
    set (k := length (s_out (fc_st c))).
    assert (X : exists F1 out, fstep D rd wr cf depth absmax t allow g F (FChunk p k) = Some (F1, [XMan p (TChunk (map (fun b => bytes_of (skipn 2 (b_send b))) (s_out (fc_st c)))) out]) /\
      fc_wait (f_c D F1 p) = true /\ fc_bad (f_c D F1 p) = false /\ s_out (fc_st (f_c D F1 p)) = [] /\ fc_fly (f_c D F1 p) = fc_fly c ++ [s_out (fc_st c)]).
    { cbn [fstep]. fold c. rewrite BD. cbn [negb andb]. assert (K0 : (0 < k)%nat) by (subst k; rewrite SO; cbn; lia). destruct (Nat.ltb_spec 0 k); [|lia]. destruct (Nat.leb_spec k (length (s_out (fc_st c)))); [|subst k; lia]. cbn [andb].
      unfold k. rewrite !firstn_all, skipn_all. destruct (arrive _ _ _ _ _ _) as (W1, out). do 2 eexists. split; [reflexivity|]. cbn [f_c]. unfold give. cbn [fc_wait fc_bad fc_st fc_fly]. rewrite !put_same. cbn [fc_wait fc_bad fc_st fc_fly set_out s_out]. auto. }
    destruct X as (F1 & out & FS & W1 & B1 & S1 & FL1). set (e1 := [XMan p _ out]) in *.
    assert (R1 : frun D rd wr cf depth absmax t allow g F [FChunk p k] = Some (F1, e1)) by (cbn [Full.frun]; rewrite FS, app_nil_r; reflexivity).
    assert (U1 : forall q, user_of q (ls ++ [FChunk p k]) = user_of q ls) by (intros q; rewrite user_app; cbn; apply app_nil_r).
    assert (P1 : along (Hub.step D (dev_exec D rd wr cf) false depth absmax) (prompt false lag) (c_hub D W0) (hub_labels (tr ++ e1))) by (rewrite hl_app; cbn; rewrite app_nil_r; exact PR).
    destruct (K (ls ++ [FChunk p k]) F1 (tr ++ e1)) as (ls' & F' & tr' & A & B & RR & PP & E); try assumption; try (intros q; rewrite U1; trivial).
    { eapply frun_app; eassumption. }
    exists (FChunk p k :: ls'), F', (e1 ++ tr'). split; [constructor; [cbn; apply Nat.eqb_refl|exact A]|]. split.
    { rewrite FL1, app_length, packets_app in B. unfold e1, packets, list_sum in B. cbn [map fold_right length] in B. rewrite map_length in B. rewrite ?SO in B. cbn [length] in B |- *. unfold packets, list_sum. lia. }
    split; [apply (frun_app D rd wr cf depth absmax t allow g [_] _ _ _ _ _ _ R1 RR)|]. rewrite <- app_assoc in PP, E. split; [exact PP|]. exact E.
Qed.

(** The first user of [Prop_Full.v] waits; the reply to the first packet is lost, and
    nothing comes from the network any more. *)
Definition eve : list flabel := firstn 21 day.
Definition eve_tr : list wev := Eval vm_compute in match frun mem ram_rd mem_wr mem_cf 4 16 tgt (fun _ => true) hubcfg (init_full mem whole0) eve with Some (_, tr) => tr | None => [] end.
Example C100_case :
  (forall p, Forall op_ok (calls (user_of p eve))) /\ (forall p, Forall op_words (calls (user_of p eve))) /\ count hub_step eve = 6%nat /\ packets eve_tr = 3%nat /\
  exists F, frun mem ram_rd mem_wr mem_cf 4 16 tgt (fun _ => true) hubcfg (init_full mem whole0) eve = Some (F, eve_tr) /\
    along (Hub.step mem (dev_exec mem ram_rd mem_wr mem_cf) false 4 16) (prompt false 10) (c_hub mem whole0) (hub_labels eve_tr) /\
    fc_wait (f_c mem F 0%nat) = true /\ fc_bad (f_c mem F 0%nat) = false /\ length (fc_fly (f_c mem F 0%nat)) = 2%nat /\
    exists n, option_map (fun x => fc_bad (f_c mem (fst x) 0%nat)) (frun mem ram_rd mem_wr mem_cf 4 16 tgt (fun _ => true) hubcfg F (repeat (FHub (WHub LTime)) n ++ [FHub (WRead 0%nat); FBack 0])) = Some true.
Proof.
  split; [intros [|[|p]]; repeat constructor; cbn; lia|]. split; [intros [|[|p]]; repeat constructor; cbn; repeat constructor; reflexivity|]. split; [vm_compute; reflexivity|]. split; [vm_compute; reflexivity|].
  assert (X : option_map (fun x => (fc_wait (f_c mem (fst x) 0%nat), fc_bad (f_c mem (fst x) 0%nat), length (fc_fly (f_c mem (fst x) 0%nat)), snd x))
    (frun mem ram_rd mem_wr mem_cf 4 16 tgt (fun _ => true) hubcfg (init_full mem whole0) eve) = Some (true, false, 2%nat, eve_tr)) by (vm_compute; reflexivity).
  assert (Y : match frun mem ram_rd mem_wr mem_cf 4 16 tgt (fun _ => true) hubcfg (init_full mem whole0) eve with
              | Some (F, _) => option_map (fun x => fc_bad (f_c mem (fst x) 0%nat)) (frun mem ram_rd mem_wr mem_cf 4 16 tgt (fun _ => true) hubcfg F (repeat (FHub (WHub LTime)) 6 ++ [FHub (WRead 0%nat); FBack 0]))
              | None => None
              end = Some true) by (vm_compute; reflexivity).
  destruct (frun mem ram_rd mem_wr mem_cf 4 16 tgt (fun _ => true) hubcfg (init_full mem whole0) eve) as [(F, tr)|]; [|discriminate]. cbn [option_map fst snd] in X. injection X as W B L ->. exists F. split; [reflexivity|].
  split; [clear; timely_run|]. split; [exact W|]. split; [exact B|]. split; [exact L|]. exists 6%nat. exact Y.
Qed.

Print Assumptions C100_bounded.
Print Assumptions C100_ends.
