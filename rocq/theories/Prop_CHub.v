(** C89: the ControlHub from its clients to its target.  Model: [CHub.v]; statements in the
    terms of [CHubSpec.v]. *)
From Coq Require Import NArith ZArith List Bool Lia PeanoNat ZifyBool ZifyNat ZifyN.
From Verif Require Import Hub HubSpec HubProofs HubInv HubAsk HubSafe Manager ManSpec Prop_Hub Prop_Manager CHub CHubSpec.
Import ListNotations.
Open Scope N_scope.

Section C.
Variable D : Type.
Variable exec : D -> bytes -> D * bytes.
Variable hack : bool.
Variable depth absmax lag : nat.
Variable t : target.
Variable allow : target -> bool.
Notation step := (step D exec hack depth absmax).
Notation run := (run D exec hack depth absmax).
Notation wstep := (wstep D exec hack depth absmax t allow).
Notation wrun := (wrun D exec hack depth absmax t allow).
Notation whole := (whole D).

Lemma hl_app a b : hub_labels (a ++ b) = hub_labels a ++ hub_labels b. Proof using Type. apply flat_map_app. Qed.
Lemma he_app a b : hub_events (a ++ b) = hub_events a ++ hub_events b. Proof using Type. apply flat_map_app. Qed.
Lemma eo_app p a b : events_of p (a ++ b) = events_of p a ++ events_of p b. Proof using Type. apply flat_map_app. Qed.
Lemma st_app p a b : sent_to p (a ++ b) = sent_to p a ++ sent_to p b. Proof using Type. apply flat_map_app. Qed.
Lemma cb_app p a b : chunks_by p (a ++ b) = chunks_by p a ++ chunks_by p b. Proof using Type. apply flat_map_app. Qed.
Lemma cast_app p a b : cast_by p (a ++ b) = cast_by p a ++ cast_by p b. Proof using Type. unfold cast_by. rewrite filter_app, map_app. reflexivity. Qed.
Lemma run_one w l w' e : step w l = Some (w', e) -> run w [l] = Some (w', e ++ []).
Proof using Type. intros S. cbn [Hub.run]. rewrite S. reflexivity. Qed.

(** The execution, seen from [Hub.v]. *)
Lemma wstep_hub W l W' e : wstep W l = Some (W', e) -> run (c_hub _ W) (hub_labels e) = Some (c_hub _ W', hub_events e).
Proof using Type.
  intros S. destruct l as [p reqs|p|p|l]; cbn [CHub.wstep] in S.
  - destruct (man_step allow (c_man D W p) _) as [[m cs] out]. injection S as <- <-. reflexivity.
  - destruct (c_out D W p) as [|q rest]; [discriminate|]. destruct (step (c_hub D W) (LCast (mkReq p q))) as [[w e1]|] eqn:ST; [|discriminate].
    injection S as <- <-. apply run_one, ST.
  - destruct (c_in D W p) as [|(c, d) rest]; [discriminate|]. destruct (man_step allow (c_man D W p) _) as [[m cs] out]. injection S as <- <-. reflexivity.
  - destruct l; try discriminate;
    match type of S with context [Hub.step _ _ _ _ _ ?w ?l] => destruct (step w l) as [[w1 e1]|] eqn:ST; [|discriminate] end; injection S as <- <-; apply run_one, ST.
Qed.
Lemma run_app w a : forall w1 e1 b w2 e2, run w a = Some (w1, e1) -> run w1 b = Some (w2, e2) -> run w (a ++ b) = Some (w2, e1 ++ e2).
Proof using Type.
  revert w. induction a as [|l a IH]; intros w w1 e1 b w2 e2 A B; [injection A as <- <-; exact B|]. cbn [Hub.run app] in *.
  destruct (step w l) as [[w3 e3]|]; [|discriminate]. destruct (run w3 a) as [[w4 e4]|] eqn:R; [|discriminate]. injection A as <- <-.
  rewrite (IH _ _ _ _ _ _ R B), app_assoc. reflexivity.
Qed.
Lemma wrun_hub ls : forall W W' tr, wrun W ls = Some (W', tr) -> run (c_hub _ W) (hub_labels tr) = Some (c_hub _ W', hub_events tr).
Proof using Type.
  induction ls as [|l ls IH]; intros W W' tr R; [injection R as <- <-; reflexivity|]. cbn [CHub.wrun] in R.
  destruct (wstep W l) as [[W1 e1]|] eqn:S; [|discriminate]. destruct (wrun W1 ls) as [[W2 e2]|] eqn:RN; [|discriminate]. injection R as <- <-.
  rewrite hl_app, he_app. eapply run_app; [eapply wstep_hub, S|apply (IH _ _ _ RN)].
Qed.

(** The execution, seen from manager [p]: the events, the chunks, the requests cast
    and the messages. *)
Definition mev (e : tevent) : mevent := match e with TChunk reqs => MChunk (chunk t reqs) | TResp c d => MResp (message t c d) end.
Definition resp_for (p : pid) (e : list ev) : list (N * bytes) :=
  flat_map (fun v => match v with EHub (VResp q c d) => if Nat.eqb q p then [(c, d)] else [] | _ => [] end) e.
Definition heard (es : list tevent) : list (N * bytes) := flat_map (fun e => match e with TResp c d => [(c, d)] | _ => [] end) es.
Definition our (cs : list (target * bytes)) : list bytes := map snd (filter (fun x => same_target (fst x) t) cs).
Lemma rf_app p a b : resp_for p (a ++ b) = resp_for p a ++ resp_for p b. Proof using Type. apply flat_map_app. Qed.
Lemma heard_app a b : heard (a ++ b) = heard a ++ heard b. Proof using Type. apply flat_map_app. Qed.
Lemma our_app a b : our (a ++ b) = our a ++ our b. Proof using Type. unfold our. rewrite filter_app, map_app. reflexivity. Qed.

Definition view (p : pid) (W W' : whole) (ls : list wlabel) (tr : list wev) : Prop :=
  exists cs, man_run allow (c_man _ W p) (map mev (events_of p tr)) = (c_man _ W' p, cs, sent_to p tr) /\
    c_out _ W p ++ our cs = cast_by p (asked (hub_labels tr)) ++ c_out _ W' p /\
    c_in _ W p ++ resp_for p (hub_events tr) = heard (events_of p tr) ++ c_in _ W' p /\
    chunks_of (events_of p tr) = chunks_by p ls.

Lemma man_one m e : man_run allow m [e] = (let '(m1, c, o) := man_step allow m e in (m1, c ++ [], o ++ [])).
Proof using Type. cbn [man_run]. destruct (man_step allow m e) as [[m1 c] o]. reflexivity. Qed.
Lemma man_run_app es1 : forall m m1 c1 o1 es2 m2 c2 o2, man_run allow m es1 = (m1, c1, o1) -> man_run allow m1 es2 = (m2, c2, o2) ->
  man_run allow m (es1 ++ es2) = (m2, c1 ++ c2, o1 ++ o2).
Proof using Type.
  induction es1 as [|e es1 IH]; intros m m1 c1 o1 es2 m2 c2 o2 A B; cbn [man_run app] in *; [injection A as <- <- <-; exact B|].
  destruct (man_step allow m e) as [[m3 c3] o3]. destruct (man_run allow m3 es1) as [[m4 c4] o4] eqn:R. injection A as <- <- <-.
  rewrite (IH _ _ _ _ _ _ _ _ R B), !app_assoc. reflexivity.
Qed.

Lemma wstep_view p W l W' e : wstep W l = Some (W', e) -> view p W W' [l] e.
Proof using Type.
  intros S. unfold view. destruct l as [q reqs|q|q|l]; cbn [CHub.wstep] in S.
  - destruct (man_step allow (c_man D W q) _) as [[m cs] out] eqn:MS. injection S as <- <-. cbn [hub_labels hub_events flat_map asked cast_by events_of sent_to chunks_by app c_man c_out c_in]. unfold put.
    rewrite (Nat.eqb_sym p q). destruct (Nat.eqb_spec q p) as [->|NE]; cbn [app map].
    + exists (cs ++ []). rewrite man_one. cbn [mev]. rewrite MS. split; [reflexivity|]. rewrite app_nil_r. split; [reflexivity|]. split; [apply app_nil_r|reflexivity].
    + exists []. cbn. rewrite !app_nil_r. auto.
  - destruct (c_out D W q) as [|x rest] eqn:OU; [discriminate|]. destruct (step (c_hub D W) (LCast (mkReq q x))) as [[w e1]|] eqn:ST; [|discriminate].
    injection S as <- <-. exists []. cbn [hub_labels hub_events flat_map events_of sent_to chunks_by app map c_man c_out c_in man_run]. rewrite !app_nil_r. split; [reflexivity|]. split; [|split; [reflexivity|reflexivity]].
    cbn [asked flat_map app]. unfold cast_by, put. cbn [filter q_pid]. rewrite (Nat.eqb_sym p q). destruct (Nat.eqb_spec q p) as [->|NE]; cbn [map q_pkt app]; [rewrite OU|]; try reflexivity; apply app_nil_r.
  - destruct (c_in D W q) as [|(c, d) rest] eqn:IN; [discriminate|]. destruct (man_step allow (c_man D W q) _) as [[m cs] out] eqn:MS. injection S as <- <-.
    cbn [hub_labels hub_events flat_map asked cast_by events_of sent_to chunks_by app c_man c_out c_in]. unfold put.
    rewrite (Nat.eqb_sym p q). destruct (Nat.eqb_spec q p) as [->|NE]; cbn [app map].
    + exists (cs ++ []). rewrite man_one. cbn [mev]. rewrite MS. split; [reflexivity|]. rewrite IN. cbn. split; [|split; [rewrite app_nil_r; reflexivity|reflexivity]].
      assert (CZ : cs = []). { unfold man_step in MS. destruct (m_dead (c_man D W p)); [injection MS as _ <- _; reflexivity|]. destruct (on_response _ _) as [m0 o0]. injection MS as _ <- _. reflexivity. }
      rewrite CZ. cbn. apply app_nil_r.
    + exists []. cbn. rewrite !app_nil_r. auto.
  - assert (X : exists w e1, step (c_hub D W) l = Some (w, e1) /\ W' = mkWh _ w (c_man D W) (c_out D W) (deliver (c_in D W) e1) /\ e = [XHub l e1] /\ asked [l] = []).
    { destruct l; try discriminate;
      match type of S with context [Hub.step _ _ _ _ _ ?w ?l] => destruct (step w l) as [[w1 e1]|] eqn:ST; [|discriminate] end; injection S as <- <-; eauto 6. }
    destruct X as (w & e1 & ST & -> & -> & AS). exists []. cbn [hub_labels hub_events flat_map events_of sent_to chunks_by app map c_man c_out c_in man_run]. rewrite AS. cbn. rewrite !app_nil_r. auto.
Qed.
Lemma wrun_view p ls : forall W W' tr, wrun W ls = Some (W', tr) -> view p W W' ls tr.
Proof using Type.
  induction ls as [|l ls IH]; intros W W' tr R.
  - injection R as <- <-. exists []. cbn. rewrite !app_nil_r. auto.
  - cbn [CHub.wrun] in R. destruct (wstep W l) as [[W1 e1]|] eqn:S; [|discriminate]. destruct (wrun W1 ls) as [[W2 e2]|] eqn:RN; [|discriminate]. injection R as <- <-.
    destruct (wstep_view p _ _ _ _ S) as (c1 & M1 & O1 & I1 & C1). destruct (IH _ _ _ RN) as (c2 & M2 & O2 & I2 & C2).
    exists (c1 ++ c2). unfold chunks_of in *. rewrite eo_app, map_app, st_app, our_app, hl_app, asked_app, cast_app, he_app, rf_app, heard_app, flat_map_app, C1, C2.
    split; [eapply man_run_app; eauto|]. split; [rewrite app_assoc, O1, <- !app_assoc, O2; reflexivity|]. split; [rewrite app_assoc, I1, <- !app_assoc, I2; reflexivity|].
    change (l :: ls) with ([l] ++ ls). rewrite cb_app. reflexivity.
Qed.

(** The requests cast are requests of the chunks. *)
Hypothesis T : good_target t.
Hypothesis AL : allow t = true.
Lemma cast_chunks es : Forall good_chunk (chunks_of es) -> forall m m' cs out, man_run allow m (map mev es) = (m', cs, out) ->
  (length (our cs) <= length (concat (chunks_of es)))%nat /\ incl (our cs) (concat (chunks_of es)).
Proof using T AL D exec.
  induction es as [|e es IH]; intros F m m' cs out R; [injection R as <- <- <-; split; [cbn; lia|intros x []]|].
  cbn [map man_run] in R. destruct (man_step allow m (mev e)) as [[m1 c1] o1] eqn:MS. destruct (man_run allow m1 (map mev es)) as [[m2 c2] o2] eqn:RN. injection R as <- <- <-.
  assert (CE : chunks_of (e :: es) = chunks_of [e] ++ chunks_of es) by (unfold chunks_of; cbn [flat_map]; rewrite app_nil_r; reflexivity).
  rewrite CE in F |- *. apply Forall_app in F. destruct F as (F1 & F2). destruct (IH F2 _ _ _ _ RN) as (L2 & I2).
  assert (X : (length (our c1) <= length (concat (chunks_of [e])))%nat /\ incl (our c1) (concat (chunks_of [e]))).
  { unfold man_step in MS. destruct (m_dead m); [injection MS as _ <- _; split; [cbn; lia|intros x []]|].
    destruct e as [reqs|c d]; cbn [mev] in MS.
    - cbn in F1. inversion F1; subst. rewrite C88_chunk in MS by assumption. injection MS as _ <- _.
      assert (E : our (map (pair t) reqs) = reqs).
      { unfold our. clear. assert (ST : same_target t t = true) by (unfold same_target; rewrite !N.eqb_refl; reflexivity). induction reqs as [|q reqs IH]; [reflexivity|]. cbn [map filter fst]. rewrite ST. cbn [map snd]. rewrite IH. reflexivity. }
      rewrite E. cbn. rewrite app_nil_r. split; [lia|intros x; auto].
    - destruct (on_response _ _). injection MS as _ <- _. split; [cbn; lia|intros x []]. }
  destruct X as (L1 & I1). rewrite our_app, concat_app, !app_length. split; [lia|].
  intros x X. apply in_app_or in X. apply in_or_app. destruct X as [X|X]; [left; apply I1, X|right; apply I2, X].
Qed.

Hypothesis D1 : (1 <= depth)%nat.
Hypothesis A1 : (1 <= absmax)%nat.
Hypothesis LAG : N.of_nat (lag + window depth absmax + depth) < 65534.

Lemma chunks_good ls : Forall (good_label hack) ls -> forall p, Forall (fun reqs => good_chunk reqs /\ Forall (fun q => control (order hack) q = true) reqs) (chunks_by p ls).
Proof using Type.
  intros F p. induction F as [|l ls G F IH]; [constructor|]. unfold chunks_by in *. cbn [flat_map]. destruct l as [q reqs| | |]; try exact IH.
  destruct (Nat.eqb q p); [|exact IH]. constructor; [exact G|exact IH].
Qed.

Lemma asked_good ls W W' tr : begun hack depth W -> Forall (good_label hack) ls -> wrun W ls = Some (W', tr) ->
  Forall (fun r => control (order hack) (q_pkt r) = true) (asked (hub_labels tr)) /\
  forall p, (length (cast_by p (asked (hub_labels tr))) <= length (concat (chunks_by p ls)))%nat.
Proof using T AL D1 A1 LAG D exec.
  intros (_ & _ & B0) G R.
  assert (X : forall p, incl (cast_by p (asked (hub_labels tr))) (concat (chunks_by p ls)) /\ (length (cast_by p (asked (hub_labels tr))) <= length (concat (chunks_by p ls)))%nat).
  { intros p. destruct (wrun_view p _ _ _ _ R) as (cs & M & O & _ & C). destruct (B0 p) as (_ & OZ & _). rewrite OZ in O. cbn [app] in O.
    assert (F : Forall good_chunk (chunks_of (events_of p tr))) by (rewrite C; eapply Forall_impl; [|apply chunks_good, G]; cbn; tauto).
    destruct (cast_chunks _ F _ _ _ _ M) as (L & I). rewrite C, O in L, I. rewrite app_length in L. split; [|lia]. intros x X. apply I, in_or_app. auto. }
  split; [|intros p; apply X]. apply Forall_forall. intros r I.
  assert (Y : In (q_pkt r) (concat (chunks_by (q_pid r) ls))).
  { apply X. unfold cast_by. apply in_map. apply filter_In. rewrite Nat.eqb_refl. auto. }
  apply in_concat in Y. destruct Y as (reqs & Y1 & Y2). pose proof (chunks_good _ G (q_pid r)) as F. rewrite Forall_forall in F. destruct (F _ Y1) as (_ & F2).
  rewrite Forall_forall in F2. apply F2, Y2.
Qed.

Lemma along_timely ls : forall w, along step (prompt hack lag) w ls -> Forall (fun r => control (order hack) (q_pkt r) = true) (asked ls) -> along step (timely hack lag) w ls.
Proof using Type.
  induction ls as [|l ls IH]; intros w A F; [exact I|]. cbn [along] in *. destruct A as (P & A). change (l :: ls) with ([l] ++ ls) in F. rewrite asked_app in F. apply Forall_app in F. destruct F as (F1 & F2).
  split; [|destruct (step w l) as [[w1 e1]|]; [apply IH; assumption|exact I]].
  destruct l; try exact P. cbn in F1. inversion F1 as [|? ? H _]; subst. cbn [timely]. apply control_fits, H.
Qed.

(** The responses, put together. *)
Definition all_responses (m k : nat) (c : N) (rs : list req) (ys : list bytes) : list (pid * response) :=
  map (reply_to t) (combine (firstn m rs) ys) ++ map (error_to t c) (firstn k (skipn m rs)).

Lemma hub_side ls W W' tr : begun hack depth W -> Forall (good_label hack) ls -> wrun W ls = Some (W', tr) ->
  along step (prompt hack lag) (c_hub _ W) (hub_labels tr) ->
  let reqs := asked (hub_labels tr) in let ys := map snd (execs (hub_events tr)) in
  exists m k c n, (m <= n <= length reqs)%nat /\ (m + k <= length reqs)%nat /\ error_code c /\
    map fst (execs (hub_events tr)) = map (fun r => body (q_pkt r)) (firstn n reqs) /\
    carried exec (v_d _ (w_dev _ (c_hub _ W))) (map fst (execs (hub_events tr))) = (v_d _ (w_dev _ (c_hub _ W')), ys) /\
    (forall p, map (fun x => mkR (Some t) (fst x) (snd x)) (resp_for p (hub_events tr)) = mine p (all_responses m k c reqs ys) /\
               Forall (fun x => fst x <> E_MALFORMED) (resp_for p (hub_events tr))) /\
    (h_mode (w_hub _ (c_hub _ W')) <> MDead -> k = 0%nat /\ waiting (w_hub _ (c_hub _ W')) = map q_pid (skipn m reqs)) /\
    (forall p, (length (resp_for p (hub_events tr)) <= length (cast_by p reqs))%nat).
Proof using T AL D1 A1 LAG D exec.
  intros BG G R PR reqs ys. destruct (asked_good _ _ _ _ BG G R) as (AG & _). pose proof (along_timely _ _ PR AG) as TM. pose proof (wrun_hub _ _ _ _ R) as HR.
  destruct BG as (FR & BX & _).
  assert (CT : Forall (fun r => is_ctl r = true) (h_box (w_hub D (c_hub D W)) ++ asked (hub_labels tr))).
  { rewrite BX. cbn [app]. eapply Forall_impl; [|exact AG]. cbn. intros r H. rewrite is_ctl_parse. apply parse_ctl_control in H. rewrite H. reflexivity. }
  destruct (C86_timely D exec hack depth absmax lag _ _ _ _ D1 A1 LAG FR TM CT HR) as (_ & m & k & c & MX & MK & EC & RS & LV & _).
  destruct (C85_once D exec hack depth absmax lag _ _ _ _ D1 LAG FR TM HR) as (m0 & n & MN & EX & RU & _).
  rewrite BX in *. cbn [app] in *. fold reqs in CT, MK, RS, LV, MN, EX.
  assert (FI : filter is_ctl reqs = reqs).
  { clear - CT. induction CT as [|r rs C CT IH]; [reflexivity|]. cbn [filter]. rewrite C, IH. reflexivity. }
  rewrite FI in *. assert (XL : length (execs (hub_events tr)) = n) by (apply (f_equal (@length _)) in EX; rewrite !map_length, firstn_length in EX; lia).
  exists m, k, c, n. split; [lia|]. split; [exact MK|]. split; [exact EC|]. split; [exact EX|]. split; [exact RU|].
  assert (RF : forall p, resp_for p (hub_events tr) = map (fun x => (snd (fst x), snd x)) (filter (fun x => Nat.eqb (fst (fst x)) p) (responses (hub_events tr)))).
  { intros p. clear. induction (hub_events tr) as [|v e IH]; [reflexivity|]. unfold resp_for, responses in *. cbn [flat_map]. rewrite filter_app, map_app. f_equal; [|exact IH].
    destruct v as [v| |]; try reflexivity. destruct v; try reflexivity. cbn [filter fst]. destruct (Nat.eqb p0 p); reflexivity. }
  fold ys in RS.
  split; [|split; [exact LV|]].
  - intros p. rewrite RF, RS. split.
    + rewrite map_map. unfold mine, all_responses. cbn [fst snd]. rewrite !filter_app, !map_app. f_equal.
      * clear. induction (combine (firstn m reqs) ys) as [|x l IH]; [reflexivity|]. destruct x as [r y]. cbn [map]. unfold reply_to at 1. cbn [filter fst snd]. destruct (Nat.eqb (q_pid r) p); cbn [map fst snd]; [f_equal; exact IH|exact IH].
      * clear. induction (firstn k (skipn m reqs)) as [|x l IH]; [reflexivity|]. cbn [map]. unfold error_to at 1. cbn [filter fst snd]. destruct (Nat.eqb (q_pid x) p); cbn [map fst snd]; [f_equal; exact IH|exact IH].
    + apply Forall_forall. intros x X. apply in_map_iff in X. destruct X as (y & <- & Y). apply filter_In in Y. destruct Y as (Y & _). cbn [fst].
      apply in_app_or in Y. destruct Y as [Y|Y]; apply in_map_iff in Y; destruct Y as (z & <- & _); cbn [fst snd]; [discriminate|].
      destruct EC as [-> |[-> | ->]]; discriminate.
  - intros p. rewrite RF, RS, map_length, filter_app, app_length. unfold cast_by. rewrite map_length.
    assert (L1 : (length (filter (fun x => Nat.eqb (fst (fst x)) p) (map (fun x : req * bytes => (q_pid (fst x), 0%N, hdr (q_pkt (fst x)) ++ snd x)) (combine (firstn m reqs) ys))) <= length (filter (fun r => Nat.eqb (q_pid r) p) (firstn m reqs)))%nat).
    { clear. generalize (firstn m reqs) as a. generalize ys as b. intros b a. revert b. induction a as [|x a IH]; intros [|y b]; cbn [combine map filter length]; try lia. cbn [fst].
      specialize (IH b). destruct (Nat.eqb (q_pid x) p); cbn [length]; lia. }
    assert (L2 : length (filter (fun x => Nat.eqb (fst (fst x)) p) (map (fun r : req => (q_pid r, c, @nil N)) (firstn k (skipn m reqs)))) = length (filter (fun r => Nat.eqb (q_pid r) p) (firstn k (skipn m reqs)))).
    { clear. induction (firstn k (skipn m reqs)) as [|x a IH]; [reflexivity|]. cbn [map filter fst]. destruct (Nat.eqb (q_pid x) p); cbn [length]; lia. }
    eapply Nat.le_trans; [apply Nat.add_le_mono; [exact L1|apply Nat.eq_le_incl; exact L2]|].
    assert (E1 : reqs = firstn m reqs ++ firstn k (skipn m reqs) ++ skipn k (skipn m reqs)) by (rewrite !firstn_skipn; reflexivity).
    apply (f_equal (filter (fun r => Nat.eqb (q_pid r) p))) in E1. apply (f_equal (@length _)) in E1. rewrite !filter_app, !app_length in E1. lia.
Qed.

(** Every part of what happens to a manager is what happens to it in a part of the
    execution. *)
Lemma prefix_run p ls : forall W W' tr es1 es2, wrun W ls = Some (W', tr) -> events_of p tr = es1 ++ es2 ->
  exists ls1 ls2 W1 tr1 tr2, ls = ls1 ++ ls2 /\ wrun W ls1 = Some (W1, tr1) /\ tr = tr1 ++ tr2 /\ events_of p tr1 = es1.
Proof using Type.
  induction ls as [|l ls IH]; intros W W' tr es1 es2 R E.
  - injection R as <- <-. cbn in E. destruct es1; [|discriminate]. exists [], [], W, [], []. auto.
  - destruct es1 as [|x es1]; [exists [], (l :: ls), W, [], tr; auto|]. cbn [CHub.wrun] in R.
    destruct (wstep W l) as [[W1 e1]|] eqn:S; [|discriminate]. destruct (wrun W1 ls) as [[W2 e2]|] eqn:RN; [|discriminate]. injection R as <- <-.
    rewrite eo_app in E.
    assert (Y : exists es1', x :: es1 = events_of p e1 ++ es1' /\ events_of p e2 = es1' ++ es2).
    { assert (Z : events_of p e1 = [] \/ exists y, events_of p e1 = [y]).
      { destruct l as [q reqs|q|q|l]; cbn [CHub.wstep] in S.
        - destruct (man_step allow (c_man D W q) _) as [[m cs] out]. injection S as <- <-. cbn. destruct (Nat.eqb q p); [right; eexists; reflexivity|left; reflexivity].
        - destruct (c_out D W q); [discriminate|]. destruct (step _ _) as [[? ?]|]; [|discriminate]. injection S as <- <-. left. reflexivity.
        - destruct (c_in D W q) as [|(c, d) rest]; [discriminate|]. destruct (man_step allow (c_man D W q) _) as [[m cs] out]. injection S as <- <-. cbn. destruct (Nat.eqb q p); [right; eexists; reflexivity|left; reflexivity].
        - destruct l; try discriminate; destruct (step _ _) as [[? ?]|]; try discriminate; injection S as <- <-; left; reflexivity. }
      destruct Z as [Z|(y & Z)]; rewrite Z in E |- *; cbn [app] in E |- *; [exists (x :: es1); auto|]. injection E as -> E. exists es1. auto. }
    destruct Y as (es1' & Y1 & Y2). destruct (IH _ _ _ _ _ RN Y2) as (ls1 & ls2 & W3 & tr1 & tr2 & -> & R1 & -> & E1).
    exists (l :: ls1), ls2, W3, (e1 ++ tr1), tr2. split; [reflexivity|]. cbn [CHub.wrun]. rewrite S, R1. split; [reflexivity|]. split; [apply app_assoc|]. rewrite eo_app, E1. symmetry. exact Y1.
Qed.
Lemma along_prefix P a : forall w b, along step P w (a ++ b) -> along step P w a.
Proof using Type.
  induction a as [|l a IH]; intros w b H; [exact I|]. cbn [along app] in *. destruct H as (H1 & H2). split; [exact H1|]. destruct (step w l) as [[w1 e1]|]; [eapply IH, H2|exact I].
Qed.

(** With the number of responses. *)
Lemma clients_more ls W W' tr : begun hack depth W -> Forall (good_label hack) ls -> wrun W ls = Some (W', tr) ->
  along step (prompt hack lag) (c_hub _ W) (hub_labels tr) ->
  let reqs := asked (hub_labels tr) in let ys := map snd (execs (hub_events tr)) in
  exists m k c n, (m <= n <= length reqs)%nat /\ (m + k <= length reqs)%nat /\ error_code c /\
    map fst (execs (hub_events tr)) = map (fun r => body (q_pkt r)) (firstn n reqs) /\
    carried exec (v_d _ (w_dev _ (c_hub _ W))) (map fst (execs (hub_events tr))) = (v_d _ (w_dev _ (c_hub _ W')), ys) /\
    (h_mode (w_hub _ (c_hub _ W')) <> MDead -> k = 0%nat /\ waiting (w_hub _ (c_hub _ W')) = map q_pid (skipn m reqs)) /\
    forall p, m_dead (c_man _ W' p) = false /\
      cast_by p reqs ++ c_out _ W' p = concat (chunks_by p ls) /\
      exists j, (j + length (c_in _ W' p) = length (mine p (all_responses m k c reqs ys)))%nat /\
        sent_to p tr = groups (map (@length _) (chunks_by p ls)) (firstn j (mine p (all_responses m k c reqs ys))) /\
        length (resp_for p (hub_events tr)) = length (mine p (all_responses m k c reqs ys)).
Proof using T AL D1 A1 LAG D exec.
  intros BG G R PR reqs ys. destruct (hub_side _ _ _ _ BG G R PR) as (m & k & c & n & MN & MK & EC & EX & RU & RF & LV & _). fold reqs ys in MN, MK, EX, RU, RF, LV.
  exists m, k, c, n. do 6 (split; [assumption|]). intros p. destruct (RF p) as (RF1 & RF2).
  destruct (wrun_view p _ _ _ _ R) as (cs & M & O & IN & C). pose proof (proj2 (proj2 BG) p) as (M0 & O0 & I0). rewrite M0 in M. rewrite O0 in O. rewrite I0 in IN. cbn [app] in O, IN.
  set (es := events_of p tr) in *.
  assert (ME : map mev es = map (event_of t) es).
  { rewrite IN in RF2. apply Forall_app in RF2. destruct RF2 as (RF2 & _). clear - RF2. induction es as [|e es IH]; [reflexivity|]. cbn [map]. unfold heard in *. cbn [flat_map] in RF2. apply Forall_app in RF2. destruct RF2 as (R1 & R2).
    rewrite (IH R2). f_equal. destruct e as [reqs|c d]; [reflexivity|]. inversion R1 as [|? ? H _]; subst. cbn [fst] in H. cbn [mev event_of]. unfold message. destruct (N.eqb_spec c E_MALFORMED); [contradiction|reflexivity]. }
  assert (GC : Forall good_chunk (chunks_of es)) by (rewrite C; eapply Forall_impl; [|apply chunks_good, G]; cbn; tauto).
  assert (HL : forall es0, length (resps_of t es0) = length (heard es0)).
  { clear. induction es0 as [|e es0 IH]; [reflexivity|]. unfold resps_of, heard in *. cbn [flat_map]. rewrite !app_length, IH. destruct e; reflexivity. }
  assert (BND : forall es1 es2, es = es1 ++ es2 -> (length (resps_of t es1) <= length (concat (chunks_of es1)))%nat).
  { intros es1 es2 E. destruct (prefix_run p _ _ _ _ _ _ R E) as (ls1 & ls2 & W1 & tr1 & tr2 & EL & R1 & ET & E1).
    assert (G1 : Forall (good_label hack) ls1) by (rewrite EL in G; apply Forall_app in G; apply G).
    assert (P1 : along step (prompt hack lag) (c_hub _ W) (hub_labels tr1)) by (rewrite ET, hl_app in PR; eapply along_prefix, PR).
    destruct (hub_side _ _ _ _ BG G1 R1 P1) as (_ & _ & _ & _ & _ & _ & _ & _ & _ & _ & _ & BB). specialize (BB p).
    destruct (asked_good _ _ _ _ BG G1 R1) as (_ & AA). specialize (AA p).
    destruct (wrun_view p _ _ _ _ R1) as (cs1 & _ & _ & IN1 & C1). rewrite I0 in IN1. cbn [app] in IN1. rewrite IN1, E1, app_length in BB. rewrite HL, <- E1, C1, E1. lia. }
  pose proof (C88_replies allow t es T AL GC BND) as REP. rewrite <- ME, M in REP. destruct REP as (DD & CS & OUT). split; [exact DD|]. split.
  - fold reqs in O. rewrite <- O, CS, <- C. clear. assert (ST : same_target t t = true) by (unfold same_target; rewrite !N.eqb_refl; reflexivity). unfold our. induction (concat (chunks_of es)) as [|q l IH]; [reflexivity|].
    cbn [map filter fst]. rewrite ST. cbn [map snd]. rewrite IH. reflexivity.
  - exists (length (heard es)). split.
    + rewrite <- RF1, map_length, IN, app_length. lia.
    + split; [|rewrite <- RF1, map_length; reflexivity]. rewrite OUT, C. f_equal. rewrite <- RF1, IN, map_app, firstn_app, map_length, Nat.sub_diag. cbn [firstn]. rewrite app_nil_r, firstn_all2 by (rewrite map_length; lia).
      clear. induction es as [|e es IH]; [reflexivity|]. unfold resps_of, heard in *. cbn [flat_map]. rewrite IH, map_app. destruct e; reflexivity.
Qed.

Theorem C89_clients_at ls W W' tr : begun hack depth W -> Forall (good_label hack) ls -> wrun W ls = Some (W', tr) ->
  along step (prompt hack lag) (c_hub _ W) (hub_labels tr) ->
  let reqs := asked (hub_labels tr) in let ys := map snd (execs (hub_events tr)) in
  exists m k c n, (m <= n <= length reqs)%nat /\ (m + k <= length reqs)%nat /\ error_code c /\
    map fst (execs (hub_events tr)) = map (fun r => body (q_pkt r)) (firstn n reqs) /\
    carried exec (v_d _ (w_dev _ (c_hub _ W))) (map fst (execs (hub_events tr))) = (v_d _ (w_dev _ (c_hub _ W')), ys) /\
    (h_mode (w_hub _ (c_hub _ W')) <> MDead -> k = 0%nat /\ waiting (w_hub _ (c_hub _ W')) = map q_pid (skipn m reqs)) /\
    forall p, m_dead (c_man _ W' p) = false /\
      cast_by p reqs ++ c_out _ W' p = concat (chunks_by p ls) /\
      exists j, (j + length (c_in _ W' p) = length (mine p (all_responses m k c reqs ys)))%nat /\
        sent_to p tr = groups (map (@length _) (chunks_by p ls)) (firstn j (mine p (all_responses m k c reqs ys))).
Proof using T AL D1 A1 LAG D exec.
  intros BG G R PR reqs ys. destruct (clients_more _ _ _ _ BG G R PR) as (m & k & c & n & H1 & H2 & H3 & H4 & H5 & H6 & V). exists m, k, c, n. do 6 (split; [assumption|]).
  intros p. destruct (V p) as (V1 & V2 & j & V3 & V4 & _). split; [exact V1|]. split; [exact V2|]. exists j. auto.
Qed.
End C.

(** Whatever the clients do at the same time, and whatever is lost, comes twice or out
    of order on the network: the requests reach the device client as the clients sent
    them, those of each client in order; the target carries out a beginning of them,
    each once; and every client gets chunks of replies that are put together as its
    chunks of requests were, the k-th reply being the one to its k-th request: the
    reply of the target, or after the device client has given up, an error. *)
Theorem C89_clients D (exec : D -> bytes -> D * bytes) hack depth absmax lag t allow ls (W W' : whole D) tr :
  good_target t -> allow t = true ->
  (1 <= depth)%nat -> (1 <= absmax)%nat -> N.of_nat (lag + window depth absmax + depth) < 65534 ->
  begun hack depth W -> Forall (good_label hack) ls -> wrun D exec hack depth absmax t allow W ls = Some (W', tr) ->
  along (step D exec hack depth absmax) (prompt hack lag) (c_hub _ W) (hub_labels tr) ->
  let reqs := asked (hub_labels tr) in let ys := map snd (execs (hub_events tr)) in
  exists m k c n, (m <= n <= length reqs)%nat /\ (m + k <= length reqs)%nat /\ error_code c /\
    map fst (execs (hub_events tr)) = map (fun r => body (q_pkt r)) (firstn n reqs) /\
    carried exec (v_d _ (w_dev _ (c_hub _ W))) (map fst (execs (hub_events tr))) = (v_d _ (w_dev _ (c_hub _ W')), ys) /\
    (h_mode (w_hub _ (c_hub _ W')) <> MDead -> k = 0%nat /\ waiting (w_hub _ (c_hub _ W')) = map q_pid (skipn m reqs)) /\
    forall p, m_dead (c_man _ W' p) = false /\
      cast_by p reqs ++ c_out _ W' p = concat (chunks_by p ls) /\
      let rs := mine p (map (reply_to t) (combine (firstn m reqs) ys) ++ map (error_to t c) (firstn k (skipn m reqs))) in
      exists j, (j + length (c_in _ W' p) = length rs)%nat /\
        sent_to p tr = groups (map (@length _) (chunks_by p ls)) (firstn j rs).
Proof. intros T AL D1 A1 LAG. apply (C89_clients_at D exec hack depth absmax lag t allow T AL D1 A1 LAG). Qed.

(** Two clients, 7 and 9; the chunk of 7 has two requests, between which that of 9
    is carried out; one reply is lost. *)
Definition pkt_a : bytes := [0x20; 0x12; 0x34; 0xF0; 5; 0; 0; 0].
Definition pkt_b : bytes := [0x20; 0x12; 0x35; 0xF0; 6; 0; 0; 0].
Definition pkt_c : bytes := [0x20; 0x12; 0x36; 0xF0; 7; 0; 0; 0].
Definition start : whole N := mkWh N acc_world (fun _ => man0) (fun _ => []) (fun _ => []).
Definition busy : list wlabel :=
  [WChunk 7%nat [pkt_a; pkt_b]; WChunk 9%nat [pkt_c]; WSend 7%nat; WSend 9%nat; WSend 7%nat; WHub LTake; WHub (LUp 0%nat false); WHub (LDown 0%nat false); WHub LTake; WHub LTake;
   WHub (LUp 0%nat false); WHub (LUp 0%nat false); WHub (LUp 0%nat false); WHub (LLoseDown 0%nat); WHub LTime; WHub (LUp 0%nat false); WHub (LDown 2%nat false);
   WHub (LUp 0%nat false); WHub (LDown 2%nat false); WHub (LDown 0%nat false); WHub (LDown 0%nat false); WRead 7%nat; WRead 9%nat; WRead 7%nat].
Lemma busy_good : Forall (good_label true) busy /\ begun true 4 start.
Proof.
  assert (G : good_req pkt_a /\ good_req pkt_b /\ good_req pkt_c) by (repeat split). destruct G as (GA & GB & GC).
  split; [|split; [exact acc_fresh|split; [reflexivity|auto]]].
  unfold busy. repeat (constructor; [first [exact I|split; [split; [discriminate|repeat constructor]|repeat constructor]]|]). constructor.
Qed.
Example C89_clients_case :
  Forall (good_label true) busy /\ begun true 4 start /\
  exists W' tr, wrun N acc true 4 16 tgt (fun _ => true) start busy = Some (W', tr) /\
    along (step N acc true 4 16) (prompt true 10) acc_world (hub_labels tr) /\
    sent_to 7%nat tr = [[mkR (Some tgt) 0 [0x20; 0x12; 0x34; 0xF0; 105]; mkR (Some tgt) 0 [0x20; 0x12; 0x35; 0xF0; 118]]] /\
    sent_to 9%nat tr = [[mkR (Some tgt) 0 [0x20; 0x12; 0x36; 0xF0; 112]]].
Proof.
  split; [apply busy_good|]. split; [apply busy_good|]. do 2 eexists. split; [vm_compute; reflexivity|]. split; [|split; reflexivity]. timely_run.
Qed.

(** When all has been done and the device client has not given up: every chunk of
    requests has got its chunk of replies, with the replies of the target. *)
Theorem C89_quiet D (exec : D -> bytes -> D * bytes) hack depth absmax lag t allow ls (W W' : whole D) tr p :
  good_target t -> allow t = true ->
  (1 <= depth)%nat -> (1 <= absmax)%nat -> N.of_nat (lag + window depth absmax + depth) < 65534 ->
  begun hack depth W -> Forall (good_label hack) ls -> wrun D exec hack depth absmax t allow W ls = Some (W', tr) ->
  along (step D exec hack depth absmax) (prompt hack lag) (c_hub _ W) (hub_labels tr) ->
  h_mode (w_hub _ (c_hub _ W')) <> MDead -> waiting (w_hub _ (c_hub _ W')) = [] -> c_out _ W' p = [] -> c_in _ W' p = [] ->
  let reqs := asked (hub_labels tr) in
  map (@length _) (sent_to p tr) = map (@length _) (chunks_by p ls) /\ cast_by p reqs = concat (chunks_by p ls) /\
  concat (sent_to p tr) = mine p (map (reply_to t) (combine reqs (map snd (execs (hub_events tr))))).
Proof.
  intros T AL D1 A1 LAG BG G R PR ND WT CO CI reqs.
  destruct (C89_clients D exec hack depth absmax lag t allow ls W W' tr T AL D1 A1 LAG BG G R PR) as (m & k & c & n & MN & MK & EC & EX & RU & LV & VW).
  fold reqs in MN, MK, EX, LV, VW. destruct (LV ND) as (-> & WL). rewrite WT in WL.
  assert (ML : m = length reqs).
  { symmetry in WL. apply map_eq_nil in WL. apply (f_equal (@length _)) in WL. rewrite skipn_length in WL. cbn in WL. lia. }
  destruct (VW p) as (_ & CB & j & J & ST). rewrite CO, app_nil_r in CB. rewrite CI in J. cbn [length] in J. rewrite Nat.add_0_r in J.
  cbn [firstn map] in J, ST. rewrite app_nil_r in J, ST. rewrite J, firstn_all in ST. rewrite ML, firstn_all in ST.
  set (rs := mine p (map (reply_to t) (combine reqs (map snd (execs (hub_events tr)))))) in *.
  assert (XL : length (execs (hub_events tr)) = length reqs) by (apply (f_equal (@length _)) in EX; rewrite !map_length, firstn_length in EX; lia).
  assert (LR : length rs = length (concat (chunks_by p ls))).
  { rewrite <- CB. unfold rs, mine, cast_by. rewrite !map_length. clear - XL. revert XL. rewrite <- (map_length snd (execs (hub_events tr))). generalize (map snd (execs (hub_events tr))) as ys. generalize reqs as l.
    induction l as [|r l IH]; intros [|y ys] L; cbn [combine map filter length] in *; try reflexivity; try discriminate. unfold reply_to at 1. cbn [fst]. specialize (IH ys ltac:(lia)). destruct (Nat.eqb (q_pid r) p); cbn [length]; lia. }
  assert (GR : forall (A : Type) (ks : list (list bytes)) (l : list A), length l = length (concat ks) -> map (@length _) (groups (map (@length _) ks) l) = map (@length _) ks /\ concat (groups (map (@length _) ks) l) = l).
  { intros A. induction ks as [|x ks IH]; intros l L; [destruct l; [split; reflexivity|discriminate]|]. cbn [map groups concat] in *. rewrite app_length in L.
    destruct (Nat.ltb_spec (length l) (length x)); [lia|]. destruct (IH (skipn (length x) l)) as (I1 & I2); [rewrite skipn_length; lia|]. cbn [map concat]. rewrite I1, I2, firstn_skipn, firstn_length. split; [f_equal; lia|reflexivity]. }
  rewrite ST. destruct (GR _ (chunks_by p ls) rs LR) as (G1 & G2). auto.
Qed.
Example C89_quiet_case : exists W' tr, wrun N acc true 4 16 tgt (fun _ => true) start busy = Some (W', tr) /\
  h_mode (w_hub _ (c_hub _ W')) = MLoop /\ waiting (w_hub _ (c_hub _ W')) = [] /\ c_out _ W' 7%nat = [] /\ c_in _ W' 7%nat = [] /\
  map (@length _) (sent_to 7%nat tr) = [2%nat].
Proof. do 2 eexists. split; [vm_compute; reflexivity|]. repeat split. Qed.

Print Assumptions C89_clients.
Print Assumptions C89_quiet.
