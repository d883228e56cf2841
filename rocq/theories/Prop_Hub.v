(** C85-C87: the device client of the ControlHub and an IPbus 2.0 target.
    Model: [Hub.v]; statements in the terms of [HubSpec.v]. *)
From Coq Require Import NArith ZArith List Bool Lia PeanoNat ZifyBool ZifyNat ZifyN Permutation.
From Verif Require Import Hub HubSpec HubProofs HubInv HubAsk HubRecover HubSafe.
Import ListNotations.
Open Scope N_scope.

Lemma along_no_restart {D} exec hack depth absmax lag ls : forall (w w' : world D) tr,
  along (step D exec hack depth absmax) (timely hack lag) w ls -> run D exec hack depth absmax w ls = Some (w', tr) -> ~ In LRestart ls.
Proof.
  induction ls as [|l ls IH]; intros w w' tr A R I; [exact I|]. cbn [along run] in A, R. destruct A as (T & A).
  destruct (step D exec hack depth absmax w l) as [[w1 e1]|]; [|discriminate]. destruct (run D exec hack depth absmax w1 ls) as [[w2 e2]|] eqn:RN; [|discriminate].
  destruct I as [-> |I]; [exact T|]. eapply IH; eauto.
Qed.

(** The requests forwarded, in terms of the requests. *)
Lemma sent_reqs (s : list flight) rest (rs : list req) : map key s ++ rest = map orig rs -> forall n, (n <= length s)%nat ->
  firstn n (map f_body s) = map (fun r => body (q_pkt r)) (firstn n rs) /\
  forall rp, map (fun x => (f_pid (fst x), f_orig (fst x) ++ snd x)) (combine (firstn n s) rp) =
             map (fun x => (q_pid (fst x), hdr (q_pkt (fst x)) ++ snd x)) (combine (firstn n rs) rp).
Proof.
  revert rs. induction s as [|f s IH]; intros rs E n L; cbn in L.
  - replace n with 0%nat by lia. cbn. auto.
  - destruct rs as [|r rs]; [discriminate|]. cbn [map app] in E. unfold key at 1, orig at 1 in E. injection E as E1 E2 E3 E.
    destruct n as [|n]; [cbn; auto|]. destruct (IH rs E n ltac:(lia)) as (I1 & I2). cbn [firstn map]. split; [rewrite I1, E3; reflexivity|].
    intros [|y rp]; [reflexivity|]. cbn [combine map fst snd]. rewrite I2, E1, E2. reflexivity.
Qed.

(** ** C85: a request is carried out at most once *)

(** Whatever is lost, comes twice or out of order (but not later than [lag]
    requests after): the packets the target carries out are the requests of the
    transaction managers, in the order in which they were made, each once; and
    every reply given without an error is the reply of the target to that request,
    with the header of the request. *)
Theorem C85_once D (exec : D -> bytes -> D * bytes) hack depth absmax lag (w : world D) ls w' tr :
  (1 <= depth)%nat -> N.of_nat (lag + window depth absmax + depth) < 65534 ->
  fresh hack depth w -> along (step D exec hack depth absmax) (timely hack lag) w ls ->
  run D exec hack depth absmax w ls = Some (w', tr) ->
  let reqs := filter is_ctl (h_box (w_hub _ w) ++ asked ls) in
  exists m n, (m <= n <= length reqs)%nat /\
    map fst (execs tr) = map (fun r => body (q_pkt r)) (firstn n reqs) /\
    carried exec (v_d _ (w_dev _ w)) (map fst (execs tr)) = (v_d _ (w_dev _ w'), map snd (execs tr)) /\
    answers tr = map (fun x => (q_pid (fst x), hdr (q_pkt (fst x)) ++ snd x)) (combine (firstn m reqs) (map snd (execs tr))).
Proof.
  intros D1 LAG FR AL RN reqs.
  assert (B : id_ok (next_id (v_last _ (w_dev _ w)))) by (apply next_ok; apply FR).
  destruct (run_inv D exec hack depth absmax lag D1 LAG _ _ B ls w [] 0 0 w' tr (inv_fresh exec hack depth absmax w FR) AL RN) as (m & n & _ & I).
  assert (NR := along_no_restart _ _ _ _ _ _ _ _ _ AL RN).
  destruct (run_sent D exec hack depth absmax ls w w' tr NR RN) as (rest & E & _); [destruct FR as (-> & _); discriminate|].
  assert (P : pending (w_hub D w) = h_box (w_hub D w)) by (unfold pending; destruct FR as (-> & _); reflexivity). rewrite P in E. fold reqs in E.
  cbn [app] in I. destruct I.
  destruct (sent_reqs _ _ _ E n) as (S1 & _); [lia|]. destruct (sent_reqs _ _ _ E m) as (_ & S2); [lia|].
  exists m, n. split; [|split; [|split; [exact i_run|]]].
  - apply (f_equal (@length _)) in E. rewrite app_length, !map_length in E. lia.
  - rewrite i_ex. exact S1.
  - rewrite i_ans. apply S2.
Qed.

(** An accumulator as target, four requests deep; two requests of two managers. *)
Definition acc (d : N) (b : bytes) : N * bytes := let s := d + nth 0 b 0 in (s, [s]).
Definition idle_hub := mkHub MIdle 0 [] 0%nat [].
Definition acc_dev := mkDev N 100 0 (repeat (0, []) 4).
Definition acc_world := mkW N idle_hub 0%nat 0%nat [] [] acc_dev.
Definition req_a := mkReq 7%nat [0x20; 0x12; 0x34; 0xF0; 5].
Definition req_b := mkReq 9%nat [0x20; 0x12; 0x35; 0xF0; 6].

Lemma acc_fresh : fresh true 4 acc_world.
Proof.
  unfold fresh. do 4 (split; [try reflexivity; constructor|]). do 2 (split; [constructor|]). split; [reflexivity|]. split; [reflexivity|]. intros i id r H. left. do 4 (destruct i as [|i]; [injection H as <- _; reflexivity|]). destruct i; discriminate.
Qed.
Ltac timely_run :=
  vm_compute; repeat match goal with
  | |- _ /\ _ => split
  | |- True => exact I
  | |- forall _, _ => intros
  | H : Some _ = Some _ |- _ => injection H as <-
  end; try discriminate; try reflexivity; try lia; auto.

(** The first request is lost and both come twice after the recovery. *)
Definition lossy : list label :=
  [LCast req_a; LCast req_b; LTake; LUp 0 false; LDown 0 false; LTake; LLoseUp 0; LUp 0 true; LTime; LUp 1 false; LDown 0 false;
   LUp 1 true; LUp 1 false; LUp 0 false; LUp 0 false; LDown 0 true; LDown 0 false; LDown 0 false].
Example C85_once_case :
  fresh true 4 acc_world /\ along (step N acc true 4 16) (timely true 10) acc_world lossy /\ N.of_nat (10 + window 4 16 + 4) < 65534 /\
  option_map (fun x => (execs (snd x), answers (snd x), v_d _ (w_dev _ (fst x)))) (run N acc true 4 16 acc_world lossy) =
  Some ([([5], [105]); ([6], [111])], [(7%nat, [0x20; 0x12; 0x34; 0xF0; 105]); (9%nat, [0x20; 0x12; 0x35; 0xF0; 111])], 111).
Proof. split; [exact acc_fresh|]. split; [timely_run|]. split; reflexivity. Qed.

(** This needs that no datagram of an earlier device client arrives.  The request of
    manager 7 is delayed and the process gives up; a new one forwards the request
    of manager 9 under the same identifier; the late datagram is carried out, and
    its reply is given to manager 9 as the reply to its own request, which is never
    carried out. *)
Definition stale : list label :=
  [LCast req_a; LTake; LUp 0 false; LDown 0 false;
   LTime; LTime; LTime; LTime; LTime; LTime; LRestart;
   LCast req_b; LTake; LUp 6 false; LDown 0 false;
   LUp 0 false; LUp 5 false; LTime; LUp 5 false; LDown 1 false; LUp 5 false; LDown 1 false].
Theorem C85_stale_refuted : ~ forall D (exec : D -> bytes -> D * bytes) hack depth absmax (w w' : world D) ls tr p r,
  fresh hack depth w -> run D exec hack depth absmax w ls = Some (w', tr) -> In (p, r) (answers tr) ->
  exists q y, In q (asked ls) /\ q_pid q = p /\ In (body (q_pkt q), y) (execs tr) /\ r = hdr (q_pkt q) ++ y.
Proof.
  intros H. destruct (run N acc true 4 16 acc_world stale) as [[w' tr]|] eqn:R; [|vm_compute in R; discriminate].
  assert (A : answers tr = [(9%nat, [0x20; 0x12; 0x35; 0xF0; 105])] /\ execs tr = [([5], [105])]) by (vm_compute in R; injection R as _ <-; split; reflexivity).
  destruct A as (A & X). destruct (H N acc true 4%nat 16%nat acc_world w' stale tr 9%nat [0x20; 0x12; 0x35; 0xF0; 105] acc_fresh R) as (q & y & Q & P & E & _).
  - rewrite A. left. reflexivity.
  - cbn in Q. destruct Q as [<-|[<-|[]]]; [discriminate|]. rewrite X in E. destruct E as [E|[]]. discriminate.
Qed.

(** The conditions on the start hold of every device client that replaces another:
    no datagram has its socket, and the target has been in such a state all the
    time. *)
Lemma receive_ok {D} (exec : D -> bytes -> D * bytes) hack depth (v : dev D) p : (1 <= depth)%nat -> dev_ok depth v ->
  dev_ok depth (fst (fst (receive D exec hack depth v p))).
Proof.
  intros D1 (L & LN & H). assert (SAME : dev_ok depth v) by (split; auto). unfold receive.
  destruct p as [|b0 [|b1 [|b2 [|b3 t]]]]; try exact SAME.
  set (swap := (_ || _)%bool). set (low := if swap then b3 else b0). set (cnt := if swap then _ else _).
  destruct (low mod 16 =? 0); [|destruct (low mod 16 =? 1); [exact SAME|destruct (low mod 16 =? 2); exact SAME]].
  destruct ((cnt =? 0) || (cnt =? next_id (v_last D v)))%bool eqn:C; [|exact SAME].
  destruct (exec (v_d D v) t) as [d r]. cbn [fst].
  assert (LT : length (tl (v_hist D v) ++ [(cnt, [b0; b1; b2; b3] ++ r)]) = depth).
  { rewrite app_length. destruct (v_hist D v); cbn [tl length] in *; lia. }
  destruct (N.eqb_spec cnt 0) as [Z|Z].
  - split; [exact L|]. split; [exact LT|]. cbn [v_hist v_last]. intros i id q E. rewrite rev_app_distr in E. cbn [rev app] in E.
    destruct i as [|i]; [injection E as <- _; left; exact Z|]. cbn [nth_error] in E. apply nth_rev_tl in E.
    destruct (H i id q E) as [-> |(NZ & j & J & ->)]; [left; reflexivity|right; split; [exact NZ|]]. exists j. split; [lia|reflexivity].
  - cbn [orb] in C. apply N.eqb_eq in C. pose proof (next_ok _ L) as (N1 & N2). split; [cbn [v_last]; lia|]. split; [exact LT|]. cbn [v_hist v_last]. intros i id q E.
    rewrite rev_app_distr in E. cbn [rev app] in E. destruct i as [|i]; [injection E as <- _; right; split; [exact Z|]; exists 0%nat; split; [lia|reflexivity]|].
    cbn [nth_error] in E. apply nth_rev_tl in E. destruct (H i id q E) as [-> |(NZ & j & J & ->)]; [left; reflexivity|right; split; [exact Z|]].
    exists (S j). split; [lia|]. cbn [dec_ids]. rewrite C, dec_next by assumption. reflexivity.
Qed.
Definition past {D} (w : world D) : Prop := Forall (fun g => (g_sock g <= w_sock _ w)%nat) (w_up _ w) /\ Forall (fun g => (g_sock g <= w_sock _ w)%nat) (w_down _ w).
Lemma step_past {D} (exec : D -> bytes -> D * bytes) hack depth absmax (w w' : world D) l e : (1 <= depth)%nat -> past w -> dev_ok depth (w_dev _ w) ->
  step D exec hack depth absmax w l = Some (w', e) -> past w' /\ dev_ok depth (w_dev _ w').
Proof.
  intros D1 (U & V) DV ST.
  assert (AP : forall w0 o, Forall (fun g => (g_sock g <= w_sock _ w0)%nat) (w_up _ w0) -> Forall (fun g => (g_sock g <= w_sock _ w0)%nat) (w_down _ w0) -> dev_ok depth (w_dev _ w0) ->
    apply_hub D w0 o = (w', e) -> past w' /\ dev_ok depth (w_dev _ w')).
  { intros w0 [[h ps] vs] U0 V0 DV0 E. injection E as <- _. unfold past. cbn [w_up w_down w_sock w_dev]. split; [split; [|exact V0]|exact DV0]. apply Forall_app. split; [exact U0|].
    rewrite Forall_forall. intros g G. apply in_map_iff in G. destruct G as (p & <- & _). cbn. lia. }
  assert (DR : forall i l0, Forall (fun g => (g_sock g <= w_sock _ w)%nat) l0 -> Forall (fun g => (g_sock g <= w_sock _ w)%nat) (drop i l0)).
  { intros i l0 F. rewrite Forall_forall in *. intros g G. apply F. eapply in_drop, G. }
  destruct l as [r| | |i keep|i keep|i|i|p|]; cbn [step] in ST.
  - destruct (h_mode (w_hub D w)); injection ST as <- <-; (split; [split; assumption|assumption]).
  - destruct (take (w_hub D w)); [|discriminate]. injection ST as ST. eapply AP; eauto.
  - destruct (expire (w_hub D w)); [|discriminate]. injection ST as ST. eapply AP; eauto.
  - destruct (nth_error (w_up D w) i) as [g|] eqn:G; [|discriminate]. pose proof (receive_ok exec hack depth (w_dev D w) (g_bytes g) D1 DV) as RO.
    destruct (receive D exec hack depth (w_dev D w) (g_bytes g)) as [[v r] x]. injection ST as <- <-. unfold past. cbn [w_up w_down w_sock w_dev]. split; [split|exact RO].
    + destruct keep; auto.
    + apply Forall_app. split; [exact V|]. destruct r; constructor; [|constructor]. cbn [g_sock]. rewrite Forall_forall in U. apply U. eapply nth_error_In, G.
  - destruct (nth_error (w_down D w) i) as [g|]; [|discriminate]. destruct (Nat.eqb _ _); [|discriminate].
    destruct (recv absmax (w_hub D w) (g_bytes g)); [|discriminate]. injection ST as ST. eapply AP; [| | |exact ST]; cbn [w_up w_down w_sock w_dev]; auto. destruct keep; auto.
  - injection ST as <- <-. split; [split; cbn [w_up w_down w_sock]; auto|exact DV].
  - injection ST as <- <-. split; [split; cbn [w_up w_down w_sock]; auto|exact DV].
  - destruct (recv absmax (w_hub D w) p); [|discriminate]. injection ST as ST. eapply AP; eauto.
  - destruct (h_mode (w_hub D w)); try discriminate. injection ST as <- <-. split; [|exact DV]. unfold past. cbn [w_up w_down w_sock].
    rewrite !Forall_forall in *. split; intros g G; [apply U in G|apply V in G]; lia.
Qed.
Theorem C85_restart D (exec : D -> bytes -> D * bytes) hack depth absmax (w w1 w2 : world D) ls tr e :
  (1 <= depth)%nat -> dev_ok depth (w_dev _ w) ->
  Forall (fun g => (g_sock g <= w_sock _ w)%nat) (w_up _ w) -> Forall (fun g => (g_sock g <= w_sock _ w)%nat) (w_down _ w) ->
  run D exec hack depth absmax w ls = Some (w1, tr) -> step D exec hack depth absmax w1 LRestart = Some (w2, e) ->
  fresh hack depth w2.
Proof.
  intros D1 DV U V R ST. assert (X : past w1 /\ dev_ok depth (w_dev _ w1)).
  { assert (P : past w) by (split; assumption). clear U V ST. revert w tr DV P R. induction ls as [|l ls IH]; intros w tr DV P R; [injection R as <- <-; auto|].
    cbn [run] in R. destruct (step D exec hack depth absmax w l) as [[w3 e3]|] eqn:ST; [|discriminate].
    destruct (run D exec hack depth absmax w3 ls) as [[w4 e4]|] eqn:RN; [|discriminate]. injection R as <- <-.
    destruct (step_past _ _ _ _ _ _ _ _ D1 P DV ST) as (P3 & DV3). eapply IH; eauto. }
  destruct X as ((U1 & V1) & DV1). cbn [step] in ST. destruct (h_mode (w_hub D w1)); try discriminate. injection ST as <- <-.
  unfold fresh. cbn [w_hub w_sock w_sent w_up w_down w_dev h_mode h_fl h_box]. split; [reflexivity|]. split; [reflexivity|]. split; [constructor|]. split; [reflexivity|].
  rewrite !Forall_forall in *. split; [|split; [|exact DV1]]; intros g G; [apply U1 in G|apply V1 in G]; lia.
Qed.
Example C85_restart_case : exists w1 tr w2, run N acc true 4 16 acc_world (firstn 10 stale) = Some (w1, tr) /\ step N acc true 4 16 w1 LRestart = Some (w2, []) /\
  length (w_up _ w2) = 6%nat /\ fresh true 4 w2.
Proof.
  do 3 eexists. split; [vm_compute; reflexivity|]. split; [vm_compute; reflexivity|]. split; [reflexivity|].
  eapply (C85_restart N acc true 4%nat 16%nat acc_world) with (ls := firstn 10 stale); [lia|apply acc_fresh|constructor|constructor|vm_compute; reflexivity|vm_compute; reflexivity].
Qed.

(** ** C86: every request is answered once *)

(** Whatever comes from the network: as long as no process ends by a failed match,
    everybody is told about each of their requests once, or it is still in the
    device client, or it was sent to a process that had stopped; if all are control
    packets, in the order of the requests. *)
Theorem C86_told D (exec : D -> bytes -> D * bytes) hack depth absmax (w w' : world D) ls tr :
  h_mode (w_hub _ w) = MIdle -> h_fl (w_hub _ w) = [] -> h_box (w_hub _ w) = [] ->
  run D exec hack depth absmax w ls = Some (w', tr) -> no_crash tr ->
  Permutation (ended tr ++ waiting (w_hub _ w')) (map q_pid (asked ls)) /\
  (Forall (fun r => is_ctl r = true) (asked ls) -> ended tr ++ waiting (w_hub _ w') = map q_pid (asked ls)) /\
  (h_mode (w_hub _ w') = MDead -> waiting (w_hub _ w') = []).
Proof.
  intros M F B R NC. assert (S : settled (w_hub D w)) by (unfold settled; rewrite M; exact F).
  assert (W : waiting (w_hub D w) = []) by (unfold waiting, fl_pids; rewrite M, F, B; reflexivity).
  destruct (run_books D exec hack depth absmax ls w w' tr S R NC) as (S' & P & Q). rewrite W in P, Q. split; [exact P|]. split.
  - intros A. apply Q; [|exact A]. unfold all_ctl. rewrite B, M. auto.
  - intros MD. unfold settled in S'. rewrite MD in S'. destruct S' as (S1 & S2). unfold waiting, fl_pids. rewrite MD, S1, S2. reflexivity.
Qed.

(** Three requests, the target does not answer: all three are told. *)
Definition silent : list label := [LCast req_a; LCast req_b; LTake; LUp 0 false; LDown 0 false; LTake; LTime; LCast req_a; LTime; LTime; LTime; LTime; LTime].
Example C86_told_case :
  option_map (fun x => (h_mode (w_hub _ (fst x)), map (fun e => match e with EHub (VResp p c _) => Some (p, c) | _ => None end) (skipn 2 (snd x)), ended (snd x))) (run N acc true 4 16 acc_world silent) =
  Some (MDead, [Some (7%nat, E_STATUS); Some (9%nat, E_STATUS); Some (7%nat, E_STATUS)], [7%nat; 9%nat; 7%nat]) /\
  forall w' tr, run N acc true 4 16 acc_world silent = Some (w', tr) -> no_crash tr.
Proof. split; [reflexivity|]. intros w' tr R. vm_compute in R. injection R as _ <-. intros C. cbn in C. intuition discriminate. Qed.

(** A target that answers as it should, requests that are control packets and a
    network that is not too late: the process never ends by a failed match; the
    first [m] requests are answered with the replies of the target, and if the
    process has to give up, the next [k] with one error code; all others are in the
    device client, or were sent after its end. *)
Theorem C86_timely D (exec : D -> bytes -> D * bytes) hack depth absmax lag (w w' : world D) ls tr :
  (1 <= depth)%nat -> (1 <= absmax)%nat -> N.of_nat (lag + window depth absmax + depth) < 65534 ->
  fresh hack depth w -> along (step D exec hack depth absmax) (timely hack lag) w ls ->
  let reqs := h_box (w_hub _ w) ++ asked ls in
  Forall (fun r => is_ctl r = true) reqs ->
  run D exec hack depth absmax w ls = Some (w', tr) ->
  no_crash tr /\ exists m k c, (m <= length (execs tr))%nat /\ (m + k <= length reqs)%nat /\ error_code c /\
    responses tr = map (fun x => (q_pid (fst x), 0, hdr (q_pkt (fst x)) ++ snd x)) (combine (firstn m reqs) (map snd (execs tr))) ++
                   map (fun r => (q_pid r, c, [])) (firstn k (skipn m reqs)) /\
    (h_mode (w_hub _ w') <> MDead -> k = 0%nat /\ waiting (w_hub _ w') = map q_pid (skipn m reqs)) /\
    (h_mode (w_hub _ w') = MDead -> map q_pid (lost_reqs tr) = map q_pid (skipn (m + k) reqs)).
Proof.
  intros D1 A1 LAG FR AL reqs CT RN.
  assert (CT2 := CT). unfold reqs in CT2. apply Forall_app in CT2. destruct CT2 as (CB & CA).
  assert (FI : filter is_ctl reqs = reqs).
  { clear - CT. induction CT as [|r rs C CT IH]; [reflexivity|]. cbn [filter]. rewrite C, IH. reflexivity. }
  destruct (C85_once D exec hack depth absmax lag w ls w' tr D1 LAG FR AL RN) as (m & n & MN & EX & _ & AN). fold reqs in MN, EX, AN. rewrite FI in MN, EX, AN.
  assert (B : id_ok (next_id (v_last _ (w_dev _ w)))) by (apply next_ok; apply FR).
  assert (CM : calm D w).
  { destruct FR as (MD & _ & _ & _ & U & V & _). split; [split; [exact CB|rewrite MD; exact I]|]. rewrite MD. auto. }
  destruct (safe_run D exec hack depth absmax lag D1 A1 LAG _ _ B ls w [] 0 0 w' tr (inv_fresh exec hack depth absmax w FR) CM AL CA RN) as (NC & c & ps & C & RS & EN & LV).
  split; [exact NC|].
  assert (ST : settled (w_hub D w)) by (unfold settled; destruct FR as (-> & F & _); exact F).
  destruct (run_books D exec hack depth absmax ls w w' tr ST RN NC) as (ST' & _ & Q). specialize (Q (proj1 CM) CA).
  assert (W : waiting (w_hub D w) = map q_pid (h_box (w_hub D w))) by (unfold waiting, fl_pids; destruct FR as (-> & F & _); rewrite F; reflexivity).
  rewrite W, <- map_app in Q. fold reqs in Q.
  assert (XL : length (execs tr) = n) by (apply (f_equal (@length _)) in EX; rewrite !map_length, firstn_length in EX; lia).
  assert (AP : map fst (answers tr) = map q_pid (firstn m reqs)).
  { rewrite AN, map_map. cbn [fst]. assert (L : (length (firstn m reqs) <= length (map snd (execs tr)))%nat) by (rewrite map_length, firstn_length; lia).
    revert L. generalize (map snd (execs tr)) as ys. generalize (firstn m reqs) as xs. induction xs as [|x xs IH]; intros [|y ys] L; cbn in *; try reflexivity; [lia|]. rewrite IH by lia. reflexivity. }
  rewrite RS, !map_app, !map_map in EN. cbn [fst snd] in EN. rewrite map_id in EN. change (map (fun x => fst x) (answers tr)) with (map fst (answers tr)) in EN. rewrite AP in EN.
  rewrite EN, <- !app_assoc in Q. assert (SP : map q_pid reqs = map q_pid (firstn m reqs) ++ map q_pid (skipn m reqs)) by (rewrite <- map_app, firstn_skipn; reflexivity).
  rewrite SP in Q. apply app_inv_head in Q.
  exists m, (length ps), c. split; [lia|]. split; [|split; [exact C|]].
  { apply (f_equal (@length _)) in Q. rewrite !app_length, !map_length, skipn_length in Q. lia. }
  assert (PS : ps = map q_pid (firstn (length ps) (skipn m reqs))).
  { rewrite <- firstn_map, <- Q, firstn_app, Nat.sub_diag, firstn_all. cbn [firstn]. symmetry. apply app_nil_r. }
  split.
  - rewrite RS, AN, map_map. f_equal. rewrite PS at 1. rewrite map_map. reflexivity.
  - split.
    + intros MD. destruct (LV MD) as (-> & LR). rewrite LR in Q. cbn in Q. auto.
    + intros MD. unfold settled in ST'. rewrite MD in ST'. destruct ST' as (S1 & S2).
      assert (WZ : waiting (w_hub D w') = []) by (unfold waiting, fl_pids; rewrite MD, S1, S2; reflexivity). rewrite WZ, app_nil_r in Q.
      replace (skipn (m + length ps) reqs) with (skipn (length ps) (skipn m reqs)).
      * rewrite <- skipn_map, <- Q, skipn_app, Nat.sub_diag, skipn_all. reflexivity.
      * generalize reqs as q0. clear. induction m as [|m IH]; intros [|r rs]; cbn [plus skipn]; try reflexivity; [apply skipn_nil|apply IH].
Qed.
(** The reply to the first request comes, the second is never answered, and a third
    one comes too late. *)
Definition half : list label :=
  [LCast req_a; LCast req_b; LTake; LUp 0 false; LDown 0 false; LTake; LUp 0 false; LDown 0 false; LTime; LTime; LTime; LTime; LTime; LTime; LCast req_a].
Example C86_timely_case :
  along (step N acc true 4 16) (timely true 10) acc_world half /\ Forall (fun r => is_ctl r = true) (asked half) /\
  option_map (fun x => (responses (snd x), lost_reqs (snd x))) (run N acc true 4 16 acc_world half) =
  Some ([(7%nat, 0, [0x20; 0x12; 0x34; 0xF0; 105]); (9%nat, 3, [])], [req_a]).
Proof. split; [timely_run|]. split; [repeat constructor|]. vm_compute. reflexivity. Qed.

(** It is false that every request is answered: a datagram of less than four bytes
    from the address of the target ends the process without a word. *)
Theorem C86_short_refuted : ~ forall D (exec : D -> bytes -> D * bytes) hack depth absmax (w w' : world D) ls tr,
  fresh hack depth w -> run D exec hack depth absmax w ls = Some (w', tr) -> h_mode (w_hub _ w') = MDead ->
  length (ended tr) = length (asked ls).
Proof.
  intros H. destruct (run N acc true 4 16 acc_world [LCast req_a; LTake; LUp 0 false; LDown 0 false; LNoise [1]]) as [[w' tr]|] eqn:R; [|vm_compute in R; discriminate].
  assert (X := H _ _ _ _ _ _ _ _ _ acc_fresh R). vm_compute in R. injection R as <- <-. specialize (X eq_refl). discriminate.
Qed.
(** Nor is it answered if it is the first one and not a packet at all. *)
Theorem C86_malformed_refuted : ~ forall D (exec : D -> bytes -> D * bytes) hack depth absmax (w w' : world D) ls tr,
  fresh hack depth w -> run D exec hack depth absmax w ls = Some (w', tr) -> h_mode (w_hub _ w') = MDead -> ~ In LRestart ls ->
  (forall p, ~ In (LNoise p) ls) -> length (ended tr) = length (asked ls).
Proof.
  intros H. destruct (run N acc true 4 16 acc_world [LCast (mkReq 7%nat [0; 0; 0; 0]); LCast req_a; LTake]) as [[w' tr]|] eqn:R; [|vm_compute in R; discriminate].
  assert (X := H _ _ _ _ _ _ _ _ _ acc_fresh R). vm_compute in R. injection R as <- <-. specialize (X eq_refl).
  assert (Y : 0%nat = 2%nat); [|discriminate]. apply X.
  - intros [E|[E|[E|[]]]]; discriminate.
  - intros p [E|[E|[E|[]]]]; discriminate.
Qed.
(** Nor if it is sent to a process that has just stopped because nothing was to be
    done; the registry does not know yet. *)
Theorem C86_stopped_refuted : ~ forall D (exec : D -> bytes -> D * bytes) hack depth absmax (w w' : world D) ls tr r,
  fresh hack depth w -> run D exec hack depth absmax w ls = Some (w', tr) -> no_crash tr -> In r (asked ls) -> is_ctl r = true ->
  In (q_pid r) (waiting (w_hub _ w')) \/ exists c y, In (EHub (VResp (q_pid r) c y)) tr.
Proof.
  intros H. destruct (run N acc true 4 16 acc_world [LCast req_a; LTake; LUp 0 false; LDown 0 false; LUp 0 false; LDown 0 false; LTime; LCast req_b; LRestart]) as [[w' tr]|] eqn:R; [|vm_compute in R; discriminate].
  assert (X := H _ _ _ _ _ _ _ _ _ req_b acc_fresh R). vm_compute in R. injection R as <- <-. destruct X as [X|(c & y & X)].
  - intros C. cbn in C. intuition discriminate.
  - right. left. reflexivity.
  - reflexivity.
  - exact X.
  - cbn in X. intuition discriminate.
Qed.
(** A request that is not a control packet is answered before those in front of
    it. *)
Theorem C86_order_refuted : ~ forall D (exec : D -> bytes -> D * bytes) hack depth absmax (w w' : world D) ls tr,
  fresh hack depth w -> run D exec hack depth absmax w ls = Some (w', tr) -> no_crash tr ->
  ended tr ++ waiting (w_hub _ w') = map q_pid (asked ls).
Proof.
  intros H. destruct (run N acc true 4 16 acc_world [LCast req_a; LCast (mkReq 9%nat [0; 0; 0; 0]); LTake; LUp 0 false; LDown 0 false; LTake]) as [[w' tr]|] eqn:R; [|vm_compute in R; discriminate].
  assert (X := H _ _ _ _ _ _ _ _ _ acc_fresh R). vm_compute in R. injection R as <- <-. assert (Y : [9%nat; 7%nat] = [7%nat; 9%nat]); [|discriminate].
  apply X. intros C. cbn in C. intuition discriminate.
Qed.

(** ** C87: the recovery finds the reply *)

(** At any time at which a timeout starts (or goes on with) a recovery: if the
    status request, its reply, the repeated packet of the oldest request and its
    reply get through, the oldest request is answered, with the reply the target
    gave to its body the only time it carried it out. *)
Theorem C87_recovery D (exec : D -> bytes -> D * bytes) hack depth absmax lag (w : world D) ls w1 tr1 w2 tr2 f fl k togo :
  (1 <= depth)%nat -> N.of_nat (lag + window depth absmax + depth) < 65534 ->
  fresh hack depth w -> along (step D exec hack depth absmax) (timely hack lag) w ls ->
  run D exec hack depth absmax w ls = Some (w1, tr1) ->
  step D exec hack depth absmax w1 LTime = Some (w2, tr2) -> h_mode (w_hub _ w2) = MStat k togo -> h_fl (w_hub _ w2) = f :: fl ->
  exists w3 tr3 r,
    run D exec hack depth absmax w2 (round (length (w_up _ w1)) (length (w_down _ w2))) = Some (w3, tr3) /\
    answers tr3 = [(f_pid f, f_orig f ++ r)] /\ sent tr3 = [] /\
    nth_error (execs (tr1 ++ tr2 ++ tr3)) (length (answers tr1)) = Some (f_body f, r) /\
    (length (execs tr3) = if Nat.ltb (length (answers tr1)) (length (execs tr1)) then 0 else 1)%nat /\
    h_mode (w_hub _ w3) = MLoop /\ h_fl (w_hub _ w3) = fl.
Proof.
  intros D1 LAG FR AL RN ST MD FL.
  assert (B : id_ok (next_id (v_last _ (w_dev _ w)))) by (apply next_ok; apply FR).
  destruct (run_inv D exec hack depth absmax lag D1 LAG _ _ B ls w [] 0 0 w1 tr1 (inv_fresh exec hack depth absmax w FR) AL RN) as (m1 & n1 & _ & I1). cbn [app] in I1.
  destruct (step_inv D exec hack depth absmax lag D1 LAG _ _ B _ _ _ _ LTime _ _ I1 I ST) as (m & n & LE & I2).
  assert (E2 : tr2 = [] /\ w_up D w2 = w_up D w1 ++ [mkDg (w_sock D w2) (w_sent D w2) status_req]).
  { cbn [step] in ST. destruct (expire (w_hub D w1)) as [o|] eqn:EX; [|discriminate]. cbn [option_map] in ST. injection ST as ST.
    unfold expire in EX. unfold apply_hub in ST. destruct (h_mode (w_hub D w1)) eqn:M1; try discriminate.
    - destruct (Nat.leb togo0 1); injection EX as <-; injection ST as <- <-; discriminate MD.
    - destruct (Nat.ltb _ _); [destruct (h_box (w_hub D w1)); [destruct (h_fl (w_hub D w1))|]|]; try discriminate EX; injection EX as <-; injection ST as <- <-; try discriminate MD;
        (split; [reflexivity|cbn [w_up w_sock w_sent map]; reflexivity]).
    - destruct (Nat.leb togo0 1); injection EX as <-; injection ST as <- <-; try discriminate MD; (split; [reflexivity|cbn [w_up w_sock w_sent map]; reflexivity]).
    - destruct (Nat.eqb (k0 + 1) 5); injection EX as <-; injection ST as <- <-; try discriminate MD; (split; [reflexivity|cbn [w_up w_sock w_sent map]; reflexivity]). }
  destruct E2 as (-> & UP). rewrite app_nil_r in I2.
  assert (SM : N.of_nat (window depth absmax + depth) < 65534) by lia.
  destruct (recover D exec hack depth absmax D1 SM _ _ B w2 tr1 m n (w_up D w1) f fl k togo I2 MD FL UP) as (w3 & tr3 & r & R & AL3 & A & S & X0 & X & M3 & F3).
  assert (XL : length (execs tr1) = n) by (eapply inv_execs with (lag := lag); eauto).
  assert (ML : length (answers tr1) = m).
  { rewrite (i_ans _ _ _ _ _ _ _ _ _ _ _ I2), map_length, combine_length, firstn_length, map_length. pose proof (i_mn _ _ _ _ _ _ _ _ _ _ _ I2). lia. }
  exists w3, tr3, r. rewrite ML, XL. cbn [app]. repeat (split; [assumption|]). split; [|auto].
  rewrite X0. pose proof (i_mn _ _ _ _ _ _ _ _ _ _ _ I2). destruct (Nat.ltb_spec m n); destruct (Nat.eqb_spec n m); try lia; reflexivity.
Qed.

(** Both replies are lost; the replies are asked for again. *)
Definition lost_replies : list label :=
  [LCast req_a; LCast req_b; LTake; LUp 0 false; LDown 0 false; LTake; LUp 0 false; LUp 0 false; LLoseDown 0; LLoseDown 0].
Example C87_recovery_case :
  along (step N acc true 4 16) (timely true 10) acc_world lost_replies /\
  exists w1 tr1 w2, run N acc true 4 16 acc_world lost_replies = Some (w1, tr1) /\ step N acc true 4 16 w1 LTime = Some (w2, []) /\
    h_mode (w_hub _ w2) = MStat 0 5 /\ map f_pid (h_fl (w_hub _ w2)) = [7%nat; 9%nat] /\ length (w_up _ w1) = 0%nat /\ length (w_down _ w2) = 0%nat /\
    option_map (fun x => answers (snd x)) (run N acc true 4 16 w2 (round 0 0)) = Some [(7%nat, [0x20; 0x12; 0x34; 0xF0; 105])].
Proof. split; [timely_run|]. do 3 eexists. split; [vm_compute; reflexivity|]. split; [vm_compute; reflexivity|]. repeat (split; [reflexivity|]). vm_compute. reflexivity. Qed.

Print Assumptions C85_once.
Print Assumptions C85_restart.
Print Assumptions C86_timely.
Print Assumptions C85_stale_refuted.
Print Assumptions C86_told.
Print Assumptions C86_short_refuted.
Print Assumptions C86_malformed_refuted.
Print Assumptions C86_stopped_refuted.
Print Assumptions C86_order_refuted.
Print Assumptions C87_recovery.
