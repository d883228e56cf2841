(** C99: nobody waits for ever at the ControlHub. *)
From Coq Require Import NArith List Bool PeanoNat Lia Permutation.
From Coq Require Import ZifyBool ZifyNat ZifyN.
From Verif Require Import Hub HubSpec Manager ManSpec CHub CHubSpec HubProofs HubAsk HubSafe Prop_Hub Prop_Manager Prop_CHub.
Import ListNotations.
Ltac Zify.zify_post_hook ::= idtac.
Open Scope nat_scope.

(** ** Specification *)

(** The steps the device client takes by itself: the next request, or a timeout. *)
Definition own_step (l : label) : bool := match l with LTake | LTime => true | _ => false end.
(** A request reaches it. *)
Definition is_cast (l : label) : bool := match l with LCast _ => true | _ => false end.
Definition count {A} (f : A -> bool) (l : list A) : nat := length (filter f l).

(** ** The device client *)

Section Device.
Variable D : Type.
Variable exec : D -> bytes -> D * bytes.
Variable hack : bool.
Variable depth absmax : nat.
Local Notation step := (Hub.step D exec hack depth absmax).
Local Notation run := (Hub.run D exec hack depth absmax).

(** Steps left of a recovery. *)
Definition small (h : hub) : Prop :=
  match h_mode h with
  | MIdle => h_fl h = []
  | MSetup _ _ togo => togo <= 5
  | MStat k togo => k <= 4 /\ togo <= 5
  | MWait k _ => k <= 4
  | _ => True
  end.
Definition left_in (m : mode) : nat :=
  match m with
  | MIdle => 33
  | MSetup _ _ togo => 65 + togo
  | MLoop => 33
  | MStat k togo => 6 * (4 - k) + togo + 2
  | MWait k _ => 6 * (4 - k) + 2
  | MDead => 0
  end.
Definition mu (h : hub) : nat := 32 * length (h_fl h) + 40 * length (h_box h) + left_in (h_mode h).

Lemma send_mu h r h' ps vs : h_mode h = MLoop -> send_request h r = (h', ps, vs) -> small h' /\ mu h' <= mu h + 32.
Proof.
  intros M. unfold send_request. destruct (parse_ctl (q_pkt r)).
  - destruct (h_next h =? 0)%N; cbn; intros E; injection E as <- <- <-; unfold small, mu; cbn [h_mode h_fl h_box left_in length];
      rewrite ?M; cbn [left_in]; rewrite ?app_length; cbn [length]; lia.
  - intros E. injection E as <- <- <-. unfold small. rewrite M. split; [exact I|lia].
Qed.
Lemma forward_mu h p h' ps vs : h_mode h = MLoop -> forward_reply h p = (h', ps, vs) -> small h' /\ mu h' <= mu h.
Proof.
  intros M. unfold forward_reply. destruct (h_fl h) as [|f fl] eqn:F.
  - intros E. injection E as <- <- <-. unfold small. rewrite M. split; [exact I|lia].
  - destruct (Nat.ltb (length p) 4).
    + intros E. injection E as <- <- <-. unfold small, mu. cbn. lia.
    + destruct (same (hdr p) (f_hdr f)); intros E; injection E as <- <- <-; unfold small, mu; cbn [h_mode h_fl h_box]; rewrite M, ?F; cbn [length left_in]; lia.
Qed.

Lemma take_mu h h' ps vs : small h -> take h = Some (h', ps, vs) -> small h' /\ mu h' < mu h.
Proof.
  intros S. unfold take. destruct (h_box h) as [|r t] eqn:B; [discriminate|].
  destruct (h_mode h) eqn:M; try discriminate.
  - destruct (first_version (q_pkt r)) as [v2|]; intros E; injection E as <- <- <-; unfold small, mu; cbn [set_mode crash h_mode h_fl h_box fst snd left_in length];
      rewrite ?M, ?B; cbn [left_in length]; lia.
  - destruct (Nat.ltb (length (h_fl h)) (h_max h)); [|discriminate]. intros E. injection E as E.
    apply send_mu in E; [|reflexivity]. destruct E as [E1 E2]. split; [exact E1|].
    unfold mu in *. cbn [h_mode h_fl h_box] in E2. rewrite M, B in *. cbn [left_in length] in *. lia.
Qed.
Lemma give_mu h ps c h' qs vs : Some (give_up h ps c) = Some (h', qs, vs) -> small h' /\ mu h' = 0.
Proof. intros E. injection E as <- <- <-. unfold small, mu. cbn. split; [exact I|reflexivity]. Qed.
Lemma left_pos m : m <> MDead -> 1 <= left_in m.
Proof. destruct m; cbn; try lia. congruence. Qed.
Lemma expire_mu h h' ps vs : small h -> expire h = Some (h', ps, vs) -> small h' /\ mu h' < mu h.
Proof.
  intros S. unfold expire. unfold small in S. destruct (h_mode h) eqn:M; try discriminate.
  - destruct (Nat.leb_spec togo 1).
    + intros E. apply give_mu in E. destruct E as [E1 E2]. split; [exact E1|]. unfold mu at 2. rewrite M. cbn [left_in]. lia.
    + intros E. injection E as <- <- <-. unfold small, mu. cbn [set_mode h_mode h_fl h_box]. rewrite M. cbn [left_in]. lia.
  - assert (X : forall a, (32 * length (h_fl h) + 40 * length (h_box h) + left_in (MStat 0 5)) < 32 * length (h_fl h) + 40 * length (h_box h) + 33 + a) by (cbn; lia).
    destruct (Nat.ltb (length (h_fl h)) (h_max h)).
    + destruct (h_box h); [|discriminate]. destruct (h_fl h) eqn:F; intros E; injection E as <- <- <-; unfold small, mu; cbn [set_mode h_mode h_fl h_box]; rewrite M, ?F; cbn [left_in length]; lia.
    + intros E; injection E as <- <- <-; unfold small, mu; cbn [set_mode h_mode h_fl h_box]; rewrite M; cbn [left_in length]; lia.
  - destruct (Nat.leb_spec togo 1).
    + intros E. apply give_mu in E. destruct E as [E1 E2]. split; [exact E1|]. unfold mu at 2. rewrite M. cbn [left_in]. lia.
    + intros E. injection E as <- <- <-. unfold small, mu. cbn [set_mode h_mode h_fl h_box]. rewrite M. cbn [left_in]. lia.
  - destruct (Nat.eqb_spec (k + 1) 5).
    + intros E. apply give_mu in E. destruct E as [E1 E2]. split; [exact E1|]. unfold mu at 2. rewrite M. cbn [left_in]. lia.
    + intros E. injection E as <- <- <-. unfold small, mu. cbn [set_mode h_mode h_fl h_box]. rewrite M. cbn [left_in]. lia.
Qed.
Lemma crash_mu h h' ps vs : Some (crash h) = Some (h', ps, vs) -> small h' /\ mu h' = 0.
Proof. intros E. injection E as <- <- <-. unfold small, mu. cbn. split; [exact I|reflexivity]. Qed.
Lemma recv_mu h p h' ps vs : small h -> recv absmax h p = Some (h', ps, vs) -> small h' /\ mu h' <= mu h.
Proof.
  intros S. unfold recv. unfold small in S. destruct (h_mode h) eqn:M; try discriminate.
  - intros E. apply crash_mu in E. split; [apply E|lia].
  - destruct (same _ _); [|discriminate]. destruct (parse_status p).
    + intros E. injection E as E. apply send_mu in E; [|reflexivity]. destruct E as [E1 E2]. split; [exact E1|].
      unfold mu in *. cbn [h_mode h_fl h_box length left_in] in E2. rewrite M. cbn [left_in]. lia.
    + intros E. apply give_mu in E. split; [apply E|lia].
    + intros E. apply crash_mu in E. split; [apply E|lia].
  - intros E. injection E as E. now apply forward_mu in E.
  - destruct (same _ _); [|discriminate]. destruct (parse_status p).
    + destruct (h_fl h) as [|f fl] eqn:F; intros E.
      * apply crash_mu in E. split; [apply E|lia].
      * injection E as <- _ _. unfold small, mu. cbn [set_mode h_mode h_fl h_box]. rewrite M. cbn [left_in]. lia.
    + intros E. apply give_mu in E. split; [apply E|lia].
    + intros E. apply crash_mu in E. split; [apply E|lia].
  - destruct (h_fl h) as [|f fl] eqn:F; [discriminate|]. destruct (same (hdr p) (f_hdr f)) eqn:SM; [|discriminate].
    intros E. unfold forward_reply in E. cbn [set_mode h_fl h_mode h_next h_max h_box] in E. rewrite F, SM in E.
    destruct (Nat.ltb (length p) 4).
    + apply crash_mu in E. split; [apply E|lia].
    + injection E as <- _ _. unfold small, mu. cbn [h_mode h_fl h_box]. rewrite M, F. cbn [length left_in]. lia.
Qed.

Lemma apply_hub_hub (w : world D) h ps vs w' e : Some (apply_hub D w (h, ps, vs)) = Some (w', e) -> w_hub _ w' = h.
Proof. intros E. injection E as <- _. reflexivity. Qed.

Lemma step_mu w l w' e : small (w_hub _ w) -> l <> LRestart -> step w l = Some (w', e) ->
  small (w_hub _ w') /\ (if own_step l then 1 else 0) + mu (w_hub _ w') <= mu (w_hub _ w) + (if is_cast l then 40 else 0).
Proof.
  intros S NR ST. destruct l; cbn [own_step is_cast] in *; cbn [Hub.step] in ST.
  - destruct (h_mode (w_hub _ w)) eqn:M; injection ST as <- <-; unfold small, mu in *; cbn [w_hub h_mode h_fl h_box]; rewrite ?M in *; rewrite ?app_length; cbn [length left_in] in *; (split; [assumption || lia|lia]).
  - destruct (take (w_hub _ w)) as [[[h ps] vs]|] eqn:T; [|discriminate]. cbn [option_map] in ST. rewrite (apply_hub_hub _ _ _ _ _ _ ST). apply take_mu in T; [|exact S]. split; [apply T|lia].
  - destruct (expire (w_hub _ w)) as [[[h ps] vs]|] eqn:T; [|discriminate]. cbn [option_map] in ST. rewrite (apply_hub_hub _ _ _ _ _ _ ST). apply expire_mu in T; [|exact S]. split; [apply T|lia].
  - destruct (nth_error (w_up _ w) i); [|discriminate]. destruct (receive _ _ _ _ _ _) as [[v r] x]. injection ST as <- <-. cbn [w_hub]. split; [exact S|lia].
  - destruct (nth_error (w_down _ w) i) as [g|]; [|discriminate]. destruct (Nat.eqb _ _); [|discriminate].
    destruct (recv _ _ _) as [[[h ps] vs]|] eqn:T; [|discriminate]. cbn [option_map] in ST. rewrite (apply_hub_hub _ _ _ _ _ _ ST). apply recv_mu in T; [|exact S]. split; [apply T|lia].
  - injection ST as <- <-. cbn [w_hub]. split; [exact S|lia].
  - injection ST as <- <-. cbn [w_hub]. split; [exact S|lia].
  - destruct (recv _ _ _) as [[[h ps] vs]|] eqn:T; [|discriminate]. cbn [option_map] in ST. rewrite (apply_hub_hub _ _ _ _ _ _ ST). apply recv_mu in T; [|exact S]. split; [apply T|lia].
  - congruence.
Qed.

Lemma run_mu ls : forall w w' tr, small (w_hub _ w) -> ~ In LRestart ls -> run w ls = Some (w', tr) ->
  small (w_hub _ w') /\ count own_step ls + mu (w_hub _ w') <= mu (w_hub _ w) + 40 * count is_cast ls.
Proof.
  induction ls as [|l ls IH]; intros w w' tr S NR R.
  - injection R as <- <-. unfold count. cbn. split; [exact S|lia].
  - cbn [Hub.run] in R. destruct (step w l) as [[w1 e1]|] eqn:ST; [|discriminate]. destruct (run w1 ls) as [[w2 e2]|] eqn:RN; [|discriminate]. injection R as <- <-.
    assert (NL : l <> LRestart) by (intros ->; apply NR; now left).
    assert (NT : ~ In LRestart ls) by (intros H; apply NR; now right).
    destruct (step_mu _ _ _ _ S NL ST) as [S1 M1]. destruct (IH _ _ _ S1 NT RN) as [S2 M2]. split; [exact S2|].
    unfold count in *. cbn [filter]. destruct (own_step l), (is_cast l); cbn [length]; lia.
Qed.
End Device.

(** Whatever the network does and whatever comes from outside: with n requests, a
    device client takes at most 40 n + 33 steps of its own, and as long as it runs
    and somebody waits for it, it can take one. *)
Theorem C99_device D (exec : D -> bytes -> D * bytes) hack depth absmax (w w' : world D) ls tr :
  h_mode (w_hub _ w) = MIdle -> h_fl (w_hub _ w) = [] -> h_box (w_hub _ w) = [] -> ~ In LRestart ls ->
  run D exec hack depth absmax w ls = Some (w', tr) ->
  count own_step ls <= 40 * length (asked ls) + 33 /\
  (h_mode (w_hub _ w') <> MDead -> waiting (w_hub _ w') <> [] ->
   exists l w'' e, own_step l = true /\ step D exec hack depth absmax w' l = Some (w'', e)).
Proof.
  intros M F B NR R.
  assert (S : small (w_hub _ w)) by (unfold small; now rewrite M).
  destruct (run_mu _ _ _ _ _ _ _ _ _ S NR R) as [S' C]. split.
  - assert (E : count is_cast ls = length (asked ls)).
    { clear. induction ls as [|l ls IH]; [reflexivity|]. unfold count, asked in *. cbn [filter flat_map]. rewrite app_length, <- IH. destruct l; reflexivity. }
    unfold mu at 2 in C. rewrite M, F, B in C. cbn [length left_in] in C. lia.
  - intros ND WT. set (h := w_hub D w') in *.
    assert (X : take h <> None \/ expire h <> None).
    { unfold small in S'. unfold waiting, fl_pids in WT. unfold take, expire. destruct (h_mode h) eqn:HM.
      - left. rewrite S' in WT. destruct (h_box h); [now elim WT|]. destruct (first_version _); discriminate.
      - right. destruct (Nat.leb _ _); discriminate.
      - destruct (Nat.ltb (length (h_fl h)) (h_max h)); [|right; discriminate].
        destruct (h_box h); [right; destruct (h_fl h); discriminate|left; discriminate].
      - right. destruct (Nat.leb _ _); discriminate.
      - right. destruct (Nat.eqb _ _); discriminate.
      - now elim ND. }
    destruct X as [X|X].
    + destruct (take h) as [o|] eqn:T; [|now elim X]. exists LTake. cbn [Hub.step]. fold h. rewrite T. destruct (apply_hub D w' o) as [a b] eqn:Q. exists a, b. cbn [option_map]. rewrite <- Q. split; reflexivity.
    + destruct (expire h) as [o|] eqn:T; [|now elim X]. exists LTime. cbn [Hub.step]. fold h. rewrite T. destruct (apply_hub D w' o) as [a b] eqn:Q. exists a, b. cbn [option_map]. rewrite <- Q. split; reflexivity.
Qed.

(** ** The whole ControlHub *)

(** The steps that are the ControlHub's own: a message is handed over, the device
    client goes on. *)
Definition wown (l : wlabel) : bool :=
  match l with WSend _ | WRead _ => true | WHub l => own_step l | WChunk _ _ => false end.
(** The number of requests of all clients. *)
Definition requests (ls : list wlabel) : nat :=
  list_sum (map (fun l => match l with WChunk _ reqs => length reqs | _ => 0 end) ls).

(** Two lists of numbers. *)
Lemma counts_le (B : list nat) : forall A, (forall p, count_occ Nat.eq_dec A p <= count_occ Nat.eq_dec B p) -> length A <= length B.
Proof.
  induction B as [|b B IH]; intros A H.
  - destruct A as [|a A]; [auto|]. specialize (H a). cbn in H. destruct (Nat.eq_dec a a); [lia|congruence].
  - destruct (in_dec Nat.eq_dec b A) as [I|I].
    + apply in_split in I. destruct I as (A1 & A2 & ->). rewrite app_length. cbn [length]. rewrite Nat.add_succ_r, <- app_length. apply le_n_S, IH. intros p. specialize (H p). rewrite count_occ_app in H |- *.
      cbn [count_occ] in H. destruct (Nat.eq_dec b p); lia.
    + apply Nat.le_trans with (length B); [|cbn; lia]. apply IH. intros p. specialize (H p). cbn [count_occ] in H. destruct (Nat.eq_dec b p) as [<-|]; [|exact H].
      apply (count_occ_not_In Nat.eq_dec) in I. rewrite I. lia.
Qed.
Lemma occ_filter {A} (f : A -> nat) (l : list A) p : count_occ Nat.eq_dec (map f l) p = length (filter (fun x => Nat.eqb (f x) p) l).
Proof. induction l as [|x l IH]; [reflexivity|]. cbn [map count_occ filter]. destruct (Nat.eq_dec (f x) p) as [E|E]; destruct (Nat.eqb_spec (f x) p); try congruence; cbn [length]; congruence. Qed.

Section Whole.
Variable D : Type.
Variable exec : D -> bytes -> D * bytes.
Variable hack : bool.
Variable depth absmax lag : nat.
Variable t : target.
Variable allow : target -> bool.
Hypothesis T : good_target t.
Hypothesis AL : allow t = true.
Hypothesis D1 : 1 <= depth.
Hypothesis A1 : 1 <= absmax.
Hypothesis LAG : (N.of_nat (lag + window depth absmax + depth) < 65534)%N.
Local Notation step := (Hub.step D exec hack depth absmax).
Local Notation wstep := (CHub.wstep D exec hack depth absmax t allow).
Local Notation wrun := (CHub.wrun D exec hack depth absmax t allow).

Definition is_send (l : wlabel) : bool := match l with WSend _ => true | _ => false end.
Definition is_read (l : wlabel) : bool := match l with WRead _ => true | _ => false end.
Definition hub_own (l : wlabel) : bool := match l with WHub l => own_step l | _ => false end.
Definition reader (l : wlabel) : list nat := match l with WRead p => [p] | _ => [] end.

(** What a step leaves in the trace. *)
Lemma wstep_seen W l W' e : wstep W l = Some (W', e) ->
  (if is_send l then 1 else 0) = length (asked (hub_labels e)) /\
  (if hub_own l then 1 else 0) = count own_step (hub_labels e) /\
  (forall p, count_occ Nat.eq_dec (reader l) p = length (heard (events_of p e))).
Proof.
  intros S. destruct l as [q reqs|q|q|l]; cbn [CHub.wstep] in S.
  - destruct (man_step allow (c_man D W q) _) as [[m cs] out]. injection S as <- <-. cbn. split; [reflexivity|]. split; [reflexivity|]. intros p. destruct (Nat.eqb q p); reflexivity.
  - destruct (c_out D W q) as [|x rest]; [discriminate|]. destruct (step _ _) as [[? ?]|]; [|discriminate]. injection S as <- <-. cbn. auto.
  - destruct (c_in D W q) as [|[c d] rest]; [discriminate|]. destruct (man_step allow (c_man D W q) _) as [[m cs] out]. injection S as <- <-. split; [reflexivity|]. split; [reflexivity|]. intros p. cbn.
    destruct (Nat.eq_dec q p); destruct (Nat.eqb_spec q p); try congruence; reflexivity.
  - destruct l; try discriminate; destruct (step _ _) as [[? ?]|]; try discriminate; injection S as <- <-; cbn; auto.
Qed.
Lemma wrun_seen ls : forall W W' tr, wrun W ls = Some (W', tr) ->
  count is_send ls = length (asked (hub_labels tr)) /\ count hub_own ls = count own_step (hub_labels tr) /\
  (forall p, count_occ Nat.eq_dec (flat_map reader ls) p = length (heard (events_of p tr))).
Proof.
  induction ls as [|l ls IH]; intros W W' tr R.
  - injection R as <- <-. cbn. auto.
  - cbn [CHub.wrun] in R. destruct (wstep W l) as [[W1 e1]|] eqn:S; [|discriminate]. destruct (wrun W1 ls) as [[W2 e2]|] eqn:RN; [|discriminate]. injection R as <- <-.
    destruct (wstep_seen _ _ _ _ S) as (S1 & S2 & S3). destruct (IH _ _ _ RN) as (I1 & I2 & I3).
    rewrite hl_app. unfold asked, count in *. rewrite filter_app, flat_map_app, !app_length, <- S1, <- S2, <- I1, <- I2. cbn [filter flat_map].
    split; [destruct (is_send l); reflexivity|]. split; [destruct (hub_own l); reflexivity|]. intros p. rewrite count_occ_app, eo_app, heard_app, app_length, S3, I3. reflexivity.
Qed.
Lemma wown_split ls : count wown ls = count is_send ls + length (flat_map reader ls) + count hub_own ls.
Proof. unfold count. induction ls as [|l ls IH]; [reflexivity|]. cbn [filter flat_map]. rewrite app_length. destruct l as [| | |l]; cbn [wown is_send reader hub_own length]; try destruct (own_step l); cbn [length]; lia. Qed.

(** The clients of the requests. *)
Definition senders (ls : list wlabel) : list nat := flat_map (fun l => match l with WChunk p reqs => repeat p (length reqs) | _ => [] end) ls.
Lemma senders_len ls : length (senders ls) = requests ls.
Proof. induction ls as [|l ls IH]; [reflexivity|]. destruct l as [p reqs| | |]; try exact IH. cbn. rewrite app_length, repeat_length. f_equal. exact IH. Qed.
Lemma senders_occ ls p : count_occ Nat.eq_dec (senders ls) p = length (concat (chunks_by p ls)).
Proof.
  induction ls as [|l ls IH]; [reflexivity|]. change (l :: ls) with ([l] ++ ls). rewrite cb_app, concat_app, app_length, <- IH. unfold senders. rewrite flat_map_app, count_occ_app. f_equal. clear.
  destruct l as [q reqs| | |]; try reflexivity. cbn. rewrite app_nil_r. destruct (Nat.eqb_spec q p) as [->|E].
  - cbn. rewrite app_nil_r. induction reqs as [|x r IH]; [reflexivity|]. cbn. destruct (Nat.eq_dec p p); congruence.
  - cbn. induction reqs as [|x r IH]; [reflexivity|]. cbn. destruct (Nat.eq_dec q p); congruence.
Qed.

Lemma no_restart ls : forall w w' e, along step (prompt hack lag) w ls -> Hub.run D exec hack depth absmax w ls = Some (w', e) -> ~ In LRestart ls.
Proof.
  induction ls as [|l ls IH]; intros w w' e A R; [auto|]. cbn [along] in A. destruct A as (P & A). cbn [Hub.run] in R.
  destruct (step w l) as [[w1 e1]|]; [|discriminate]. destruct (Hub.run D exec hack depth absmax w1 ls) as [[w2 e2]|] eqn:RN; [|discriminate].
  intros [->|I]; [exact P|]. eapply IH; eauto.
Qed.

Lemma bound_at ls W W' tr : begun hack depth W -> Forall (good_label hack) ls -> wrun W ls = Some (W', tr) ->
  along step (prompt hack lag) (c_hub _ W) (hub_labels tr) ->
  count wown ls <= 42 * requests ls + 33.
Proof.
  intros BG G R PR. pose proof (wrun_hub _ _ _ _ _ _ _ _ _ _ _ R) as HR.
  destruct (wrun_seen _ _ _ _ R) as (S1 & S2 & S3).
  destruct (asked_good D exec hack depth absmax lag t allow T AL D1 A1 LAG _ _ _ _ BG G R) as (_ & AG).
  destruct (hub_side D exec hack depth absmax lag t allow T AL D1 A1 LAG _ _ _ _ BG G R PR) as (_ & _ & _ & _ & _ & _ & _ & _ & _ & _ & _ & RL).
  destruct (C99_device D exec hack depth absmax _ _ _ _ (proj1 (proj1 BG)) (proj1 (proj2 (proj1 BG))) (proj1 (proj2 BG)) (no_restart _ _ _ _ PR HR) HR) as (OW & _).
  assert (QA : length (asked (hub_labels tr)) <= requests ls).
  { rewrite <- senders_len, <- (map_length q_pid). apply counts_le. intros p. rewrite occ_filter, senders_occ. specialize (AG p). unfold cast_by in AG. rewrite map_length in AG. exact AG. }
  assert (QR : length (flat_map reader ls) <= requests ls).
  { rewrite <- senders_len. apply counts_le. intros p. rewrite S3, senders_occ. specialize (AG p). specialize (RL p).
    destruct (wrun_view D exec hack depth absmax t allow p _ _ _ _ R) as (cs & _ & _ & IN & _). rewrite (proj2 (proj2 (proj2 (proj2 BG) p))) in IN. cbn [app] in IN. rewrite IN, app_length in RL. lia. }
  rewrite wown_split, S1, S2. lia.
Qed.

(** Somebody was not told although they had sent requests: these got lost. *)
Definition lost_of (p : pid) (tr : list wev) : Prop := exists r, In r (lost_reqs (hub_events tr)) /\ q_pid r = p.

Lemma ended_occ e p : count_occ Nat.eq_dec (ended e) p = length (resp_for p e) + length (filter (fun r => Nat.eqb (q_pid r) p) (lost_reqs e)).
Proof.
  induction e as [|v e IH]; [reflexivity|]. change (v :: e) with ([v] ++ e). unfold lost_reqs. rewrite ended_app, rf_app, flat_map_app. fold (lost_reqs [v]) (lost_reqs e). etransitivity; [apply (count_occ_app Nat.eq_dec (ended [v]) (ended e) p)|]. rewrite (app_length (resp_for p [v])), filter_app, app_length.
  etransitivity; [apply Nat.add_cancel_l; exact IH|]. clear.
  destruct v as [[f|q c d|]|r|b r]; cbn; try lia.
  - destruct (Nat.eq_dec q p); destruct (Nat.eqb_spec q p); try congruence; cbn; lia.
  - destruct (Nat.eq_dec (q_pid r) p); destruct (Nat.eqb_spec (q_pid r) p); try congruence; cbn; lia.
Qed.
Lemma groups_full {A} (ks : list (list bytes)) : forall l : list A, length l = length (concat ks) -> map (@length _) (groups (map (@length _) ks) l) = map (@length _) ks.
Proof.
  induction ks as [|x ks IH]; intros l L; [destruct l; [reflexivity|discriminate]|]. cbn [map groups concat] in *. rewrite app_length in L.
  destruct (Nat.ltb_spec (length l) (length x)); [lia|]. cbn [map]. rewrite IH by (rewrite skipn_length; lia). rewrite firstn_length. f_equal. lia.
Qed.

Lemma stuck_done ls W W' tr p : begun hack depth W -> Forall (good_label hack) ls -> wrun W ls = Some (W', tr) ->
  along step (prompt hack lag) (c_hub _ W) (hub_labels tr) ->
  (forall l, In l [WSend p; WRead p; WHub LTake; WHub LTime] -> wstep W' l = None) ->
  map (@length _) (sent_to p tr) = map (@length _) (chunks_by p ls) \/ lost_of p tr.
Proof.
  intros BG G R PR ST. pose proof (wrun_hub _ _ _ _ _ _ _ _ _ _ _ R) as HR.
  destruct (existsb (fun r => Nat.eqb (q_pid r) p) (lost_reqs (hub_events tr))) eqn:LO.
  { right. apply existsb_exists in LO. destruct LO as (r & I & E). exists r. split; [exact I|]. now apply Nat.eqb_eq. }
  left.
  assert (LZ : filter (fun r => Nat.eqb (q_pid r) p) (lost_reqs (hub_events tr)) = []).
  { clear - LO. induction (lost_reqs (hub_events tr)) as [|r l IH]; [reflexivity|]. cbn in *. apply orb_false_iff in LO. destruct LO as (-> & LO). auto. }
  assert (CO : c_out _ W' p = []).
  { destruct (c_out _ W' p) as [|x rest] eqn:E; [reflexivity|]. exfalso. destruct (step (c_hub _ W') (LCast (mkReq p x))) as [[w e]|] eqn:S.
    - specialize (ST (WSend p) ltac:(cbn; auto)). cbn [CHub.wstep] in ST. rewrite E, S in ST. discriminate.
    - cbn [Hub.step] in S. destruct (h_mode _); discriminate. }
  assert (CI : c_in _ W' p = []).
  { destruct (c_in _ W' p) as [|[c d] rest] eqn:E; [reflexivity|]. exfalso. destruct (man_step allow (c_man D W' p) (MResp (message t c d))) as [[m cs] out] eqn:S.
    specialize (ST (WRead p) ltac:(cbn; auto)). cbn [CHub.wstep] in ST. rewrite E, S in ST. discriminate. }
  destruct (asked_good D exec hack depth absmax lag t allow T AL D1 A1 LAG _ _ _ _ BG G R) as (AG & _).
  pose proof (along_timely D exec hack depth absmax lag _ _ PR AG) as TM.
  pose proof BG as (FR & BX & _).
  assert (CT : Forall (fun r => is_ctl r = true) (h_box (w_hub D (c_hub D W)) ++ asked (hub_labels tr))).
  { rewrite BX. cbn [app]. eapply Forall_impl; [|exact AG]. cbn. intros r H. rewrite is_ctl_parse. apply parse_ctl_control in H. rewrite H. reflexivity. }
  destruct (C86_timely D exec hack depth absmax lag _ _ _ _ D1 A1 LAG FR TM CT HR) as (NC & _).
  destruct (C86_told D exec hack depth absmax _ _ _ _ (proj1 FR) (proj1 (proj2 FR)) BX HR NC) as (PM & _ & DD).
  assert (WZ : waiting (w_hub _ (c_hub _ W')) = []).
  { destruct (C99_device D exec hack depth absmax _ _ _ _ (proj1 FR) (proj1 (proj2 FR)) BX (no_restart _ _ _ _ PR HR) HR) as (_ & GO).
    destruct (waiting (w_hub _ (c_hub _ W'))) as [|x y] eqn:E; [reflexivity|]. exfalso.
    assert (ND : h_mode (w_hub _ (c_hub _ W')) <> MDead) by (intros M; specialize (DD M); discriminate).
    destruct (GO ND ltac:(discriminate)) as (l & w & e & O & S). assert (I : In (WHub l) [WSend p; WRead p; WHub LTake; WHub LTime]) by (destruct l; try discriminate O; cbn; auto).
    specialize (ST _ I). cbn [CHub.wstep] in ST. destruct l; try discriminate O; rewrite S in ST; discriminate. }
  rewrite WZ, app_nil_r in PM. pose proof (proj1 (Permutation_count_occ Nat.eq_dec _ _) PM p) as CP. rewrite ended_occ, LZ, occ_filter in CP. cbn [length] in CP.
  destruct (clients_more D exec hack depth absmax lag t allow T AL D1 A1 LAG _ _ _ _ BG G R PR) as (m & k & c & n & _ & _ & _ & _ & _ & _ & V).
  destruct (V p) as (_ & V2 & j & V3 & V4 & V5). rewrite CO, app_nil_r in V2. rewrite CI in V3. cbn [length] in V3.
  rewrite V4. apply groups_full. rewrite firstn_length, <- V2. unfold cast_by. rewrite map_length. lia.
Qed.
End Whole.

(** Whatever is lost, comes twice or out of order: the ControlHub takes at most
    42 n + 33 steps of its own for n requests; and as long as a chunk of some client
    has no answer, it can take one, unless a request of this client got to a device
    client that had stopped. *)
Theorem C99_answered D (exec : D -> bytes -> D * bytes) hack depth absmax lag t allow ls (W W' : whole D) tr :
  good_target t -> allow t = true ->
  1 <= depth -> 1 <= absmax -> (N.of_nat (lag + window depth absmax + depth) < 65534)%N ->
  begun hack depth W -> Forall (good_label hack) ls -> wrun D exec hack depth absmax t allow W ls = Some (W', tr) ->
  along (step D exec hack depth absmax) (prompt hack lag) (c_hub _ W) (hub_labels tr) ->
  count wown ls <= 42 * requests ls + 33 /\
  forall p, map (@length _) (sent_to p tr) = map (@length _) (chunks_by p ls) \/ lost_of p tr \/
    exists l W'' e, In l [WSend p; WRead p; WHub LTake; WHub LTime] /\ wstep D exec hack depth absmax t allow W' l = Some (W'', e).
Proof.
  intros T AL D1 A1 LAG BG G R PR. split; [exact (bound_at D exec hack depth absmax lag t allow T AL D1 A1 LAG ls W W' tr BG G R PR)|]. intros p.
  assert (X : (exists l W'' e, In l [WSend p; WRead p; WHub LTake; WHub LTime] /\ wstep D exec hack depth absmax t allow W' l = Some (W'', e)) \/
              forall l, In l [WSend p; WRead p; WHub LTake; WHub LTime] -> wstep D exec hack depth absmax t allow W' l = None).
  { generalize [WSend p; WRead p; WHub LTake; WHub LTime] as c. induction c as [|l c IH]; [right; intros l []|].
    destruct (wstep D exec hack depth absmax t allow W' l) as [[W1 e]|] eqn:E; [left; exists l, W1, e; split; [now left|exact E]|].
    destruct IH as [(l' & W1 & e & I & S)|IH]; [left; exists l', W1, e; split; [now right|exact S]|right]. intros l' [<-|I]; auto. }
  destruct X as [X|X]; [auto|]. destruct (stuck_done D exec hack depth absmax lag t allow T AL D1 A1 LAG ls W W' tr p BG G R PR X); auto.
Qed.

Lemma wrun_app D (exec : D -> bytes -> D * bytes) hack depth absmax t allow a : forall b (W W1 : whole D) e1 W2 e2,
  wrun D exec hack depth absmax t allow W a = Some (W1, e1) -> wrun D exec hack depth absmax t allow W1 b = Some (W2, e2) ->
  wrun D exec hack depth absmax t allow W (a ++ b) = Some (W2, e1 ++ e2).
Proof.
  induction a as [|l a IH]; intros b W W1 e1 W2 e2 R1 R2; [injection R1 as <- <-; exact R2|]. cbn [wrun app] in *.
  destruct (wstep D exec hack depth absmax t allow W l) as [[W3 e3]|]; [|discriminate]. destruct (wrun D exec hack depth absmax t allow W3 a) as [[W4 e4]|] eqn:R; [|discriminate].
  injection R1 as <- <-. rewrite (IH _ _ _ _ _ _ R R2), app_assoc. reflexivity.
Qed.
Lemma along_app D (exec : D -> bytes -> D * bytes) hack depth absmax P a : forall b (w w1 : world D) e, run D exec hack depth absmax w a = Some (w1, e) ->
  along (step D exec hack depth absmax) P w a -> along (step D exec hack depth absmax) P w1 b -> along (step D exec hack depth absmax) P w (a ++ b).
Proof.
  induction a as [|l a IH]; intros b w w1 e R A B; [injection R as <- <-; exact B|]. cbn [along app run] in *. destruct A as (A1 & A2). split; [exact A1|].
  destruct (step D exec hack depth absmax w l) as [[w2 e2]|]; [|exact I]. destruct (run D exec hack depth absmax w2 a) as [[w3 e3]|] eqn:RN; [|discriminate]. injection R as <- <-. eapply IH; eassumption.
Qed.

(** So whatever has happened, the ControlHub can go on by itself, even if the network
    delivers nothing more, until every chunk of a client has its answer, or a request
    of this client has been lost in that way. *)
Theorem C99_finish D (exec : D -> bytes -> D * bytes) hack depth absmax lag t allow ls (W W' : whole D) tr p :
  good_target t -> allow t = true ->
  1 <= depth -> 1 <= absmax -> (N.of_nat (lag + window depth absmax + depth) < 65534)%N ->
  begun hack depth W -> Forall (good_label hack) ls -> wrun D exec hack depth absmax t allow W ls = Some (W', tr) ->
  along (step D exec hack depth absmax) (prompt hack lag) (c_hub _ W) (hub_labels tr) ->
  exists ls' W'' tr', Forall (fun l => wown l = true) ls' /\ length ls' <= 42 * requests ls + 33 - count wown ls /\
    wrun D exec hack depth absmax t allow W' ls' = Some (W'', tr') /\
    along (step D exec hack depth absmax) (prompt hack lag) (c_hub _ W) (hub_labels (tr ++ tr')) /\
    (map (@length _) (sent_to p (tr ++ tr')) = map (@length _) (chunks_by p ls) \/ lost_of p (tr ++ tr')).
Proof.
  intros T AL D1 A1 LAG BG. remember (42 * requests ls + 33 - count wown ls) as k eqn:K. revert ls W' tr K.
  induction k as [k IH] using (well_founded_induction Nat.lt_wf_0). intros ls W' tr K G R PR.
  destruct (C99_answered D exec hack depth absmax lag t allow ls W W' tr T AL D1 A1 LAG BG G R PR) as (BN & DO).
  destruct (DO p) as [X|[X|(l & W1 & e & I & S)]].
  1, 2: exists [], W', []; split; [constructor|]; split; [cbn; lia|]; split; [reflexivity|]; rewrite app_nil_r; split; [exact PR|auto].
  assert (OW : wown l = true) by (destruct I as [<-|[<-|[<-|[<-|[]]]]]; reflexivity).
  assert (NC : forall q, chunks_by q [l] = []) by (destruct I as [<-|[<-|[<-|[<-|[]]]]]; reflexivity).
  assert (RZ : requests (ls ++ [l]) = requests ls).
  { unfold requests. rewrite map_app, list_sum_app. destruct I as [<-|[<-|[<-|[<-|[]]]]]; cbn; lia. }
  assert (CW : count wown (ls ++ [l]) = count wown ls + 1) by (unfold count; rewrite filter_app, app_length; cbn [filter]; rewrite OW; cbn; lia).
  assert (G1 : Forall (good_label hack) (ls ++ [l])) by (apply Forall_app; split; [exact G|constructor; [|constructor]]; destruct I as [<-|[<-|[<-|[<-|[]]]]]; exact Logic.I).
  assert (R1 : wrun D exec hack depth absmax t allow W (ls ++ [l]) = Some (W1, tr ++ e)).
  { rewrite <- (app_nil_r e). eapply wrun_app; [exact R|]. cbn [wrun]. rewrite S. reflexivity. }
  assert (P1 : along (step D exec hack depth absmax) (prompt hack lag) (c_hub _ W) (hub_labels (tr ++ e))).
  { rewrite hl_app. eapply along_app; [eapply wrun_hub, R|exact PR|]. clear - I S. destruct I as [<-|[<-|[<-|[<-|[]]]]]; cbn [wstep] in S.
    - destruct (c_out D W' p); [discriminate|]. destruct (step _ _ _ _ _ _ _) as [[? ?]|] eqn:E; [|discriminate]. injection S as <- <-. cbn [hub_labels flat_map app along]. rewrite E. split; exact Logic.I.
    - destruct (c_in D W' p) as [|[c d] rest]; [discriminate|]. destruct (man_step allow (c_man D W' p) _) as [[m cs] out]. injection S as <- <-. exact Logic.I.
    - destruct (step _ _ _ _ _ _ _) as [[? ?]|] eqn:E; [|discriminate]. injection S as <- <-. cbn [hub_labels flat_map app along]. rewrite E. split; exact Logic.I.
    - destruct (step _ _ _ _ _ _ _) as [[? ?]|] eqn:E; [|discriminate]. injection S as <- <-. cbn [hub_labels flat_map app along]. rewrite E. split; exact Logic.I. }
  assert (BN1 : count wown (ls ++ [l]) <= 42 * requests (ls ++ [l]) + 33) by exact (bound_at D exec hack depth absmax lag t allow T AL D1 A1 LAG _ _ _ _ BG G1 R1 P1).
  destruct (IH (42 * requests (ls ++ [l]) + 33 - count wown (ls ++ [l])) ltac:(lia) (ls ++ [l]) W1 (tr ++ e) eq_refl G1 R1 P1) as (ls' & W2 & tr' & F & LN & RN & PN & FIN).
  exists (l :: ls'), W2, (e ++ tr'). split; [constructor; assumption|]. split; [cbn [length]; lia|]. split; [cbn [wrun]; rewrite S, RN; reflexivity|]. rewrite <- app_assoc in PN. split; [exact PN|].
  rewrite cb_app, NC, app_nil_r, <- app_assoc in FIN. exact FIN.
Qed.

(** ** Cases *)

(** Three requests and a target that does not answer ([silent] of [Prop_Hub.v]): after
    six steps of its own two more follow, and all are told. *)
Example C99_device_case :
  h_mode (w_hub _ acc_world) = MIdle /\ h_fl (w_hub _ acc_world) = [] /\ h_box (w_hub _ acc_world) = [] /\ ~ In LRestart silent /\
  option_map (fun x => (h_mode (w_hub _ (fst x)), waiting (w_hub _ (fst x)))) (run N acc true 4 16 acc_world (firstn 11 silent)) = Some (MStat 0 2, [7; 9; 7]) /\
  count own_step (firstn 11 silent) = 6 /\ length (asked (firstn 11 silent)) = 3 /\
  option_map (fun x => (h_mode (w_hub _ (fst x)), waiting (w_hub _ (fst x)))) (run N acc true 4 16 acc_world silent) = Some (MDead, []).
Proof. do 3 (split; [reflexivity|]). split; [cbn; intuition discriminate|]. do 3 (split; [vm_compute; reflexivity|]). vm_compute. reflexivity. Qed.

(** The clients 7 and 9 of [Prop_CHub.v]; a reply is lost.  From then on the network
    delivers nothing: nine steps later everybody has been told. *)
Definition cut_off : list wlabel := firstn 14 busy.
Definition alone : list wlabel := repeat (WHub LTime) 6 ++ [WRead 7; WRead 9; WRead 7].
Example C99_answered_case :
  Forall (good_label true) cut_off /\ begun true 4 start /\
  exists W' tr, wrun N acc true 4 16 tgt (fun _ => true) start cut_off = Some (W', tr) /\
    along (step N acc true 4 16) (prompt true 10) acc_world (hub_labels tr) /\
    sent_to 7 tr = [] /\ chunks_by 7 cut_off = [[pkt_a; pkt_b]] /\ ~ lost_of 7 tr /\ count wown cut_off = 6 /\ requests cut_off = 3.
Proof.
  split; [|split; [apply busy_good|]].
  { pose proof (proj1 busy_good) as F. rewrite <- (firstn_skipn 14 busy) in F. apply Forall_app in F. apply F. }
  do 2 eexists. split; [vm_compute; reflexivity|]. split; [timely_run|]. split; [reflexivity|]. split; [reflexivity|]. split; [|split; reflexivity].
  intros (r & I & _). exact I.
Qed.
Example C99_finish_case :
  Forall (fun l => wown l = true) alone /\
  option_map (fun x => (sent_to 7 (snd x), sent_to 9 (snd x))) (wrun N acc true 4 16 tgt (fun _ => true) start (cut_off ++ alone)) =
    Some ([[mkR (Some tgt) 3 []; mkR (Some tgt) 3 []]], [[mkR (Some tgt) 3 []]]).
Proof. split; [repeat constructor|vm_compute; reflexivity]. Qed.

(** It is false that everybody gets an answer in the end: the device client has stopped
    because there was nothing to do, and a request comes before the registry knows. *)
Definition too_late : list wlabel :=
  [WChunk 9 [pkt_c]; WSend 9; WHub LTake; WHub (LUp 0 false); WHub (LDown 0 false); WHub (LUp 0 false); WHub (LDown 0 false); WRead 9; WHub LTime; WChunk 7 [pkt_a; pkt_b]; WSend 7; WSend 7].
Theorem C99_lost_refuted : ~ forall D (exec : D -> bytes -> D * bytes) hack depth absmax lag t allow ls (W W' : whole D) tr p,
  good_target t -> allow t = true ->
  1 <= depth -> 1 <= absmax -> (N.of_nat (lag + window depth absmax + depth) < 65534)%N ->
  begun hack depth W -> Forall (good_label hack) ls -> wrun D exec hack depth absmax t allow W ls = Some (W', tr) ->
  along (step D exec hack depth absmax) (prompt hack lag) (c_hub _ W) (hub_labels tr) ->
  exists ls' W'' tr', Forall (fun l => wown l = true) ls' /\ wrun D exec hack depth absmax t allow W' ls' = Some (W'', tr') /\
    map (@length _) (sent_to p (tr ++ tr')) = map (@length _) (chunks_by p ls).
Proof.
  intros H.
  assert (G : Forall (good_label true) too_late).
  { assert (G : good_req pkt_a /\ good_req pkt_b /\ good_req pkt_c) by (repeat split). destruct G as (GA & GB & GC).
    unfold too_late. repeat (constructor; [first [exact I|split; [split; [discriminate|repeat constructor]|repeat constructor]]|]). constructor. }
  destruct (wrun N acc true 4 16 tgt (fun _ => true) start too_late) as [[W' tr]|] eqn:R; [|vm_compute in R; discriminate].
  assert (P : along (step N acc true 4 16) (prompt true 10) (c_hub _ start) (hub_labels tr)) by (vm_compute in R; injection R as _ <-; timely_run).
  destruct (H N acc true 4 16 10 tgt (fun _ => true) too_late start W' tr 7 ltac:(repeat split) eq_refl ltac:(lia) ltac:(lia) ltac:(vm_compute; reflexivity) (proj2 busy_good) G R P) as (ls' & W2 & tr' & F & RN & E).
  assert (TR : option_map (fun x => (sent_to 7 (snd x), h_mode (w_hub _ (c_hub _ (fst x))), c_out _ (fst x) 7, c_out _ (fst x) 9, c_in _ (fst x) 7, c_in _ (fst x) 9)) (wrun N acc true 4 16 tgt (fun _ => true) start too_late) = Some ([], MDead, [], [], [], []))
    by (vm_compute; reflexivity).
  rewrite R in TR. cbn [option_map fst snd] in TR. injection TR as TR MD O7 O9 I7 I9.
  assert (Z : forall q, c_out _ W' q = [] /\ c_in _ W' q = []).
  { intros q. destruct (Nat.eqb_spec 7 q) as [<-|N7]; [auto|]. destruct (Nat.eqb_spec 9 q) as [<-|N9]; [auto|].
    assert (CZ : chunks_by q too_late = []).
    { unfold too_late, chunks_by. cbn [flat_map]. destruct (Nat.eqb_spec 7 q); [contradiction|]. destruct (Nat.eqb_spec 9 q); [contradiction|]. reflexivity. }
    destruct (C89_clients N acc true 4 16 10 tgt (fun _ => true) too_late start W' tr ltac:(repeat split) eq_refl ltac:(lia) ltac:(lia) ltac:(vm_compute; reflexivity) (proj2 busy_good) G R P) as (m & k & c & n & _ & _ & _ & _ & _ & _ & V).
    destruct (V q) as (_ & V2 & _). rewrite CZ in V2. apply app_eq_nil in V2. destruct V2 as (V2 & V3). split; [exact V3|].
    destruct (hub_side N acc true 4 16 10 tgt (fun _ => true) ltac:(repeat split) eq_refl ltac:(lia) ltac:(lia) ltac:(vm_compute; reflexivity) too_late start W' tr (proj2 busy_good) G R P) as (_ & _ & _ & _ & _ & _ & _ & _ & _ & _ & _ & RL).
    specialize (RL q). rewrite V2 in RL. destruct (wrun_view N acc true 4 16 tgt (fun _ => true) q _ _ _ _ R) as (cs & _ & _ & IN & _). cbn [start c_in app] in IN. rewrite IN, app_length in RL.
    destruct (c_in N W' q); [reflexivity|cbn [length] in RL; lia]. }
  destruct F as [|l ls' O F].
  { injection RN as _ <-. rewrite app_nil_r, TR in E. discriminate E. }
  cbn [wrun] in RN. destruct l as [|q|q|[]]; try discriminate O; cbn [wstep] in RN.
  - rewrite (proj1 (Z q)) in RN. discriminate.
  - rewrite (proj2 (Z q)) in RN. discriminate.
  - unfold step, take in RN. rewrite MD in RN. destruct (h_box _); discriminate.
  - unfold step, expire in RN. rewrite MD in RN. discriminate.
Qed.

Print Assumptions C99_device.
Print Assumptions C99_answered.
Print Assumptions C99_finish.
Print Assumptions C99_lost_refuted.
