(** C93: the ControlHub and IPbus 1.3 targets. *)
From Coq Require Import NArith ZArith List Lia Bool PeanoNat ZifyBool ZifyNat ZifyN.
From Verif Require Import Hub HubSpec Hub13.
Import ListNotations.
Open Scope N_scope.

(** A request for an IPbus 1.3 target.  (Ten byte-order transactions and nothing
    else are what the device client itself asks for the status with.) *)
Definition good13 (r : req) : Prop := old_packet (q_pkt r) = true /\ q_pkt r <> status_req13.
(** The network may lose, delay and reorder datagrams, but not repeat them; nothing
    comes from others; the device client is not replaced. *)
Definition single (l : label) : Prop :=
  match l with LUp _ keep | LDown _ keep => keep = false | LNoise _ | LRestart => False | _ => True end.
(** A new device client: nothing to it or from it in the network. *)
Definition fresh13 {D} (w : world13 D) : Prop :=
  k_mode (x_hub D w) = KIdle /\ k_fl (x_hub D w) = None /\ x_up D w = [] /\ Forall (fun g => fst g <> x_sock D w) (x_down D w).
(** Whose requests are in the device client. *)
Definition waiting13 (h : hub13) : list pid := match k_mode h with KSetup r _ _ => [q_pid r] | _ => [] end ++ fl13 h ++ map q_pid (k_box h).

Lemma same_eq a : forall b, same a b = true <-> a = b.
Proof.
  induction a as [|x a IH]; intros [|y b]; cbn [same]; split; intros H; try discriminate; trivial.
  - apply andb_prop in H. destruct H as (E & H). apply N.eqb_eq in E. apply IH in H. congruence.
  - injection H as -> ->. rewrite N.eqb_refl. apply IH. reflexivity.
Qed.
Lemma old_ctl p : old_packet p = true -> ctl13 p = true /\ first_version p = Some false.
Proof.
  unfold old_packet. intros H. apply andb_prop in H. destruct H as (L & H). destruct p as [|b0 [|b1 [|b2 [|b3 t]]]]; try discriminate L. cbn [nth] in H.
  assert (C : ctl13 (b0 :: b1 :: b2 :: b3 :: t) = true).
  { cbn [ctl13]. apply orb_prop in H. destruct H as [H|H]; apply orb_true_intro; [left; exact H|right]. lia. }
  split; [exact C|]. cbn [first_version ctl13] in *.
  destruct ((b0 =? 0x20) && (b3 / 16 =? 15)) eqn:E1; [exfalso; Z.div_mod_to_equations; lia|].
  destruct ((b0 / 16 =? 15) && (b3 =? 0x20)) eqn:E2; [exfalso; Z.div_mod_to_equations; lia|].
  destruct ((b0 / 16 =? 1) && (b2 =? 0) && (b3 / 8 =? 0x1F) && (b3 mod 4 =? 0)); [reflexivity|]. cbn [orb] in C. rewrite C. reflexivity.
Qed.
Lemma old_not_status p : old_packet p = true -> same p status_req = false.
Proof. intros H. destruct (same p status_req) eqn:E; [|reflexivity]. apply same_eq in E. subst p. discriminate. Qed.

Lemma drop_none {A} (f : A -> bool) l i : filter f l = [] -> filter f (drop i l) = [].
Proof.
  intros H. unfold drop. rewrite filter_app. rewrite <- (firstn_skipn i l), filter_app in H. apply app_eq_nil in H. destruct H as (H1 & H2). rewrite H1. cbn [app].
  clear H1. revert i H2. induction l as [|x l IH]; intros [|i] H; try reflexivity.
  - cbn [skipn] in *. cbn [filter] in H. destruct (f x); [discriminate|exact H].
  - cbn [skipn] in *. apply IH. exact H.
Qed.
Lemma drop_one {A} (f : A -> bool) l : forall i x, filter f l = [x] ->
  (filter f (drop i l) = [x] \/ filter f (drop i l) = []) /\ forall y, nth_error l i = Some y -> f y = true -> y = x /\ filter f (drop i l) = [].
Proof.
  induction l as [|a l IH]; intros i x H; [discriminate|]. destruct i as [|i].
  - unfold drop. cbn [firstn skipn app]. cbn [filter] in H. destruct (f a) eqn:FA.
    + injection H as -> H. rewrite H. split; [auto|]. intros y E _. injection E as <-. auto.
    + rewrite H. split; [auto|]. intros y E F. injection E as <-. congruence.
  - change (drop (S i) (a :: l)) with (a :: drop i l). cbn [filter] in *. destruct (f a) eqn:FA.
    + injection H as -> H. rewrite (drop_none f l i H). split; [auto|]. intros y E F. exfalso. cbn in E. apply nth_error_In in E.
      assert (In y (filter f l)) by (apply filter_In; auto). rewrite H in *. contradiction.
    + destruct (IH i x H) as (O & K). auto.
Qed.

Lemma nth_error_Some_lt' {A} (l : list A) n x : nth_error l n = Some x -> (n < length l)%nat.
Proof. intros H. apply nth_error_Some. congruence. Qed.
Lemma skip_add {A} k m : forall l : list A, skipn k (skipn m l) = skipn (m + k) l.
Proof. induction m as [|m IH]; intros [|x l]; trivial; [destruct k; reflexivity|apply IH]. Qed.
Section P.
Variable D : Type.
Variable exec : D -> bytes -> D * bytes.
Notation step := (step13 D exec).
Notation run := (run13 D exec).
Notation mine s := (filter (fun g : nat * bytes => Nat.eqb (fst g) s)).
Definition status_rep : bytes := concat (repeat [0xFC; 0; 0; 0x10] 10).

Definition flying (s : nat) (p : bytes) (up dn : list (nat * bytes)) (ys : list bytes) (m n : nat) : Prop :=
  n = m /\ up = [(s, p)] /\ dn = [] \/
  up = [] /\ (dn = [] /\ (n = m \/ n = S m) \/ n = S m /\ exists y, dn = [(s, y)] /\ nth_error ys m = Some y).
Definition phase (w : world13 D) (reqs : list req) (ys : list bytes) (m n : nat) : Prop :=
  let s := x_sock D w in let up := x_up D w in let dn := mine s (x_down D w) in
  let h := x_hub D w in
  match k_mode h with
  | KIdle => k_fl h = None /\ k_box h = reqs /\ up = [] /\ dn = [] /\ m = O /\ n = O
  | KSetup r v2 _ => v2 = false /\ k_fl h = None /\ reqs = r :: k_box h /\ m = O /\ n = O /\
      (up = [(s, status_req13)] /\ dn = [] \/ up = [] /\ (dn = [] \/ dn = [(s, status_rep)]))
  | KLoop => match k_fl h with
             | None => n = m /\ k_box h = skipn m reqs /\ up = [] /\ dn = []
             | Some (q, p) => exists r, q = q_pid r /\ p = q_pkt r /\ skipn m reqs = r :: k_box h /\ flying s p up dn ys m n
             end
  | KWait _ => exists r, k_fl h = Some (q_pid r, q_pkt r) /\ skipn m reqs = r :: k_box h /\ flying s (q_pkt r) up dn ys m n
  | KDead => k_fl h = None /\ k_box h = [] /\
      (up = [] \/ up = [(s, status_req13)] \/ exists r, up = [(s, q_pkt r)] /\ nth_error reqs m = Some r /\ n = m)
  end.
Definition dead (w : world13 D) : bool := match k_mode (x_hub D w) with KDead => true | _ => false end.
Definition replies (reqs : list req) (ys : list bytes) (m : nat) : list (pid * N * bytes) :=
  map (fun x => (q_pid (fst x), 0, snd x)) (combine (firstn m reqs) ys).

Record Inv (d0 : D) (w : world13 D) (tr : list ev) (reqs : list req) (m k : nat) (c : N) (n : nat) : Prop := mkInv {
  i_good : Forall good13 reqs;
  i_bounds : (m <= n <= length reqs)%nat /\ (n <= S m)%nat /\ (m + k <= length reqs)%nat;
  i_code : error_code c;
  i_exec : map fst (execs tr) = map q_pkt (firstn n reqs);
  i_dev : carried exec d0 (map fst (execs tr)) = (x_dev D w, map snd (execs tr));
  i_resp : responses tr = replies reqs (map snd (execs tr)) m ++ map (fun r => (q_pid r, c, [])) (firstn k (skipn m reqs));
  i_lost : lost_reqs tr = if dead w then skipn (m + k) reqs else [];
  i_k : dead w = false -> k = O;
  i_nc : no_crash tr;
  i_phase : phase w reqs (map snd (execs tr)) m n
}.

Lemma execs_app a b : execs (a ++ b) = execs a ++ execs b. Proof. apply flat_map_app. Qed.
Lemma resp_app a b : responses (a ++ b) = responses a ++ responses b. Proof. apply flat_map_app. Qed.
Lemma lost_app a b : lost_reqs (a ++ b) = lost_reqs a ++ lost_reqs b. Proof. apply flat_map_app. Qed.
Lemma carried_app l : forall d m, carried exec d (l ++ m) = let (d1, a) := carried exec d l in let (d2, b) := carried exec d1 m in (d2, a ++ b).
Proof.
  induction l as [|x l IH]; intros d m; cbn [app carried]; [destruct (carried exec d m); reflexivity|].
  destruct (exec d x) as (d1, r). rewrite IH. destruct (carried exec d1 l) as (d2, rs). destruct (carried exec d2 m). reflexivity.
Qed.

(** Nothing is carried out, answered or lost. *)
Lemma inv_quiet d0 w tr reqs m k c n w' : Inv d0 w tr reqs m k c n -> x_dev D w' = x_dev D w -> dead w' = dead w -> phase w' reqs (map snd (execs tr)) m n -> Inv d0 w' (tr ++ []) reqs m k c n.
Proof.
  intros [I1 I2 I3 I4 I5 I6 I7 I8 I9 I10] E DD P. rewrite app_nil_r. constructor; trivial; rewrite ?E, ?DD; auto.
Qed.
Lemma nth_skip {A} (l : list A) : forall m x t, skipn m l = x :: t -> nth_error l m = Some x /\ skipn (S m) l = t /\ (m < length l)%nat.
Proof. induction l as [|a l IH]; intros [|m] x t H; try discriminate; cbn [skipn] in *; [injection H as -> ->; cbn; repeat split; lia|]. destruct (IH _ _ _ H) as (A1 & B & C). cbn [nth_error length]. repeat split; trivial. lia. Qed.
Lemma firstn_S {A} (l : list A) m x : nth_error l m = Some x -> firstn (S m) l = firstn m l ++ [x].
Proof. revert m. induction l as [|a l IH]; intros [|m] H; try discriminate; [injection H as ->; reflexivity|]. cbn [firstn app]. f_equal. apply IH. exact H. Qed.
Lemma replies_more reqs ys y m : (m <= length ys)%nat -> replies reqs (ys ++ [y]) m = replies reqs ys m.
Proof.
  intros L. unfold replies. f_equal. assert (LE : (length (firstn m reqs) <= length ys)%nat) by (rewrite firstn_length; lia). revert LE. generalize (firstn m reqs). clear. intros l. revert ys. induction l as [|a l IH]; intros [|z ys] LE; cbn [length] in *; trivial; try lia.
  cbn [app combine]. f_equal. apply IH. lia.
Qed.
Lemma replies_next reqs ys m r y : nth_error reqs m = Some r -> nth_error ys m = Some y -> replies reqs ys (S m) = replies reqs ys m ++ [(q_pid r, 0, y)].
Proof.
  intros R Y. unfold replies. rewrite (firstn_S _ _ _ R). assert (LR : length (firstn m reqs) = m) by (rewrite firstn_length; apply nth_error_Some_lt' in R; lia).
  revert LR. generalize (firstn m reqs). clear R. intros l. revert m ys Y. induction l as [|a l IH]; intros m ys Y LR; cbn [length] in LR; subst m.
  - destruct ys; [discriminate|]. injection Y as ->. reflexivity.
  - destruct ys as [|z ys]; [discriminate|]. cbn [app combine map]. f_equal. apply (IH (length l)); trivial.
Qed.
Lemma replies_app reqs more ys m : (m <= length reqs)%nat -> replies (reqs ++ more) ys m = replies reqs ys m.
Proof. intros L. unfold replies. rewrite firstn_app. replace (m - length reqs)%nat with O by lia. rewrite app_nil_r. reflexivity. Qed.
Lemma execs_length d0 w tr reqs m k c n : Inv d0 w tr reqs m k c n -> length (map snd (execs tr)) = n.
Proof. intros I. rewrite map_length, <- (map_length fst), (i_exec _ _ _ _ _ _ _ _ I), map_length, firstn_length. pose proof (i_bounds _ _ _ _ _ _ _ _ I). lia. Qed.

(** A call. *)
Lemma step_cast d0 w tr reqs m k c n r w' e : Inv d0 w tr reqs m k c n -> good13 r -> step w (LCast r) = Some (w', e) -> Inv d0 w' (tr ++ e) (reqs ++ [r]) m k c n.
Proof.
  intros [I1 I2 I3 I4 I5 I6 I7 I8 I9 I10] G ST.
  assert (S1 : forall a, (a <= length reqs)%nat -> skipn a (reqs ++ [r]) = skipn a reqs ++ [r]) by (intros a L; rewrite skipn_app; replace (a - length reqs)%nat with O by lia; reflexivity).
  assert (F1 : forall a, (a <= length reqs)%nat -> firstn a (reqs ++ [r]) = firstn a reqs) by (intros a L; rewrite firstn_app; replace (a - length reqs)%nat with O by lia; apply app_nil_r).
  assert (FK : firstn k (skipn m (reqs ++ [r])) = firstn k (skipn m reqs)).
  { rewrite S1 by lia. rewrite firstn_app. replace (k - length (skipn m reqs))%nat with O by (rewrite skipn_length; lia). apply app_nil_r. }
  assert (GG : Forall good13 (reqs ++ [r])) by (apply Forall_app; auto).
  cbn [step13] in ST. destruct (k_mode (x_hub D w)) as [|r0 v2 togo| |j|] eqn:M.
  1-4: injection ST as <- <-; rewrite app_nil_r; assert (DE : dead w = false) by (unfold dead; rewrite M; reflexivity); rewrite DE in I7; specialize (I8 DE); subst k;
    (constructor; [exact GG|rewrite app_length; cbn [length]; lia|exact I3|rewrite F1 by lia; exact I4|exact I5|rewrite FK, replies_app by lia; exact I6|unfold dead; cbn [x_hub k_mode]; exact I7|reflexivity|exact I9|]);
    unfold phase in *; cbn [x_hub k_mode k_fl k_box x_sock x_up x_down]; rewrite M in I10.
  - destruct I10 as (A & B & C). rewrite B. auto.
  - destruct I10 as (A & B & C & E). rewrite C. auto.
  - destruct (k_fl (x_hub D w)) as [(q, p)|].
    + destruct I10 as (x & A & B & C & E). exists x. rewrite S1, C by lia. auto.
    + destruct I10 as (A & B & C). rewrite S1, B by lia. auto.
  - destruct I10 as (x & A & C & E). exists x. rewrite S1, C by lia. auto.
  - injection ST as <- <-. assert (DE : dead w = true) by (unfold dead; rewrite M; reflexivity). rewrite DE in I7.
    constructor; [exact GG|rewrite app_length; cbn [length]; lia|exact I3| | | | | | |].
    + rewrite execs_app. cbn [execs flat_map]. rewrite app_nil_r, F1 by lia. exact I4.
    + rewrite execs_app. cbn [execs flat_map]. rewrite app_nil_r. exact I5.
    + rewrite execs_app, resp_app. cbn [execs responses flat_map]. rewrite !app_nil_r, FK, replies_app by lia. exact I6.
    + rewrite lost_app, DE, S1, I7 by lia. reflexivity.
    + rewrite DE. discriminate.
    + unfold no_crash. rewrite in_app_iff. intros [X|[X|[]]]; [exact (I9 X)|discriminate].
    + rewrite execs_app. cbn [execs flat_map]. rewrite app_nil_r. unfold phase in *. rewrite M in *. destruct I10 as (A & B & C). split; [exact A|]. split; [exact B|].
      destruct C as [C|[C|(x & C1 & C2 & C3)]]; auto. right. right. exists x. split; [exact C1|]. split; [|exact C3]. rewrite nth_error_app1; [exact C2|]. apply nth_error_Some_lt' in C2. exact C2.
Qed.

(** The process stops and tells everybody. *)
Lemma told_all code (l : list req) : let e := map EHub (map (fun p : pid => VResp p code []) (map q_pid l)) in
  execs e = [] /\ responses e = map (fun r => (q_pid r, code, [])) l /\ lost_reqs e = [] /\ ~ In (EHub VCrash) e.
Proof.
  cbn zeta. induction l as [|x l (A & B & C & E)]; [repeat split; auto|]. cbn [map execs responses lost_reqs flat_map app]. split; [exact A|]. split; [cbn; f_equal; exact B|]. split; [exact C|]. intros [X|X]; [discriminate|exact (E X)].
Qed.
Lemma inv_give_up d0 w tr reqs m n ps code h : Inv d0 w tr reqs m 0 1 n -> dead w = false -> error_code code ->
  ps ++ map q_pid (k_box h) = map q_pid (skipn m reqs) ->
  (x_up D w = [] \/ x_up D w = [(x_sock D w, status_req13)] \/ exists r, x_up D w = [(x_sock D w, q_pkt r)] /\ nth_error reqs m = Some r /\ n = m) ->
  let o := apply13 D w (give_up13 h ps code) in
  exists k, Inv d0 (fst o) (tr ++ snd o) reqs m k code n.
Proof.
  intros [I1 I2 I3 I4 I5 I6 I7 I8 I9 I10] DE EC PS UP o. exists (length (skipn m reqs)). subst o. unfold give_up13, apply13. cbn [fst snd]. rewrite app_nil_r. rewrite PS.
  destruct (told_all code (skipn m reqs)) as (EX & RE & LO & NC).
  constructor; trivial.
  - rewrite skipn_length. lia.
  - rewrite execs_app, EX, app_nil_r. exact I4.
  - rewrite execs_app, EX, app_nil_r. exact I5.
  - rewrite execs_app, EX, app_nil_r, resp_app, RE, I6. cbn [firstn map]. rewrite app_nil_r, firstn_all. reflexivity.
  - rewrite lost_app, LO, I7, DE. unfold dead. cbn [x_hub k_mode app]. symmetry. apply skipn_all2. rewrite skipn_length. lia.
  - unfold dead. cbn [x_hub k_mode]. discriminate.
  - unfold no_crash in *. rewrite in_app_iff. tauto.
  - rewrite execs_app, EX, app_nil_r. unfold phase. cbn [x_hub k_mode k_fl k_box x_up x_sock]. auto.
Qed.
Lemma inv_code d0 w tr reqs m c n : Inv d0 w tr reqs m 0 c n -> Inv d0 w tr reqs m 0 1 n.
Proof. intros [I1 I2 I3 I4 I5 I6 I7 I8 I9 I10]. constructor; trivial. left. reflexivity. Qed.

Lemma alive_k d0 w tr reqs m k c n : Inv d0 w tr reqs m k c n -> dead w = false -> Inv d0 w tr reqs m 0 1 n.
Proof. intros I DE. pose proof (i_k _ _ _ _ _ _ _ _ I DE). subst k. eapply inv_code; eauto. Qed.

Lemma step_take d0 w tr reqs m k c n w' e : Inv d0 w tr reqs m k c n -> step w LTake = Some (w', e) -> Inv d0 w' (tr ++ e) reqs m k c n.
Proof.
  intros I ST. assert (I10 := i_phase _ _ _ _ _ _ _ _ I). cbn [step13] in ST. unfold take13 in ST. unfold phase in I10. destruct (k_box (x_hub D w)) as [|r t] eqn:B; [discriminate|].
  destruct (k_mode (x_hub D w)) as [|r0 v2 togo| |j|] eqn:M; try discriminate.
  - destruct I10 as (A & RQ & U & DN & M0 & N0). assert (G : good13 r) by (assert (X := i_good _ _ _ _ _ _ _ _ I); rewrite <- RQ in X; inversion X; assumption).
    destruct (old_ctl _ (proj1 G)) as (_ & V). rewrite V in ST. cbn [option_map apply13 map] in ST. injection ST as <- <-.
    apply inv_quiet with (w := w); trivial; [unfold dead; cbn [x_hub k_mode]; rewrite M; reflexivity|].
    unfold phase. cbn [x_hub k_mode k_fl k_box x_sock x_up x_down]. rewrite U, A. repeat (split; [trivial; fail|]). split; [symmetry; exact RQ|]. auto.
  - destruct (k_fl (x_hub D w)) as [(q, p)|] eqn:F; [discriminate|]. destruct I10 as (NM & BX & U & DN). destruct (nth_skip _ _ _ _ (eq_sym BX)) as (NE & SK & LT).
    assert (G : good13 r) by (assert (X := i_good _ _ _ _ _ _ _ _ I); rewrite Forall_forall in X; apply X; eapply nth_error_In; exact NE).
    destruct (old_ctl _ (proj1 G)) as (V & _). unfold send13 in ST. rewrite V in ST. cbn [option_map apply13 map] in ST. injection ST as <- <-.
    apply inv_quiet with (w := w); trivial; [unfold dead; cbn [x_hub k_mode]; rewrite M; reflexivity|].
    unfold phase. cbn [x_hub k_mode k_fl k_box x_sock x_up x_down]. exists r. repeat (split; [trivial; fail|]). split; [symmetry; exact BX|]. left. rewrite U, DN. auto.
Qed.

Lemma step_time d0 w tr reqs m k c n w' e : Inv d0 w tr reqs m k c n -> step w LTime = Some (w', e) -> exists k' c', Inv d0 w' (tr ++ e) reqs m k' c' n.
Proof.
  intros I ST. assert (I10 := i_phase _ _ _ _ _ _ _ _ I). cbn [step13] in ST. unfold expire13 in ST. unfold phase in I10.
  destruct (k_mode (x_hub D w)) as [|r0 v2 togo| |j|] eqn:M; try discriminate; assert (DE : dead w = false) by (unfold dead; rewrite M; reflexivity).
  - destruct I10 as (-> & A & RQ & M0 & N0 & NET). destruct (Nat.leb togo 1).
    + cbn [option_map] in ST. assert (X := inv_give_up d0 w tr reqs m n [q_pid r0] E_STATUS (x_hub D w) (alive_k _ _ _ _ _ _ _ _ I DE) DE).
      destruct X as (k' & X); [right; left; reflexivity|rewrite RQ, M0; reflexivity|destruct NET as [(U & _)|(U & _)]; auto|]. injection ST as <- <-. exists k', E_STATUS. exact X.
    + injection ST as <- <-. exists k, c. apply inv_quiet with (w := w); trivial; [unfold dead; cbn [x_hub k_mode]; rewrite M; reflexivity|].
      unfold phase. cbn [x_hub k_mode k_fl k_box x_sock x_up x_down map]. rewrite app_nil_r. repeat split; auto.
  - destruct (k_fl (x_hub D w)) as [(q, p)|] eqn:F.
    + cbn [option_map apply13 map] in ST. injection ST as <- <-. exists k, c. destruct I10 as (r & -> & -> & SK & FL). apply inv_quiet with (w := w); trivial; [unfold dead; cbn [x_hub k_mode]; rewrite M; reflexivity|].
      unfold phase. cbn [x_hub k_mode k_fl k_box x_sock x_up x_down]. rewrite app_nil_r. exists r. auto.
    + destruct (k_box (x_hub D w)) as [|b t] eqn:B; [|discriminate]. cbn [option_map apply13 map] in ST. injection ST as <- <-. destruct I10 as (NM & BX & U & DN). rewrite !app_nil_r.
      exists O, 1. apply (alive_k _ _ _ _ _ _ _ _ I) in DE as I0. destruct I0 as [J1 J2 J3 J4 J5 J6 J7 J8 J9 J10]. constructor; trivial.
      * rewrite J7, DE. unfold dead. cbn [x_hub k_mode]. rewrite Nat.add_0_r. exact BX.
      * unfold phase. cbn [x_hub k_mode k_fl k_box x_sock x_up x_down]. auto.
  - destruct I10 as (r & F & SK & FL). destruct (Nat.eqb (j + 1) 3).
    + cbn [option_map] in ST. unfold fl13 in ST. rewrite F in ST. assert (X := inv_give_up d0 w tr reqs m n [q_pid r] E_CONTROL (x_hub D w) (alive_k _ _ _ _ _ _ _ _ I DE) DE).
      destruct X as (k' & X); [left; reflexivity|rewrite SK; reflexivity| |injection ST as <- <-; exists k', E_CONTROL; exact X].
      destruct FL as [(NM & U & _)|(U & _)]; [right; right; exists r; repeat split; trivial; apply (nth_skip _ _ _ _ SK)|left; exact U].
    + injection ST as <- <-. exists k, c. apply inv_quiet with (w := w); trivial; [unfold dead; cbn [x_hub k_mode]; rewrite M; reflexivity|].
      unfold phase. cbn [x_hub k_mode k_fl k_box x_sock x_up x_down map]. rewrite app_nil_r. exists r. auto.
Qed.

Lemma nth_single {A} (x y : A) i : nth_error [x] i = Some y -> i = O /\ y = x.
Proof. destruct i as [|[|i]]; cbn; intros H; try discriminate. injection H as ->. auto. Qed.
Lemma nth_nil {A} (y : A) i : nth_error [] i = Some y -> False.
Proof. destruct i; discriminate. Qed.
Lemma mine_app s l p : mine s (l ++ [(s, p)]) = mine s l ++ [(s, p)].
Proof. rewrite filter_app. cbn [filter fst]. rewrite Nat.eqb_refl. reflexivity. Qed.

(** A request is carried out. *)
Lemma inv_exec d0 w tr reqs m k c r d y up dn : Inv d0 w tr reqs m k c m -> nth_error reqs m = Some r -> exec (x_dev D w) (q_pkt r) = (d, y) ->
  let w' := mkW13 D (x_hub D w) (x_sock D w) up dn d in
  phase w' reqs (map snd (execs tr) ++ [y]) m (S m) -> Inv d0 w' (tr ++ [EExec (q_pkt r) y]) reqs m k c (S m).
Proof.
  intros I R X w' P. assert (LE := execs_length _ _ _ _ _ _ _ _ I). destruct I as [I1 I2 I3 I4 I5 I6 I7 I8 I9 I10].
  assert (EX : execs (tr ++ [EExec (q_pkt r) y]) = execs tr ++ [(q_pkt r, y)]) by (rewrite execs_app; reflexivity).
  constructor; trivial.
  - apply nth_error_Some_lt' in R. lia.
  - rewrite EX, map_app, I4, (firstn_S _ _ _ R), map_app. reflexivity.
  - rewrite EX, !map_app, carried_app, I5. cbn [map fst snd carried]. rewrite X. reflexivity.
  - rewrite EX, resp_app, map_app. cbn [map snd]. rewrite replies_more by lia. rewrite I6. cbn [responses flat_map]. apply app_nil_r.
  - rewrite lost_app, I7. cbn [lost_reqs flat_map]. apply app_nil_r.
  - unfold no_crash in *. rewrite in_app_iff. intros [A|[A|[]]]; [exact (I9 A)|discriminate].
  - rewrite EX, map_app. exact P.
Qed.

Lemma good_exec r d : good13 r -> receive13 D exec d (q_pkt r) = let (d', y) := exec d (q_pkt r) in (d', Some y, Some (q_pkt r, y)).
Proof.
  intros (G & NS). unfold receive13. destruct (same (q_pkt r) status_req13) eqn:E; [apply same_eq in E; contradiction|]. rewrite (old_not_status _ G). reflexivity.
Qed.

Lemma step_up d0 w tr reqs m k c n i w' e : Inv d0 w tr reqs m k c n -> step w (LUp i false) = Some (w', e) -> exists n', Inv d0 w' (tr ++ e) reqs m k c n'.
Proof.
  intros I ST. assert (I10 := i_phase _ _ _ _ _ _ _ _ I). assert (LE := execs_length _ _ _ _ _ _ _ _ I). assert (GD := i_good _ _ _ _ _ _ _ _ I). cbn [step13] in ST. destruct (nth_error (x_up D w) i) as [g|] eqn:NE; [|discriminate].
  assert (ONE : forall p, x_up D w = [(x_sock D w, p)] -> i = O /\ g = (x_sock D w, p)) by (intros p U; rewrite U in NE; apply nth_single in NE; exact NE).
  assert (NONE : x_up D w = [] -> False) by (intros U; rewrite U in NE; eapply nth_nil; exact NE).
  assert (REQ : forall r, x_up D w = [(x_sock D w, q_pkt r)] -> nth_error reqs m = Some r -> n = m -> 
            (forall d y, let wn := mkW13 D (x_hub D w) (x_sock D w) [] (x_down D w ++ [(x_sock D w, y)]) d in phase wn reqs (map snd (execs tr) ++ [y]) m (S m)) -> exists n', Inv d0 w' (tr ++ e) reqs m k c n').
  { intros r U R NM P. rewrite NM in I. destruct (ONE _ U) as (-> & ->). assert (G : good13 r) by (rewrite Forall_forall in GD; apply GD; eapply nth_error_In; exact R).
    cbn [fst snd] in ST. rewrite (good_exec _ _ G) in ST. destruct (exec (x_dev D w) (q_pkt r)) as (d, y) eqn:EX. rewrite U in ST. cbn [drop firstn skipn app] in ST. injection ST as <- <-. exists (S m). exact (inv_exec d0 w tr reqs m k c r d y _ _ I R EX (P d y)). }
  assert (STAT : x_up D w = [(x_sock D w, status_req13)] -> w' = mkW13 D (x_hub D w) (x_sock D w) [] (x_down D w ++ [(x_sock D w, status_rep)]) (x_dev D w) /\ e = []).
  { intros U. destruct (ONE _ U) as (-> & ->). cbn [fst snd] in ST. unfold receive13 in ST. replace (same status_req13 status_req13) with true in ST by (symmetry; apply same_eq; reflexivity). rewrite U in ST. cbn [drop firstn skipn app] in ST. injection ST as <- <-. auto. }
  unfold phase in I10. destruct (k_mode (x_hub D w)) as [|r0 v2 togo| |j|] eqn:M.
  - exfalso. apply NONE. apply I10.
  - destruct I10 as (V & A & RQ & M0 & N0 & [(U & DN)|(U & _)]); [|contradiction]. destruct (STAT U) as (-> & ->). exists n. apply inv_quiet with (w := w); trivial.
    unfold phase. cbn [x_hub x_sock x_up x_down]. rewrite M, mine_app, DN. repeat (split; [assumption|]). right. auto.
  - destruct (k_fl (x_hub D w)) as [(q, p)|] eqn:F; [|exfalso; apply NONE; apply I10].
    destruct I10 as (r & -> & -> & SK & [(NM & U & DN)|(U & _)]); [|contradiction]. apply (REQ r U); trivial; [apply (nth_skip _ _ _ _ SK)|].
    intros d y wn. unfold phase, wn. cbn [x_hub x_sock x_up x_down]. rewrite M, F. exists r. repeat (split; [trivial; fail|]). rewrite mine_app, DN. right. split; [reflexivity|]. right. split; [reflexivity|]. exists y. split; [reflexivity|]. rewrite nth_error_app2 by lia. rewrite LE, NM, Nat.sub_diag. reflexivity.
  - destruct I10 as (r & F & SK & [(NM & U & DN)|(U & _)]); [|contradiction]. apply (REQ r U); trivial; [apply (nth_skip _ _ _ _ SK)|].
    intros d y wn. unfold phase, wn. cbn [x_hub x_sock x_up x_down]. rewrite M. exists r. repeat (split; [trivial; fail|]). rewrite mine_app, DN. right. split; [reflexivity|]. right. split; [reflexivity|]. exists y. split; [reflexivity|]. rewrite nth_error_app2 by lia. rewrite LE, NM, Nat.sub_diag. reflexivity.
  - destruct I10 as (F & B & [U|[U|(r & U & R & NM)]]); [contradiction| |].
    + destruct (STAT U) as (-> & ->). exists n. apply inv_quiet with (w := w); trivial. unfold phase. cbn [x_hub x_sock x_up x_down]. rewrite M. auto.
    + apply (REQ r U); trivial. intros d y wn. unfold phase, wn. cbn [x_hub x_sock x_up x_down]. rewrite M. auto.
Qed.

(** A reply is forwarded. *)
Lemma inv_reply d0 w tr reqs m r y c h dn : Inv d0 w tr reqs m 0 c (S m) -> dead w = false -> k_mode h = KLoop -> k_fl h = None -> skipn m reqs = r :: k_box h -> nth_error (map snd (execs tr)) m = Some y ->
  x_up D w = [] -> mine (x_sock D w) dn = [] ->
  Inv d0 (mkW13 D h (x_sock D w) [] dn (x_dev D w)) (tr ++ [EHub (VResp (q_pid r) E_OK y)]) reqs (S m) 0 c (S m).
Proof.
  intros [I1 I2 I3 I4 I5 I6 I7 I8 I9 I10] DE M F SK Y U DN. destruct (nth_skip _ _ _ _ SK) as (NE & SK' & LT).
  assert (EX : execs (tr ++ [EHub (VResp (q_pid r) E_OK y)]) = execs tr) by (rewrite execs_app; apply app_nil_r).
  constructor; trivial.
  - lia.
  - rewrite EX. exact I4.
  - rewrite EX. exact I5.
  - rewrite EX, resp_app, (replies_next _ _ _ _ _ NE Y), I6. cbn [firstn map]. rewrite !app_nil_r. reflexivity.
  - rewrite lost_app, I7, DE. unfold dead. cbn [x_hub]. rewrite M. reflexivity.
  - unfold no_crash in *. rewrite in_app_iff. intros [A|[A|[]]]; [exact (I9 A)|discriminate].
  - unfold phase. cbn [x_hub x_sock x_up x_down]. rewrite M, F. auto.
Qed.

Lemma step_down d0 w tr reqs m k c n i w' e : Inv d0 w tr reqs m k c n -> step w (LDown i false) = Some (w', e) -> exists m', Inv d0 w' (tr ++ e) reqs m' k c n.
Proof.
  intros I ST. assert (I10 := i_phase _ _ _ _ _ _ _ _ I). cbn [step13] in ST. destruct (nth_error (x_down D w) i) as [g|] eqn:NE; [|discriminate].
  destruct (Nat.eqb (fst g) (x_sock D w)) eqn:SO; [|discriminate].
  assert (ONE : forall p, mine (x_sock D w) (x_down D w) = [(x_sock D w, p)] -> g = (x_sock D w, p) /\ mine (x_sock D w) (drop i (x_down D w)) = []) by (intros p U; exact (proj2 (drop_one _ _ i _ U) g NE SO)).
  assert (NONE : mine (x_sock D w) (x_down D w) = [] -> False).
  { intros U. assert (IN : In g (mine (x_sock D w) (x_down D w))) by (apply filter_In; split; [eapply nth_error_In; exact NE|exact SO]). rewrite U in IN. exact IN. }
  unfold recv13 in ST. unfold phase in I10. destruct (k_mode (x_hub D w)) as [|r0 v2 togo| |j|] eqn:M; try discriminate.
  - exfalso. apply NONE. apply I10.
  - destruct I10 as (V & A & RQ & M0 & N0 & [(U & DN)|(U & [DN|DN])]); [contradiction|contradiction|]. destruct (ONE _ DN) as (-> & DR). cbn [snd] in ST.
    replace (same (hdr status_rep) [252; 0; 0; 16]) with true in ST by reflexivity.
    assert (G : good13 r0) by (assert (X := i_good _ _ _ _ _ _ _ _ I); rewrite RQ in X; inversion X; assumption).
    destruct (old_ctl _ (proj1 G)) as (V1 & _). unfold send13 in ST. rewrite V1 in ST. cbn [option_map apply13 map x_sock x_up x_down x_dev k_mode k_box] in ST. injection ST as <- <-. exists m.
    apply inv_quiet with (w := w); trivial; [unfold dead; cbn [x_hub k_mode]; rewrite M; reflexivity|].
    unfold phase. cbn [x_hub k_mode k_fl k_box x_sock x_up x_down]. exists r0. split; [reflexivity|]. split; [reflexivity|]. subst m. split; [exact RQ|]. left. rewrite U. auto.
  - destruct (k_fl (x_hub D w)) as [(q, p)|] eqn:F; [|exfalso; apply NONE; apply I10].
    destruct I10 as (r & -> & -> & SK & [(NM & U & DN)|(U & [(DN & _)|(NM & y & DN & Y)])]); [contradiction|contradiction|]. destruct (ONE _ DN) as (-> & DR). cbn [snd] in ST.
    unfold forward13 in ST. rewrite F in ST. cbn [option_map apply13 map x_sock x_up x_down x_dev] in ST. rewrite U, M in ST. injection ST as <- <-. exists (S m). assert (DE : dead w = false) by (unfold dead; rewrite M; reflexivity).
    assert (K0 := i_k _ _ _ _ _ _ _ _ I DE). subst k n. apply inv_reply; trivial.
  - destruct I10 as (r & F & SK & [(NM & U & DN)|(U & [(DN & _)|(NM & y & DN & Y)])]); [contradiction|contradiction|]. destruct (ONE _ DN) as (-> & DR). cbn [snd] in ST.
    unfold forward13 in ST. cbn [k_fl k_mode k_box] in ST. rewrite F in ST. cbn [option_map apply13 map x_sock x_up x_down x_dev] in ST. rewrite U in ST. injection ST as <- <-. exists (S m). assert (DE : dead w = false) by (unfold dead; rewrite M; reflexivity).
    assert (K0 := i_k _ _ _ _ _ _ _ _ I DE). subst k n. apply inv_reply; trivial.
Qed.

(** A datagram is lost. *)
Lemma drop_single {A} (x : A) i : drop i [x] = [x] \/ drop i [x] = [].
Proof. destruct i as [|[|i]]; cbn; auto. Qed.
Lemma drop_nil {A} i : @drop A i [] = [].
Proof. destruct i; reflexivity. Qed.
Lemma flying_lose s p up dn ys m n up' dn' : flying s p up dn ys m n -> up' = up \/ up' = [] -> dn' = dn \/ dn' = [] -> flying s p up' dn' ys m n.
Proof.
  unfold flying. intros F [->| ->] [->| ->]; trivial; destruct F as [(A & B & C)|(A & [(B & C)|(B & y & C & E)])]; subst; auto 6; right; split; auto.
  right. split; auto. exists y. auto.
Qed.
Lemma phase_lose w reqs ys m n up dn : phase w reqs ys m n ->
  (up = x_up D w \/ up = []) -> (mine (x_sock D w) dn = mine (x_sock D w) (x_down D w) \/ mine (x_sock D w) dn = []) ->
  phase (mkW13 D (x_hub D w) (x_sock D w) up dn (x_dev D w)) reqs ys m n.
Proof.
  unfold phase. cbn [x_hub x_sock x_up x_down]. intros P U DN. destruct (k_mode (x_hub D w)) as [|r0 v2 togo| |j|].
  - destruct P as (A & B & C & E & F). rewrite C, E in *. repeat split; try tauto.
  - destruct P as (A & B & C & E & F & G). repeat (split; [assumption|]). destruct G as [(G & H)|(G & [H|H])]; rewrite G, H in *; intuition.
  - destruct (k_fl (x_hub D w)) as [(q, p)|].
    + destruct P as (r & A & B & C & FL). exists r. repeat (split; [assumption|]). eapply flying_lose; eauto.
    + destruct P as (A & B & C & E). rewrite C, E in *. repeat split; try tauto.
  - destruct P as (r & A & B & FL). exists r. repeat (split; [assumption|]). eapply flying_lose; eauto.
  - destruct P as (A & B & C). repeat (split; [assumption|]). destruct U as [-> | ->]; auto.
Qed.
Lemma up_short w reqs ys m n : phase w reqs ys m n -> x_up D w = [] \/ exists x, x_up D w = [x].
Proof.
  unfold phase. destruct (k_mode (x_hub D w)) as [|r0 v2 togo| |j|].
  - intros (A & B & C & E). auto.
  - intros (A & B & C & E & F & [(G & H)|(G & H)]); eauto.
  - destruct (k_fl (x_hub D w)) as [(q, p)|]; [intros (r & A & B & C & [(E & G & H)|(G & H)]); eauto|intros (A & B & C & E); auto].
  - intros (r & A & B & [(E & G & H)|(G & H)]); eauto.
  - intros (A & B & [C|[C|(r & C & E)]]); eauto.
Qed.
Lemma down_short w reqs ys m n : dead w = false -> phase w reqs ys m n -> mine (x_sock D w) (x_down D w) = [] \/ exists x, mine (x_sock D w) (x_down D w) = [x].
Proof.
  unfold phase, dead. destruct (k_mode (x_hub D w)) as [|r0 v2 togo| |j|]; intros DE.
  - intros (A & B & C & E & F). auto.
  - intros (A & B & C & E & F & [(G & H)|(G & [H|H])]); eauto.
  - destruct (k_fl (x_hub D w)) as [(q, p)|]; [intros (r & A & B & C & [(E & G & H)|(G & [(H & K)|(H & y & K & J)])]); eauto|intros (A & B & C & E); auto].
  - intros (r & A & B & [(E & G & H)|(G & [(H & K)|(H & y & K & J)])]); eauto.
  - discriminate.
Qed.
Lemma step_lose_up d0 w tr reqs m k c n i w' e : Inv d0 w tr reqs m k c n -> step w (LLoseUp i) = Some (w', e) -> Inv d0 w' (tr ++ e) reqs m k c n.
Proof.
  intros I ST. assert (P := i_phase _ _ _ _ _ _ _ _ I). injection ST as <- <-. apply inv_quiet with (w := w); trivial. apply phase_lose; auto.
  destruct (up_short _ _ _ _ _ P) as [->|(x & ->)]; [rewrite drop_nil; auto|apply drop_single].
Qed.
Lemma step_lose_down d0 w tr reqs m k c n i w' e : Inv d0 w tr reqs m k c n -> step w (LLoseDown i) = Some (w', e) -> Inv d0 w' (tr ++ e) reqs m k c n.
Proof.
  intros I ST. assert (P := i_phase _ _ _ _ _ _ _ _ I). injection ST as <- <-. apply inv_quiet with (w := w); trivial.
  destruct (dead w) eqn:DE.
  - unfold phase, dead in *. cbn [x_hub x_sock x_up x_down]. destruct (k_mode (x_hub D w)); try discriminate. exact P.
  - apply phase_lose; auto. destruct (down_short _ _ _ _ _ DE P) as [E|(x & E)]; rewrite E; [right; apply drop_none; exact E|].
    destruct (proj1 (drop_one _ _ i _ E)) as [X|X]; auto.
Qed.

Lemma inv_run d0 ls : forall w tr reqs m k c n w' e, Inv d0 w tr reqs m k c n -> Forall single ls -> Forall good13 (asked ls) -> run w ls = Some (w', e) ->
  exists m' k' c' n', Inv d0 w' (tr ++ e) (reqs ++ asked ls) m' k' c' n'.
Proof.
  induction ls as [|l ls IH]; intros w tr reqs m k c n w' e I SG GD R.
  - injection R as <- <-. cbn [asked flat_map]. rewrite !app_nil_r. eauto.
  - cbn [run13] in R. destruct (step w l) as [(w1, e1)|] eqn:ST; [|discriminate]. destruct (run w1 ls) as [(w2, e2)|] eqn:R2; [|discriminate]. injection R as <- <-.
    inversion SG as [|? ? SL SG']; subst. cbn [asked flat_map] in GD. apply Forall_app in GD. destruct GD as (GL & GD).
    assert (X : exists m1 k1 c1 n1, Inv d0 w1 (tr ++ e1) (reqs ++ match l with LCast r => [r] | _ => [] end) m1 k1 c1 n1).
    { destruct l as [r| | |i kp|i kp|i|i|p|]; cbn [single] in SL; try contradiction; subst; rewrite ?app_nil_r.
      - exists m, k, c, n. apply (step_cast _ _ _ _ _ _ _ _ _ _ _ I); trivial. inversion GL; assumption.
      - exists m, k, c, n. apply (step_take _ _ _ _ _ _ _ _ _ _ I ST).
      - destruct (step_time _ _ _ _ _ _ _ _ _ _ I ST) as (k1 & c1 & X). eauto.
      - destruct (step_up _ _ _ _ _ _ _ _ _ _ _ I ST) as (n1 & X). eauto.
      - destruct (step_down _ _ _ _ _ _ _ _ _ _ _ I ST) as (m1 & X). eauto.
      - exists m, k, c, n. apply (step_lose_up _ _ _ _ _ _ _ _ _ _ _ I ST).
      - exists m, k, c, n. apply (step_lose_down _ _ _ _ _ _ _ _ _ _ _ I ST). }
    destruct X as (m1 & k1 & c1 & n1 & X). destruct (IH _ _ _ _ _ _ _ _ _ X SG' GD R2) as (m2 & k2 & c2 & n2 & Y).
    exists m2, k2, c2, n2. rewrite app_assoc. cbn [asked flat_map]. rewrite app_assoc. exact Y.
Qed.

Lemma inv_fresh w : fresh13 w -> Forall good13 (k_box (x_hub D w)) -> Inv (x_dev D w) w [] (k_box (x_hub D w)) 0 0 1 0.
Proof.
  intros (M & F & U & DN) G. assert (DE : dead w = false) by (unfold dead; rewrite M; reflexivity).
  constructor; trivial; try reflexivity; try lia.
  - left. reflexivity.
  - rewrite DE. reflexivity.
  - intros [].
  - unfold phase. rewrite M, F. repeat split; trivial. revert DN. generalize (x_down D w), (x_sock D w). clear. intros l s H. induction H as [|x l X H IH]; [reflexivity|]. cbn [filter]. apply Nat.eqb_neq in X. rewrite X. exact IH.
Qed.

Lemma waits w reqs ys m n : dead w = false -> phase w reqs ys m n -> waiting13 (x_hub D w) = map q_pid (skipn m reqs).
Proof.
  unfold phase, dead, waiting13, fl13. destruct (k_mode (x_hub D w)) as [|r0 v2 togo| |j|]; intros DE.
  - intros (A & B & C & E & -> & F). rewrite A, B. reflexivity.
  - intros (A & B & C & -> & F). rewrite B, C. reflexivity.
  - destruct (k_fl (x_hub D w)) as [(q, p)|]; [intros (r & -> & -> & -> & _); reflexivity|intros (A & -> & _); reflexivity].
  - intros (r & -> & -> & _). reflexivity.
  - discriminate.
Qed.

(** C93, without what it says about repeated datagrams (refuted below): with a network that loses, delays and reorders datagrams, but does not
    repeat them, requests to an IPbus 1.3 target are carried out in the order they
    were made, each at most once; whoever gets a reply gets that to their own
    request; when a request is given up, so are all that have not been answered;
    nobody is left without an answer but those who call a process that has ended. *)
Theorem C93_once_partial (w w' : world13 D) ls tr :
  fresh13 w -> Forall single ls -> run w ls = Some (w', tr) ->
  let reqs := k_box (x_hub D w) ++ asked ls in
  Forall good13 reqs ->
  no_crash tr /\
  exists answered failed code,
    let m := length answered in
    (** carried out: those answered, and perhaps one more *)
    (exists n, (m <= n <= S m)%nat /\ map fst (execs tr) = map q_pkt (firstn n reqs)) /\
    carried exec (x_dev D w) (map fst (execs tr)) = (x_dev D w', map snd (execs tr)) /\
    (** told: the replies, each to its request, and then errors *)
    reqs = answered ++ failed ++ skipn (m + length failed) reqs /\
    error_code code /\
    responses tr = map (fun x => (q_pid (fst x), 0, snd x)) (combine answered (map snd (execs tr))) ++ map (fun r => (q_pid r, code, [])) failed /\
    (m <= length (execs tr))%nat /\
    (** the others *)
    match k_mode (x_hub D w') with
    | KDead => lost_reqs tr = skipn (m + length failed) reqs
    | _ => lost_reqs tr = [] /\ failed = [] /\ waiting13 (x_hub D w') = map q_pid (skipn m reqs)
    end.
Proof.
  intros FR SG R reqs GD. assert (GD' := GD). unfold reqs in GD'. apply Forall_app in GD'. destruct GD' as (G1 & G2).
  destruct (inv_run (x_dev D w) ls w [] _ 0 0 1 0 w' tr (inv_fresh w FR G1) SG G2 R) as (m & k & c & n & I). cbn [app] in I. fold reqs in I.
  assert (LE := execs_length _ _ _ _ _ _ _ _ I). assert (BD := i_bounds _ _ _ _ _ _ _ _ I). split; [apply (i_nc _ _ _ _ _ _ _ _ I)|].
  exists (firstn m reqs), (firstn k (skipn m reqs)), c. cbn zeta.
  assert (LM : length (firstn m reqs) = m) by (rewrite firstn_length; lia). assert (LK : length (firstn k (skipn m reqs)) = k) by (rewrite firstn_length, skipn_length; lia). rewrite LM, LK.
  split; [exists n; split; [lia|apply (i_exec _ _ _ _ _ _ _ _ I)]|]. split; [apply (i_dev _ _ _ _ _ _ _ _ I)|].
  split. { rewrite <- (firstn_skipn m reqs) at 1. f_equal. rewrite <- (firstn_skipn k (skipn m reqs)) at 1. f_equal. apply skip_add. }
  split; [apply (i_code _ _ _ _ _ _ _ _ I)|]. split; [apply (i_resp _ _ _ _ _ _ _ _ I)|]. rewrite map_length in LE. split; [lia|].
  assert (L := i_lost _ _ _ _ _ _ _ _ I). assert (K := i_k _ _ _ _ _ _ _ _ I).
  assert (P := i_phase _ _ _ _ _ _ _ _ I). unfold dead in *. destruct (k_mode (x_hub D w')) eqn:M; trivial; (split; [exact L|]); specialize (K eq_refl); subst k; (split; [reflexivity|]); eapply waits; try exact P; unfold dead; rewrite M; reflexivity.
Qed.
End P.

Print Assumptions C93_once_partial.

(** A counter: every packet increments it; its reply is what the counter was. *)
Definition counter (d : N) (p : bytes) : N * bytes := (d + 1, [d]).
Definition ask (q : pid) (b : N) : label := LCast (mkReq q [0x10; b; 0; 0xF8; 0; 0; 0; b]).
Definition new13 : world13 N := mkW13 N (mkH13 KIdle None []) 3%nat [] [(2%nat, [1])] 7.

(** Beside C93: one request is answered, the reply to the next is lost. *)
Definition c93_ls : list label :=
  [ask 1%nat 0; ask 2%nat 1; LTake; LUp 0%nat false; LDown 1%nat false; LUp 0%nat false; LTime; LDown 1%nat false; LTake; LUp 0%nat false; LLoseDown 1%nat; LTime; LTime; ask 3%nat 2; LTime; LTime; ask 4%nat 3].
Example C93_case_hyps : fresh13 new13 /\ Forall single c93_ls /\ Forall good13 (k_box (x_hub N new13) ++ asked c93_ls).
Proof. split; [repeat split; repeat constructor; discriminate|]. split; [repeat constructor|]. repeat constructor; discriminate. Qed.
Example C93_case : option_map (fun x => (k_mode (x_hub N (fst x)), x_dev N (fst x), responses (snd x), lost_reqs (snd x))) (run13 N counter new13 c93_ls) =
  Some (KDead, 9, [(1%nat, 0, [7]); (2%nat, E_CONTROL, []); (3%nat, E_CONTROL, [])], [mkReq 4%nat [0x10; 3; 0; 0xF8; 0; 0; 0; 3]]).
Proof. vm_compute. reflexivity. Qed.

(** The claim is false if the network may repeat a datagram: a second copy of a
    reply is taken for the reply to the next request, which has not been carried
    out. *)
Theorem C93_dup_reply_refuted : exists ls w' tr, Forall good13 (asked ls) /\ fresh13 new13 /\ Forall (fun l => match l with LNoise _ | LRestart => False | _ => True end) ls /\
  run13 N counter new13 ls = Some (w', tr) /\ map q_pid (asked ls) = [1; 2]%nat /\
  length (execs tr) = 1%nat /\ responses tr = [(1%nat, 0, [7]); (2%nat, 0, [7])].
Proof.
  exists [ask 1%nat 0; ask 2%nat 1; LTake; LUp 0%nat false; LDown 1%nat false; LUp 0%nat false; LDown 1%nat true; LTake; LDown 1%nat false].
  eexists. eexists. split; [repeat constructor; discriminate|]. split; [apply C93_case_hyps|]. split; [repeat constructor|]. split; [vm_compute; reflexivity|]. vm_compute. auto.
Qed.
Print Assumptions C93_dup_reply_refuted.

(** A second copy of a request is carried out again. *)
Theorem C93_dup_request_refuted : exists ls w' tr, Forall good13 (asked ls) /\ fresh13 new13 /\ Forall (fun l => match l with LNoise _ | LRestart => False | _ => True end) ls /\
  run13 N counter new13 ls = Some (w', tr) /\ length (asked ls) = 1%nat /\ length (execs tr) = 2%nat.
Proof.
  exists [ask 1%nat 0; LTake; LUp 0%nat false; LDown 1%nat false; LUp 0%nat true; LUp 0%nat false].
  eexists. eexists. split; [repeat constructor; discriminate|]. split; [apply C93_case_hyps|]. split; [repeat constructor|]. split; [vm_compute; reflexivity|]. vm_compute. auto.
Qed.
Print Assumptions C93_dup_request_refuted.
