(** With a target that answers as it should, the device client of [Hub.v] never ends by a
    failed match, and all errors it reports come at its end. *)
From Coq Require Import NArith ZArith List Bool Lia PeanoNat ZifyBool ZifyNat ZifyN.
From Verif Require Import Hub HubSpec HubProofs HubInv HubAsk.
Import ListNotations.
Open Scope N_scope.

Definition ctl_label (l : label) : Prop := match l with LCast r => is_ctl r = true | _ => True end.

(** What is seen of one step: nothing but requests forwarded and replies without error;
    or the end. *)
Definition plain (v : hev) : Prop := match v with VSend _ => True | VResp _ c _ => c = 0 | VCrash => False end.
Definition shape (h : hub) (e : list ev) : Prop :=
  (forall v, In (EHub v) e -> plain v) \/
  (h_mode h = MDead /\ exists c ps, error_code c /\ e = map EHub (map (fun p => VResp p c []) ps)).

Lemma send_plain h r : is_ctl r = true -> h_next h <> 0 -> h_mode h = MLoop ->
  (forall v, In v (snd (send_request h r)) -> plain v) /\ h_mode (fst (fst (send_request h r))) = MLoop /\ h_max (fst (fst (send_request h r))) = h_max h.
Proof.
  intros C N0 M. unfold send_request. rewrite is_ctl_parse in C. destruct (parse_ctl (q_pkt r)); [|discriminate].
  destruct (N.eqb_spec (h_next h) 0); [contradiction|]. cbn [fst snd h_mode h_max]. split; [intros v [<-|[]]; exact I|auto].
Qed.
Lemma forward_plain h p : (4 <= length p)%nat -> h_mode h = MLoop ->
  (forall v, In v (snd (forward_reply h p)) -> plain v) /\ h_mode (fst (fst (forward_reply h p))) = MLoop /\ h_max (fst (fst (forward_reply h p))) = h_max h.
Proof.
  intros L M. unfold forward_reply. destruct (h_fl h); [cbn; intuition|]. destruct (Nat.ltb_spec (length p) 4); [lia|].
  destruct (same _ _); cbn [fst snd h_mode h_max]; (split; [|auto]); [intros v [<-|[]]; reflexivity|intros v []].
Qed.

Lemma shape_plain h vs : (forall v, In v vs -> plain v) -> shape h (map EHub vs).
Proof. intros P. left. intros v I. apply in_map_iff in I. destruct I as (x & E & I). injection E as <-. auto. Qed.
Lemma shape_give_up h ps c : error_code c -> shape (fst (fst (give_up h ps c))) (map EHub (snd (give_up h ps c))).
Proof. intros C. right. split; [reflexivity|]. exists c, (ps ++ map q_pid (h_box h)). auto. Qed.

Section S.
Variable D : Type.
Variable exec : D -> bytes -> D * bytes.
Variable hack : bool.
Variable depth absmax lag : nat.
Hypothesis D1 : (1 <= depth)%nat.
Hypothesis A1 : (1 <= absmax)%nat.
Hypothesis LAG : N.of_nat (lag + window depth absmax + depth) < 65534.
Variable d0 : D.
Variable b : N.
Hypothesis B : id_ok b.
Notation step := (step D exec hack depth absmax).
Notation run := (run D exec hack depth absmax).
Notation inv := (inv D exec hack depth absmax d0 b).
Notation world := (world D).

(** What keeps the process from ending by a failed match. *)
Definition calm (w : world) : Prop :=
  all_ctl (w_hub _ w) /\
  match h_mode (w_hub _ w) with
  | MIdle => Forall (fun g => g_sock g <> w_sock _ w) (w_up _ w) /\ Forall (fun g => g_sock g <> w_sock _ w) (w_down _ w)
  | MSetup _ _ _ | MDead => True
  | MLoop => (1 <= h_max (w_hub _ w))%nat
  | MStat _ _ | MWait _ _ => (1 <= h_max (w_hub _ w))%nat /\ h_fl (w_hub _ w) <> []
  end.
(** A step of the device client itself. *)
Lemma safe_hub (w w1 : world) o : calm w -> keeps o (pending (w_hub _ w)) -> w_hub _ w1 = fst (fst o) ->
  (shape (w_hub _ w1) (map EHub (snd o)) /\
   match h_mode (w_hub _ w1) with
   | MIdle => False
   | MSetup _ _ _ | MDead => True
   | MLoop => (1 <= h_max (w_hub _ w1))%nat
   | MStat _ _ | MWait _ _ => (1 <= h_max (w_hub _ w1))%nat /\ h_fl (w_hub _ w1) <> []
   end) -> calm w1 /\ shape (w_hub _ w1) (map EHub (snd o)).
Proof using Type.
  intros (AC & _) (rest & _ & _ & KP) H (S & M). split; [|exact S]. split.
  - rewrite H. apply all_ctl_pending, KP, all_ctl_pending, AC.
  - destruct (h_mode (w_hub _ w1)); auto. destruct M.
Qed.
Lemma apply_facts w (o : outcome) : w_hub _ (fst (apply_hub D w o)) = fst (fst o).
Proof using Type. destruct o as [[h ps] vs]. reflexivity. Qed.

Theorem safe_step w tr m n l w' e : inv w tr m n -> calm w -> timely hack lag w l -> ctl_label l -> step w l = Some (w', e) ->
  calm w' /\ shape (w_hub _ w') e.
Proof using D1 A1 LAG B.
  intros I C T CL ST. pose proof C as CM. destruct C as (AC & C). pose proof (i_mode _ _ _ _ _ _ _ _ _ _ _ I) as MO. unfold mode_ok in MO.
  destruct l as [r| | |i keep|i keep|i|i|p|]; cbn [Hub.step] in ST.
  - cbn [ctl_label] in CL. destruct (h_mode (w_hub D w)) eqn:MD; injection ST as <- <-;
      (split; [split|left; intros v V; cbn in V; intuition discriminate]); cbn [w_hub w_up w_down w_sock h_mode h_max h_fl]; try rewrite MD; auto;
      destruct AC as (B1 & B2); rewrite ?MD in B2; (split; [cbn [h_box]; try (apply Forall_app; split; [assumption|constructor; [assumption|constructor]]); assumption|cbn [h_mode]; rewrite ?MD; auto]).
  - destruct (take (w_hub D w)) as [o|] eqn:TK; [|discriminate]. cbn [option_map] in ST. injection ST as ST.
    assert (EE : e = map EHub (snd o)) by (destruct o as [[h ps] vs]; injection ST as _ <-; reflexivity).
    assert (EH : w_hub D w' = fst (fst o)) by (rewrite <- (apply_facts w o), ST; reflexivity). subst e.
    apply (safe_hub w w' o CM (take_keeps _ _ TK) EH). rewrite EH. clear ST EH.
    unfold take in TK. destruct (h_box (w_hub D w)) as [|r t] eqn:BX; [discriminate|].
    assert (RC : is_ctl r = true) by (destruct AC as (B1 & _); rewrite BX in B1; inversion B1; assumption).
    destruct (h_mode (w_hub D w)) eqn:MD; try discriminate.
    + assert (V : first_version (q_pkt r) = Some true) by (rewrite is_ctl_parse in RC; destruct (parse_ctl (q_pkt r)) eqn:P; [eapply parse_ctl_version, P|discriminate]).
      rewrite V in TK. injection TK as <-. cbn. split; [left; intros v []|exact Logic.I].
    + destruct (Nat.ltb _ _); [|discriminate]. injection TK as <-. destruct MO as (_ & NX & _).
      match goal with |- context [send_request ?h r] => set (h1 := h) end.
      destruct (send_plain h1 r RC) as (P1 & P2 & P3); [cbn; rewrite NX; pose proof (idn_ok b (length (sent tr))) as [? ?]; lia|reflexivity|].
      split; [apply shape_plain, P1|]. rewrite P2, P3. exact C.
  - destruct (expire (w_hub D w)) as [o|] eqn:TK; [|discriminate]. cbn [option_map] in ST. injection ST as ST.
    assert (EE : e = map EHub (snd o)) by (destruct o as [[h ps] vs]; injection ST as _ <-; reflexivity).
    assert (EH : w_hub D w' = fst (fst o)) by (rewrite <- (apply_facts w o), ST; reflexivity). subst e.
    apply (safe_hub w w' o CM (expire_keeps _ _ TK) EH). rewrite EH. clear ST EH.
    unfold expire in TK. destruct (h_mode (w_hub D w)) eqn:MD; try discriminate.
    + destruct (Nat.leb togo 1); injection TK as <-; [split; [apply shape_give_up; right; left; reflexivity|exact Logic.I]|]. cbn. split; [left; intros v []|exact Logic.I].
    + destruct (Nat.ltb_spec (length (h_fl (w_hub D w))) (h_max (w_hub D w))) as [L|L].
      * destruct (h_box (w_hub D w)); [|discriminate]. destruct (h_fl (w_hub D w)) eqn:FL; injection TK as <-; cbn; (split; [left; intros v []|auto]). split; [exact C|]. rewrite FL. discriminate.
      * injection TK as <-. cbn. split; [left; intros v []|]. split; [exact C|]. intros Z. rewrite Z in L. cbn in L. lia.
    + destruct (Nat.leb togo 1); injection TK as <-; [split; [apply shape_give_up; right; left; reflexivity|exact Logic.I]|]. cbn. split; [left; intros v []|exact C].
    + destruct (Nat.eqb (k + 1) 5); injection TK as <-; [split; [apply shape_give_up; destruct t; [left|right; right]; reflexivity|exact Logic.I]|]. cbn. split; [left; intros v []|exact C].
  - destruct (nth_error (w_up D w) i) as [g|] eqn:G; [|discriminate]. cbn [timely] in T. destruct (T g G) as (SK & _).
    destruct (receive D exec hack depth (w_dev D w) (g_bytes g)) as [[v r] x]. injection ST as <- <-. split.
    + split; [exact AC|]. cbn [w_hub w_up w_down w_sock]. destruct (h_mode (w_hub D w)); auto. destruct C as (C1 & _). rewrite Forall_forall in C1. exfalso. exact (C1 g (nth_error_In _ _ G) SK).
    + left. intros y Y. destruct x as [[b0 r0]|]; cbn in Y; intuition discriminate.
  - destruct (nth_error (w_down D w) i) as [g|] eqn:G; [|discriminate]. cbn [timely] in T. assert (TM := T g G).
    destruct (Nat.eqb_spec (g_sock g) (w_sock D w)) as [SK|]; [|discriminate].
    destruct (recv absmax (w_hub D w) (g_bytes g)) as [o|] eqn:RV; [|discriminate]. injection ST as ST.
    assert (EE : e = map EHub (snd o)) by (destruct o as [[h ps] vs]; injection ST as _ <-; reflexivity).
    assert (EH : w_hub D w' = fst (fst o)) by (destruct o as [[h ps] vs]; injection ST as <- _; reflexivity). subst e. clear ST.
    assert (GI := nth_error_In _ _ G). destruct (i_down _ _ _ _ _ _ _ _ _ _ _ I g GI SK) as (BN & U).
    apply (safe_hub w w' o CM (recv_keeps _ _ _ _ RV) EH). rewrite EH. clear EH.
    assert (DB : N.of_nat depth < 2 ^ 32) by (change (2 ^ 32) with 4294967296; lia).
    assert (NIDLE : h_mode (w_hub D w) <> MIdle).
    { intros MD. rewrite MD in C. destruct C as (_ & C2). rewrite Forall_forall in C2. exact (C2 g GI SK). }
    destruct U as [(x & XN & U)|(k & f & r & F & R & K1 & U)]; rewrite U in RV.
    + unfold recv in RV. rewrite hdr_status_with in RV. change (same [0x20; 0; 0; 0xF1] [0x20; 0; 0; 0xF1]) with true in RV. cbn beta iota in RV.
      rewrite parse_status_with in RV by (try apply idn_ok; assumption).
      destruct (h_mode (w_hub D w)) eqn:MD; try discriminate; try congruence.
      * injection RV as <-. match goal with |- context [send_request ?h _] => set (h1 := h) end.
        assert (RC : is_ctl r = true) by (destruct AC as (_ & B2); rewrite MD in B2; exact B2).
        destruct (send_plain h1 r RC) as (P1 & P2 & P3); [cbn; pose proof (idn_ok b x) as [? ?]; lia|reflexivity|].
        split; [apply shape_plain, P1|]. rewrite P2, P3. cbn. lia.
      * injection RV as <-. destruct (forward_plain (w_hub D w) (status_with depth (idn b x))) as (P1 & P2 & P3); [cbn; lia|exact MD|].
        split; [apply shape_plain, P1|]. rewrite P2, P3. exact C.
      * destruct C as (C1 & C2). destruct (h_fl (w_hub D w)) as [|f0 fl] eqn:HF; [congruence|]. injection RV as <-. cbn. split; [left; intros v []|]. split; [exact C1|]. rewrite HF. discriminate.
      * destruct (h_fl (w_hub D w)) as [|f0 fl] eqn:HF; [discriminate|]. destruct (same _ _); [|discriminate]. injection RV as <-.
        destruct (forward_plain (set_mode (w_hub D w) MLoop) (status_with depth (idn b x))) as (P1 & P2 & P3); [cbn; lia|reflexivity|].
        split; [apply shape_plain, P1|]. rewrite P2, P3. exact (proj1 C).
    + assert (FH := i_hdr _ _ _ _ _ _ _ _ _ _ _ I k f F).
      assert (L4 : (4 <= length (f_hdr f ++ r))%nat).
      { rewrite FH. destruct (ctl_header_form (idn b k) (order hack)) as (? & ? & ? & ? & E). rewrite E. cbn. lia. }
      assert (NS : same (hdr (f_hdr f ++ r)) [0x20; 0; 0; 0xF1] = false).
      { destruct (same _ _) eqn:SM; [|reflexivity]. apply same_spec in SM. rewrite FH, hdr_ctl in SM. exfalso. exact (ctl_not_status _ _ SM). }
      unfold recv in RV. rewrite NS in RV. cbn beta iota in RV.
      destruct (h_mode (w_hub D w)) eqn:MD; try discriminate; try congruence.
      * injection RV as <-. destruct (forward_plain (w_hub D w) (f_hdr f ++ r) L4 MD) as (P1 & P2 & P3). split; [apply shape_plain, P1|]. rewrite P2, P3. exact C.
      * destruct (h_fl (w_hub D w)) as [|f0 fl] eqn:HF; [discriminate|]. destruct (same _ _); [|discriminate]. injection RV as <-.
        destruct (forward_plain (set_mode (w_hub D w) MLoop) (f_hdr f ++ r) L4 eq_refl) as (P1 & P2 & P3).
        split; [apply shape_plain, P1|]. rewrite P2, P3. exact (proj1 C).
  - injection ST as <- <-. split; [|left; intros v []]. split; [exact AC|]. cbn [w_hub w_up w_down w_sock]. destruct (h_mode (w_hub D w)); auto.
    destruct C as (C1 & C2). split; [|exact C2]. rewrite Forall_forall in *. intros g H. apply C1. eapply in_drop, H.
  - injection ST as <- <-. split; [|left; intros v []]. split; [exact AC|]. cbn [w_hub w_up w_down w_sock]. destruct (h_mode (w_hub D w)); auto.
    destruct C as (C1 & C2). split; [exact C1|]. rewrite Forall_forall in *. intros g H. apply C2. eapply in_drop, H.
  - destruct T.
  - destruct T.
Qed.

(** Nothing is said after the end. *)
Lemma dead_step w l w' e : timely hack lag w l -> h_mode (w_hub _ w) = MDead -> step w l = Some (w', e) ->
  h_mode (w_hub _ w') = MDead /\ responses e = [] /\ answers e = [] /\ ended e = map q_pid (lost_reqs e).
Proof using Type.
  intros T M ST. apply step_shape in ST. destruct ST as [(o & X & H & -> & A)|[(H & E & A)|[(r & -> & _ & -> & ->)|[(r & -> & M' & -> & H)|(-> & _ & -> & H)]]]].
  - exfalso. destruct X as [X|[X|(p & X)]]; unfold take, expire, recv in X; rewrite M in X; try discriminate. destruct (h_box (w_hub D w)); discriminate.
  - rewrite H. destruct E as [-> |(b0 & r0 & ->)]; auto.
  - auto.
  - contradiction.
  - destruct T.
Qed.

Definition told (e : list ev) (h' : hub) : Prop :=
  exists c ps, error_code c /\ responses e = map (fun x => (fst x, 0, snd x)) (answers e) ++ map (fun p => (p, c, [])) ps /\
    ended e = map (fun x => fst (fst x)) (responses e) ++ map q_pid (lost_reqs e) /\
    (h_mode h' <> MDead -> ps = [] /\ lost_reqs e = []).

Lemma responses_app x y : responses (x ++ y) = responses x ++ responses y. Proof using Type. apply flat_map_app. Qed.
Lemma lost_app x y : lost_reqs (x ++ y) = lost_reqs x ++ lost_reqs y. Proof using Type. apply flat_map_app. Qed.

Lemma told_step w l w' e : timely hack lag w l -> h_mode (w_hub _ w) <> MDead -> step w l = Some (w', e) -> shape (w_hub _ w') e ->
  told e (w_hub _ w') /\ lost_reqs e = [].
Proof using Type.
  intros T M ST SH.
  assert (LE : lost_reqs e = []).
  { apply step_shape in ST. destruct ST as [(o & X & H & -> & A)|[(H & E & A)|[(r & -> & M' & _ & ->)|[(r & -> & _ & -> & H)|(-> & M' & -> & H)]]]]; try reflexivity; try contradiction.
    - clear. induction (snd o); [reflexivity|exact IHl].
    - destruct E as [-> |(b0 & r0 & ->)]; reflexivity. }
  split; [|exact LE]. assert (EN : ended e = map (fun x => fst (fst x)) (responses e) ++ map q_pid (lost_reqs e)).
  { rewrite LE. cbn [map]. rewrite app_nil_r. clear - LE. induction e as [|v e IH]; [reflexivity|]. cbn [lost_reqs flat_map] in LE.
    destruct v as [v|r|b0 r0]; [|discriminate|]; cbn [app] in LE; specialize (IH LE); unfold ended, responses in *; cbn [flat_map]; [|exact IH].
    destruct v; cbn [app map fst]; [exact IH|f_equal; exact IH|exact IH]. }
  destruct SH as [P|(MD & c & ps & C & ->)].
  - exists 1, []. split; [left; reflexivity|]. split; [|split; [exact EN|auto]]. cbn [map]. rewrite app_nil_r. clear - P.
    induction e as [|v e IH]; [reflexivity|]. unfold responses, answers in *. cbn [flat_map]. rewrite map_app, <- IH by (intros x X; apply P; right; exact X).
    destruct v as [v|r|b0 r0]; [|reflexivity|reflexivity]. specialize (P v (or_introl eq_refl)). destruct v; try reflexivity. cbn in P. subst code. reflexivity.
  - exists c, ps. split; [exact C|]. split; [|split; [exact EN|intros Z; contradiction]]. clear - C.
    assert (NZ : (c =? 0) = false) by (destruct C as [-> |[-> | ->]]; reflexivity).
    unfold responses, answers. induction ps as [|p ps IH]; [reflexivity|]. cbn [map flat_map]. rewrite NZ. cbn [app]. cbn [app] in IH. rewrite IH.
    assert (Z : flat_map (fun e : ev => match e with EHub (VResp p c r) => if c =? 0 then [(p, r)] else [] | _ => [] end) (map EHub (map (fun p => VResp p c []) ps)) = []).
    { clear - NZ. induction ps as [|p ps IH]; [reflexivity|]. cbn [map flat_map]. rewrite NZ. exact IH. }
    rewrite Z. reflexivity.
Qed.

Theorem safe_run ls : forall w tr m n w' e, inv w tr m n -> calm w -> along step (timely hack lag) w ls -> Forall (fun r => is_ctl r = true) (asked ls) ->
  run w ls = Some (w', e) -> no_crash e /\ told e (w_hub _ w').
Proof using D1 A1 LAG B.
  assert (DEAD : forall ks w w' e, h_mode (w_hub _ w) = MDead -> along step (timely hack lag) w ks -> run w ks = Some (w', e) ->
    h_mode (w_hub _ w') = MDead /\ responses e = [] /\ answers e = [] /\ ended e = map q_pid (lost_reqs e)).
  { induction ks as [|l ks IH]; intros w w' e M A R; [injection R as <- <-; auto|]. cbn [Hub.run] in R. cbn [along] in A. destruct A as (T & A).
    destruct (step w l) as [[w1 e1]|] eqn:ST; [|discriminate]. destruct (run w1 ks) as [[w2 e2]|] eqn:RN; [|discriminate]. injection R as <- <-.
    destruct (dead_step _ _ _ _ T M ST) as (M1 & R1 & A2 & E1). destruct (IH _ _ _ M1 A RN) as (M2 & R2 & A3 & E2).
    rewrite responses_app, answers_app, ended_app, lost_app, map_app, R1, R2, A2, A3, E1, E2. auto. }
  induction ls as [|l ls IH]; intros w tr m n w' e I C A F R.
  - injection R as <- <-. split; [intros []|]. exists 1, []. repeat split; auto. left; reflexivity.
  - cbn [Hub.run] in R. cbn [along] in A. destruct A as (T & A).
    destruct (step w l) as [[w1 e1]|] eqn:ST; [|discriminate]. destruct (run w1 ls) as [[w2 e2]|] eqn:RN; [|discriminate]. injection R as <- <-.
    change (l :: ls) with ([l] ++ ls) in F. rewrite asked_app in F. apply Forall_app in F. destruct F as (F1 & F2).
    assert (CL : ctl_label l) by (destruct l; try exact Logic.I; cbn in F1; inversion F1; assumption).
    destruct (safe_step _ _ _ _ _ _ _ I C T CL ST) as (C1 & SH).
    destruct (step_inv D exec hack depth absmax lag D1 LAG d0 b B _ _ _ _ _ _ _ I T ST) as (m1 & n1 & _ & I1).
    destruct (IH _ _ _ _ _ _ I1 C1 A F2 RN) as (NC2 & TL2).
    split.
    { intros X. apply in_app_or in X. destruct X as [X|X]; [|exact (NC2 X)]. destruct SH as [P|(_ & c & ps & _ & ->)]; [exact (P _ X)|].
      apply in_map_iff in X. destruct X as (v & V & X). injection V as ->. apply in_map_iff in X. destruct X as (q & Q & _). discriminate. }
    assert (DD : {h_mode (w_hub D w) = MDead} + {h_mode (w_hub D w) <> MDead}) by (destruct (h_mode (w_hub D w)); (left; reflexivity) || (right; discriminate)).
    destruct DD as [MD|MD].
    { destruct (dead_step _ _ _ _ T MD ST) as (M1 & R1 & A2 & E1). destruct (DEAD _ _ _ _ M1 A RN) as (M2 & R2 & A3 & E2).
      exists 1, []. rewrite responses_app, answers_app, ended_app, lost_app, map_app, R1, R2, A2, A3, E1, E2. cbn [map app]. split; [left; reflexivity|]. split; [reflexivity|]. split; [rewrite ?map_app; reflexivity|]. intros Z. contradiction. }
    destruct (told_step _ _ _ _ T MD ST SH) as ((c & ps & C0 & R1 & E1 & X1) & L1).
    assert (D2 : {h_mode (w_hub D w1) = MDead} + {h_mode (w_hub D w1) <> MDead}) by (destruct (h_mode (w_hub D w1)); (left; reflexivity) || (right; discriminate)).
    destruct D2 as [MD1|MD1].
    + destruct (DEAD _ _ _ _ MD1 A RN) as (M2 & R2 & A3 & E2). exists c, ps. split; [exact C0|].
      rewrite responses_app, answers_app, ended_app, lost_app, map_app, R2, A3, E2, E1, L1. cbn [map app]. rewrite !app_nil_r. split; [exact R1|]. split; [reflexivity|]. intros Z. contradiction.
    + destruct (X1 MD1) as (-> & _). cbn [map] in R1. rewrite app_nil_r in R1. destruct TL2 as (c2 & ps2 & C2 & R2 & E2 & X2).
      exists c2, ps2. split; [exact C2|]. rewrite responses_app, answers_app, ended_app, lost_app, !map_app, L1, E1, E2, R1, R2, L1. cbn [map app]. rewrite !app_nil_r, <- !app_assoc. split; [reflexivity|]. split; [|exact X2].
      rewrite map_app. rewrite <- !app_assoc. reflexivity.
Qed.
End S.
