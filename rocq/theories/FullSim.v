(** Proof layer: executions of [Full.v] as executions of [Shared.v].  The relation
    between the two, and the steps. *)
From Verif Require Import Word Bits Header WordLemmas HeaderProofs ValMem Client Validate Target Spec AtomicSpec System TargetRm Tx E2E Devices Sent WireSpec SentProofs.
From Verif Require Tcp.
From Verif Require Import Shared SharedSpec E2ECor Prop_E2E Net NetProofs NetProofs2 Prop_Frame Prop_Shared.
From Verif Require Import Hub HubSpec Manager ManSpec CHub CHubSpec Full FullSpec FullWords FullBytes.
From Coq Require Import NArith ZArith List Lia Bool PeanoNat ZifyBool ZifyNat ZifyN.
Import ListNotations.
Open Scope N_scope.

Lemma combine_app {A B} (a : list A) : forall (b : list A) (l : list B), combine (a ++ b) l = combine a l ++ combine b (skipn (length a) l).
Proof. induction a as [|x a IH]; intros b l; [reflexivity|]. destruct l as [|y l]; cbn [app combine length skipn]; [destruct b; reflexivity|]. rewrite IH. reflexivity. Qed.
Lemma mine_length {A} p (a : list req) : forall ys : list A, length ys = length a -> length (mine p (combine (map q_pid a) ys)) = length (cast_by p a).
Proof.
  unfold mine, cast_by. induction a as [|r a IH]; intros [|y ys] L; try discriminate; [reflexivity|]. cbn [map combine filter fst]. injection L as L. specialize (IH ys L). rewrite !map_length in *. destruct (Nat.eqb (q_pid r) p); cbn [length]; lia.
Qed.
Lemma mine_app {A} p (a b : list (pid * A)) : mine p (a ++ b) = mine p a ++ mine p b.
Proof. unfold mine. rewrite filter_app, map_app. reflexivity. Qed.
Lemma cast_app p a b : cast_by p (a ++ b) = cast_by p a ++ cast_by p b. Proof. unfold cast_by. rewrite filter_app, map_app. reflexivity. Qed.
Lemma app_split {A} (a b c e : list A) : a ++ b = c ++ e -> length a = length c -> a = c /\ b = e.
Proof. revert c. induction a as [|x a IH]; intros [|y c] E L; try discriminate; [auto|]. injection E as -> E. injection L as L. destruct (IH _ E L) as (-> & ->). auto. Qed.
Lemma cut_out {A} (a z p w s : list A) : a ++ z = p ++ w ++ s -> (length p + length w <= length a)%nat -> firstn (length w) (skipn (length p) a) = w.
Proof.
  intros E L. assert (X : firstn (length w) (skipn (length p) (a ++ z)) = w).
  { rewrite E, skipn_app, skipn_all, Nat.sub_diag. cbn [app skipn]. rewrite firstn_app, firstn_all, Nat.sub_diag. cbn [firstn]. apply app_nil_r. }
  rewrite <- X at 2. rewrite skipn_app, firstn_app, skipn_length. replace (length w - (length a - length p))%nat with 0%nat by lia. cbn [firstn]. rewrite app_nil_r. reflexivity.
Qed.
Lemma groups_nth {A B} (a : list (list B)) b c : forall rs : list A, (length a < length (groups (map (@length _) (a ++ b :: c)) rs))%nat ->
  nth_error (groups (map (@length _) (a ++ b :: c)) rs) (length a) = Some (firstn (length b) (skipn (length (concat a)) rs)) /\ (length (concat a) + length b <= length rs)%nat.
Proof.
  induction a as [|x a IH]; intros rs L; cbn [app map groups length concat] in *.
  - destruct (Nat.ltb_spec (length rs) (length b)); [cbn in L; lia|]. split; [reflexivity|lia].
  - destruct (Nat.ltb_spec (length rs) (length x)); [cbn in L; lia|]. cbn [length nth_error] in *. destruct (IH (skipn (length x) rs)) as (E & LE); [lia|]. rewrite E, app_length. rewrite skipn_length in LE. split; [|lia].
    rewrite Prop_Shared.skipn_plus. reflexivity.
Qed.
Lemma skipn_combine {A B} n : forall (a : list A) (b : list B), skipn n (combine a b) = combine (skipn n a) (skipn n b).
Proof. induction n as [|n IH]; intros [|x a] [|y b]; cbn [skipn combine]; try reflexivity; [destruct (skipn n a); reflexivity|apply IH]. Qed.
Lemma firstn_combine {A B} n : forall (a : list A) (b : list B), firstn n (combine a b) = combine (firstn n a) (firstn n b).
Proof. induction n as [|n IH]; intros [|x a] [|y b]; cbn [firstn combine]; try reflexivity. rewrite IH. reflexivity. Qed.
Lemma combine_map_l {A B C} (f : A -> C) (a : list A) : forall b : list B, combine (map f a) b = map (fun x => (f (fst x), snd x)) (combine a b).
Proof. induction a as [|x a IH]; intros [|y b]; cbn [map combine]; try reflexivity. rewrite IH. reflexivity. Qed.
Lemma nth_error_Some_lt {A} (l : list A) n x : nth_error l n = Some x -> (n < length l)%nat.
Proof. intros E. apply nth_error_Some. congruence. Qed.

Section F.
Variable D : Type.
Variable rd : D -> N -> D * N.
Variable wr : D -> N -> N -> D.
Variable cf : D -> N -> D * N.
Variable t : target.
Variable g : nat -> cfg.
Hypothesis RD : reads32 rd.
Hypothesis CF : reads32 cf.
Hypothesis T : good_target t.
Hypothesis H : forall p, hub_client t (g p).
Notation sh_run := (sh_run D rd wr cf g).
Notation sh_step := (sh_step D rd wr cf g).
Notation label := System.label.

(** ** Shared clients *)
Lemma shared_good ls d0 s p : (forall q, Forall op_ok (calls (steps_of q ls))) -> sh_run (init_shared D d0) ls = Some s ->
  y_bad D (sh_y D s p) = false /\ Forall (fun b => size_ok (g p) b /\ exists pk, repr_out (g p) b pk /\ wf_pk (g p) pk /\ fst pk <> []) (s_out (y_c D (sh_y D s p))).
Proof using H.
  intros FO R. destruct (run_ok D rd wr cf g ls _ _ R) as (h & E & K). cbn zeta in *. destruct (lived D rd wr cf (sh_dev D (init_shared D d0)) h) as (d, ws). cbn [fst snd] in *.
  specialize (K p [] []). rewrite app_nil_r in K. cbn [app] in K.
  change (as_told D (sh_y D (init_shared D d0) p) (of_client p ws, [])) with (start told [] (of_client p ws, [])) in K.
  assert (I := run_inv_rm told told_rd told_wr told_cf told_rm told_ext (g p) (proj1 (H p)) false [] (of_client p ws, []) (steps_of p ls) [] _ _ (init_inv told told_rd told_wr told_cf told_rm (g p) false [] _) (FO p) ltac:(discriminate) K).
  destruct I as (dr & gr & go & gc & I & B & AL & BD). cbn [as_told y_bad y_c y_rep y_dev y_wait] in *. split; [exact B|].
  destruct I as [_ IO IW _ _ _ _ _ SZ _]. cbn [as_told y_c] in *. clear - IO IW SZ. induction IO as [|b pk bs pks R F IH]; [constructor|]. inversion SZ; subst. inversion IW; subst. constructor; [|apply IH; assumption]. split; [assumption|]. exists pk. split; [exact R|]. tauto.
Qed.

Lemma sh_run_app a : forall s b, sh_run s (a ++ b) = match sh_run s a with Some s' => sh_run s' b | None => None end.
Proof using Type. induction a as [|l a IH]; intros s b; [reflexivity|]. cbn [Shared.sh_run app]. destruct (sh_step s l); [apply IH|reflexivity]. Qed.
Lemma steps_app p a b : steps_of p (a ++ b) = steps_of p a ++ steps_of p b.
Proof using Type. unfold steps_of. rewrite filter_app, map_app. reflexivity. Qed.
Lemma steps_own p q (ms : list label) : steps_of q (map (pair p) ms) = if Nat.eqb q p then ms else [].
Proof using Type.
  unfold steps_of. rewrite Nat.eqb_sym. destruct (Nat.eqb p q) eqn:E; induction ms as [|m ms IH]; cbn [map filter fst]; rewrite ?E; cbn [map snd]; congruence.
Qed.

(** ** The relation *)
(** What the user does, of the steps of a client. *)
Definition users (ls : list label) : list label := filter (fun l => match l with LTarget | LReply => false | _ => true end) ls.
(** A packet, and the reply of the target to it. *)
Definition bk (x : buf * bytes) : buf * list N := (fst x, back (fst x) (snd x)).
Definition goodx (p : nat) (x : buf * bytes) : Prop :=
  goodb (g p) (fst x) /\ dests_words (b_reply (fst x)) = N.of_nat (length (back (fst x) (snd x))) /\ exists k, length (snd x) = (4 * k)%nat.

(** One client: [R] packets with a reply, [X] packets carried out, [O] packets on
    their way to the target. *)
Definition csim (p : nat) (c : fclient) (y : sys D) (u ss : list label) (chunks : list (list bytes)) (sent : list (list response)) (xs : list bytes) : Prop :=
  exists R xsR xsX X O,
    chunks = map (map req_of) (R ++ fc_fly c) /\ fc_in c = map chunk_bytes (skipn (length R) sent) /\ (length R <= length sent)%nat /\
    concat (fc_fly c) = X ++ O /\ xs = xsR ++ xsX /\ length xsR = length (concat R) /\ length xsX = length X /\
    y_c D y = set_out (fc_st c) (O ++ s_out (fc_st c)) /\ y_rep D y = map bk (combine X xsX) /\ y_wait D y = fc_wait c /\ y_bad D y = fc_bad c /\
    Forall (goodb (g p)) (concat (fc_fly c) ++ s_out (fc_st c)) /\ Forall (goodx p) (combine X xsX) /\ w3 (fc_st c) /\
    users ss = u /\ (forall ms, u = ms ++ [LReturn] -> fc_fly c = [] /\ s_out (fc_st c) = [] /\ exists ms', ss = ms' ++ [LReturn]).

(** Everything. *)
Definition Sim (d0 : D) (F : nat -> fclient) (u : nat -> list label) (chunks : nat -> list (list bytes)) (sent : nat -> list (list response)) (reqs : list req) (ys : list bytes) (d : D) : Prop :=
  exists ls s, sh_run (init_shared D d0) ls = Some s /\ sh_dev D s = d /\
    forall p, csim p (F p) (sh_y D s p) (u p) (steps_of p ls) (chunks p) (sent p) (mine p (combine (map q_pid reqs) ys)).

Lemma calls_users ls : calls (users ls) = calls ls.
Proof using Type. unfold users. induction ls as [|[] ls IH]; cbn; rewrite ?IH; reflexivity. Qed.

(** Client [p] does something, the others nothing. *)
Lemma sh_own ms p : forall s s', sh_run s (map (pair p) ms) = Some s' -> forall q, q <> p -> sh_y D s' q = sh_y D s q.
Proof using Type.
  induction ms as [|m ms IH]; intros s s' R q NE; cbn [map Shared.sh_run] in R; [injection R as <-; reflexivity|].
  destruct (sh_step s (p, m)) as [s1|] eqn:S; [|discriminate]. rewrite (IH _ _ R q NE). unfold Shared.sh_step in S. cbn [fst snd] in S.
  destruct (System.step _ _ _ _ _ _ _); [|discriminate]. injection S as <-. cbn [sh_y]. destruct (Nat.eqb_spec q p); [contradiction|reflexivity].
Qed.

Lemma sim_one d0 F u chunks sent reqs ys d p ms F' u' chunks' sent' reqs' ys' d' :
  Sim d0 F u chunks sent reqs ys d ->
  (forall q, q <> p -> F' q = F q /\ u' q = u q /\ chunks' q = chunks q /\ sent' q = sent q /\ mine q (combine (map q_pid reqs') ys') = mine q (combine (map q_pid reqs) ys)) ->
  (forall ls s, sh_run (init_shared D d0) ls = Some s -> sh_dev D s = d -> (forall q, users (steps_of q ls) = u q) ->
     csim p (F p) (sh_y D s p) (u p) (steps_of p ls) (chunks p) (sent p) (mine p (combine (map q_pid reqs) ys)) ->
     exists s', sh_run s (map (pair p) ms) = Some s' /\ sh_dev D s' = d' /\
       csim p (F' p) (sh_y D s' p) (u' p) (steps_of p ls ++ ms) (chunks' p) (sent' p) (mine p (combine (map q_pid reqs') ys'))) ->
  Sim d0 F' u' chunks' sent' reqs' ys' d'.
Proof using Type.
  intros (ls & s & R & E & C) OT ST. destruct (ST ls s R E) as (s' & R' & E' & C'); [|apply C|].
  { intros q. destruct (C q) as (? & ? & ? & ? & ? & X). apply X. }
  exists (ls ++ map (pair p) ms), s'. rewrite sh_run_app, R. split; [exact R'|]. split; [exact E'|]. intros q. rewrite steps_app, steps_own. destruct (Nat.eqb_spec q p) as [->|NE]; [exact C'|].
  rewrite app_nil_r. destruct (OT q NE) as (-> & -> & -> & -> & ->). rewrite (sh_own _ _ _ _ R' q NE). apply C.
Qed.
Lemma put_same {A} (f : nat -> A) p x : put f p x p = x. Proof using Type. unfold put. rewrite Nat.eqb_refl. reflexivity. Qed.
Lemma put_other {A} (f : nat -> A) p x q : q <> p -> put f p x q = f q. Proof using Type. intros NE. unfold put. destruct (Nat.eqb_spec q p); [contradiction|reflexivity]. Qed.
Lemma last_not {A} (l ms : list A) x y : l ++ [x] = ms ++ [y] -> x <> y -> False.
Proof using Type. intros E N. apply app_inj_tail in E. destruct E. contradiction. Qed.
Lemma hb p : match g_hub (g p) with Some (ip, port) => ip < 2 ^ 32 /\ port < 2 ^ 32 | None => True end.
Proof using H. destruct (H p) as (_ & _ & -> & _). split; [apply turned4_lt|]. eapply N.lt_trans; [apply turned2_lt|reflexivity]. Qed.

Lemma good_again p c X O : concat (fc_fly c) = X ++ O -> Forall (goodb (g p)) (concat (fc_fly c)) -> forall st, w3 st ->
  Forall (fun b => size_ok (g p) b /\ exists pk, repr_out (g p) b pk /\ wf_pk (g p) pk /\ fst pk <> []) (O ++ s_out st) -> Forall (goodb (g p)) (concat (fc_fly c) ++ s_out st).
Proof using Type.
  intros E G st (W & _) F. apply Forall_app. split; [exact G|]. apply Forall_app in F. destruct F as (_ & F). clear - W F. induction F as [|b l B F IH]; [constructor|]. inversion W; subst. constructor; [|apply IH; assumption]. split; [assumption|exact B].
Qed.

Lemma rel_start (s : st) O : rel (s_heap s) (s_heap s) [] O s (set_out s (O ++ s_out s)).
Proof using Type. exists (s_ctr s), (s_cur s), [], (s_out s), (s_budget s). rewrite app_nil_r. destruct s; split; reflexivity. Qed.
Lemma rel_out h q s s' : rel h h [] q s s' -> s' = set_out s (q ++ s_out s).
Proof using Type. intros (? & ? & ? & ? & ? & -> & ->). reflexivity. Qed.

Lemma sim_ok d0 F u chunks sent reqs ys d : Sim d0 F u chunks sent reqs ys d -> (forall q, Forall op_ok (calls (u q))) -> forall p, fc_bad (F p) = false.
Proof using H.
  intros (ls & s & R & E & C) FO p. assert (U : forall q, Forall op_ok (calls (steps_of q ls))).
  { intros q. destruct (C q) as (? & ? & ? & ? & ? & X). rewrite <- calls_users. replace (users (steps_of q ls)) with (u q); [apply FO|symmetry; apply X]. }
  destruct (shared_good ls d0 s p U R) as (B & _). destruct (C p) as (? & ? & ? & ? & ? & X). rewrite <- B. symmetry. apply X.
Qed.

(** A call. *)
Lemma sim_op d0 F u chunks sent reqs ys d (p : nat) o : Sim d0 F u chunks sent reqs ys d -> (forall q, Forall op_ok (calls (put u p (u p ++ [LOp o]) q))) -> op_words o -> fc_wait (F p) = false ->
  let c := F p in
  Sim d0 (put F p match run_op (g p) (fc_st c) o with
                  | Ok s _ | Exc s _ => mkFc s false (fc_bad c) (fc_fly c) (fc_in c)
                  | Bad => mkFc (fc_st c) false true (fc_fly c) (fc_in c)
                  end) (put u p (u p ++ [LOp o])) chunks sent reqs ys d.
Proof using H.
  intros S FO WO WT c. apply (sim_one _ _ _ _ _ _ _ _ p [LOp o] _ _ _ _ _ _ _ S).
  { intros q NE. rewrite !put_other by exact NE. auto. }
  intros ls s R E U (R0 & xsR & xsX & X & O & C1 & C2 & C3 & C4 & C5 & C6 & C7 & C8 & C9 & C10 & C11 & C12 & C13 & C14 & C15 & C16). fold c in C1, C2, C4, C8, C10, C11, C12, C14, C16, WT.
  assert (OK : op_ok o). { specialize (FO p). rewrite put_same, calls_app in FO. apply Forall_app in FO. destruct FO as (_ & FO). inversion FO. assumption. }
  assert (RR := rres_op (s_heap (fc_st c)) (s_heap (fc_st c)) [] O eq_refl (g p) _ _ o (rel_start (fc_st c) O)). rewrite <- C8 in RR.
  assert (RW := rw_op (g p) (hb p) (fc_st c) o OK WO C14).
  set (c' := match run_op (g p) (fc_st c) o with
                  | Ok s _ | Exc s _ => mkFc s false (fc_bad c) (fc_fly c) (fc_in c)
                  | Bad => mkFc (fc_st c) false true (fc_fly c) (fc_in c)
                  end) in *.
  set (y' := mkSys D (set_out (fc_st c') (O ++ s_out (fc_st c'))) (y_rep D (sh_y D s p)) d false (fc_bad c')).
  assert (ST : sh_step s (p, LOp o) = Some (mkShared D (fun q => if Nat.eqb q p then y' else sh_y D s q) d)).
  { unfold Shared.sh_step. cbn [fst snd System.step with_dev y_wait y_c y_rep y_dev y_bad]. rewrite C10, WT, E.
    subst y' c'. destruct (run_op (g p) (fc_st c) o) as [s1 a|s1 e|], (run_op (g p) (y_c D (sh_y D s p)) o) as [s2 a2|s2 e2|]; try contradiction RR; cbn [y_dev fc_st fc_bad].
    - destruct RR as (RR & _). rewrite (rel_out _ _ _ _ RR), C11. reflexivity.
    - destruct RR as (RR & _). rewrite (rel_out _ _ _ _ RR), C11. reflexivity.
    - rewrite C8. reflexivity. }
  assert (FL : fc_fly c' = fc_fly c /\ fc_in c' = fc_in c /\ fc_wait c' = false /\ w3 (fc_st c')).
  { subst c'. destruct (run_op (g p) (fc_st c) o); cbn [rw] in RW; repeat split; try reflexivity; try apply RW; try apply C14. }
  destruct FL as (FL1 & FL2 & FL3 & FL4). clearbody c'. clear RR RW.
  assert (RUN : sh_run (init_shared D d0) (ls ++ map (pair p) [LOp o]) = Some (mkShared D (fun q => if Nat.eqb q p then y' else sh_y D s q) d)).
  { rewrite sh_run_app, R. cbn [map Shared.sh_run]. rewrite ST. reflexivity. }
  eexists. split; [cbn [map Shared.sh_run]; rewrite ST; reflexivity|]. split; [reflexivity|]. cbn [sh_y]. rewrite Nat.eqb_refl, !put_same.
  assert (UU : forall q, Forall op_ok (calls (steps_of q (ls ++ map (pair p) [LOp o])))).
  { intros q. specialize (FO q). rewrite steps_app, steps_own. destruct (Nat.eqb_spec q p) as [->|NE].
    - rewrite put_same in FO. rewrite <- U, calls_app, calls_users in FO. rewrite calls_app. exact FO.
    - rewrite put_other in FO by exact NE. rewrite <- U, calls_users in FO. rewrite app_nil_r. exact FO. }
  destruct (shared_good _ d0 _ p UU RUN) as (_ & SG). cbn [sh_y] in SG. rewrite Nat.eqb_refl in SG. cbn [y_c y'] in SG. cbn [set_out s_out] in SG.
  exists R0, xsR, xsX, X, O. rewrite FL1, FL2. split; [exact C1|]. split; [exact C2|]. split; [exact C3|]. split; [exact C4|]. split; [exact C5|]. split; [exact C6|]. split; [exact C7|]. split; [reflexivity|]. split; [exact C9|]. split; [symmetry; exact FL3|]. split; [reflexivity|].
  split; [apply (good_again p c X O C4); [apply Forall_app in C12; apply C12|exact FL4|exact SG]|]. split; [exact C13|]. split; [exact FL4|]. split.
  - unfold users in *. rewrite filter_app, C15. reflexivity.
  - intros ms EM. exfalso. eapply last_not; [exact EM|discriminate].
Qed.

(** dispatch() begins. *)
Lemma sim_dispatch d0 F u chunks sent reqs ys d (p : nat) : Sim d0 F u chunks sent reqs ys d -> (forall q, Forall op_ok (calls (put u p (u p ++ [LDispatch]) q))) -> fc_wait (F p) = false ->
  let c := F p in
  Sim d0 (put F p match s_cur (fc_st c) with
                  | None => c
                  | Some _ =>
                      match dispatch_send (g p) (fc_st c) with
                      | Ok s _ => mkFc s true (fc_bad c) (fc_fly c) (fc_in c)
                      | Exc s _ => mkFc s false (fc_bad c) (fc_fly c) (fc_in c)
                      | Bad => mkFc (fc_st c) false true (fc_fly c) (fc_in c)
                      end
                  end) (put u p (u p ++ [LDispatch])) chunks sent reqs ys d.
Proof using H.
  intros S FO WT c. apply (sim_one _ _ _ _ _ _ _ _ p [LDispatch] _ _ _ _ _ _ _ S).
  { intros q NE. rewrite !put_other by exact NE. auto. }
  intros ls s R E U (R0 & xsR & xsX & X & O & C1 & C2 & C3 & C4 & C5 & C6 & C7 & C8 & C9 & C10 & C11 & C12 & C13 & C14 & C15 & C16). fold c in C1, C2, C4, C8, C10, C11, C12, C14, C16, WT.
  assert (RR := rres_dispatch (s_heap (fc_st c)) (s_heap (fc_st c)) [] O (g p) _ _ (rel_start (fc_st c) O)). rewrite <- C8 in RR.
  assert (RW := rw_dispatch (g p) (hb p) (fc_st c) C14).
  match goal with |- context [put F p ?x] => set (c' := x) in * end.
  set (y' := mkSys D (set_out (fc_st c') (O ++ s_out (fc_st c'))) (y_rep D (sh_y D s p)) d (fc_wait c') (fc_bad c')).
  assert (CU : s_cur (y_c D (sh_y D s p)) = s_cur (fc_st c)) by (rewrite C8; reflexivity).
  assert (ST : sh_step s (p, LDispatch) = Some (mkShared D (fun q => if Nat.eqb q p then y' else sh_y D s q) d)).
  { unfold Shared.sh_step. cbn [fst snd System.step with_dev y_wait y_c y_rep y_dev y_bad]. rewrite C10, WT, E, CU.
    subst y' c'. destruct (s_cur (fc_st c)).
    - destruct (dispatch_send (g p) (fc_st c)) as [s1 a|s1 e|], (dispatch_send (g p) (y_c D (sh_y D s p))) as [s2 a2|s2 e2|]; try contradiction RR; cbn [y_dev fc_st fc_bad fc_wait].
      + destruct RR as (RR & _). rewrite (rel_out _ _ _ _ RR), C11. reflexivity.
      + destruct RR as (RR & _). rewrite (rel_out _ _ _ _ RR), C11. reflexivity.
      + rewrite C8. reflexivity.
    - unfold with_dev. cbn [y_dev]. rewrite ?C10, WT, C8, C11. reflexivity. }
  assert (FL : fc_fly c' = fc_fly c /\ fc_in c' = fc_in c /\ w3 (fc_st c')).
  { subst c'. destruct (s_cur (fc_st c)); [destruct (dispatch_send (g p) (fc_st c)); cbn [rw] in RW|]; repeat split; try reflexivity; try apply RW; try apply C14. }
  destruct FL as (FL1 & FL2 & FL4). clearbody c'. clear RR RW.
  assert (RUN : sh_run (init_shared D d0) (ls ++ map (pair p) [LDispatch]) = Some (mkShared D (fun q => if Nat.eqb q p then y' else sh_y D s q) d)).
  { rewrite sh_run_app, R. cbn [map Shared.sh_run]. rewrite ST. reflexivity. }
  eexists. split; [cbn [map Shared.sh_run]; rewrite ST; reflexivity|]. split; [reflexivity|]. cbn [sh_y]. rewrite Nat.eqb_refl, !put_same.
  assert (UU : forall q, Forall op_ok (calls (steps_of q (ls ++ map (pair p) [LDispatch])))).
  { intros q. specialize (FO q). rewrite steps_app, steps_own. destruct (Nat.eqb_spec q p) as [->|NE].
    - rewrite put_same in FO. rewrite <- U, calls_app, calls_users in FO. rewrite calls_app. exact FO.
    - rewrite put_other in FO by exact NE. rewrite <- U, calls_users in FO. rewrite app_nil_r. exact FO. }
  destruct (shared_good _ d0 _ p UU RUN) as (_ & SG). cbn [sh_y] in SG. rewrite Nat.eqb_refl in SG. cbn [y_c y'] in SG. cbn [set_out s_out] in SG.
  exists R0, xsR, xsX, X, O. rewrite FL1, FL2. split; [exact C1|]. split; [exact C2|]. split; [exact C3|]. split; [exact C4|]. split; [exact C5|]. split; [exact C6|]. split; [exact C7|]. split; [reflexivity|]. split; [exact C9|]. split; [reflexivity|]. split; [reflexivity|].
  split; [apply (good_again p c X O C4); [apply Forall_app in C12; apply C12|exact FL4|exact SG]|]. split; [exact C13|]. split; [exact FL4|]. split.
  - unfold users in *. rewrite filter_app, C15. reflexivity.
  - intros ms EM. exfalso. eapply last_not; [exact EM|discriminate].
Qed.

(** dispatch() returns. *)
Lemma sim_return d0 F u chunks sent reqs ys d (p : nat) : Sim d0 F u chunks sent reqs ys d -> fc_wait (F p) = true -> s_out (fc_st (F p)) = [] -> fc_fly (F p) = [] ->
  let c := F p in
  Sim d0 (put F p (mkFc (fc_st c) false (fc_bad c) [] (fc_in c))) (put u p (u p ++ [LReturn])) chunks sent reqs ys d.
Proof using Type.
  intros S WT SO FE c. apply (sim_one _ _ _ _ _ _ _ _ p [LReturn] _ _ _ _ _ _ _ S).
  { intros q NE. rewrite !put_other by exact NE. auto. }
  intros ls s R E U (R0 & xsR & xsX & X & O & C1 & C2 & C3 & C4 & C5 & C6 & C7 & C8 & C9 & C10 & C11 & C12 & C13 & C14 & C15 & C16). fold c in C1, C2, C4, C8, C10, C11, C12, C14, C16, WT.
  fold c in FE, SO. rewrite FE in C4. cbn [concat] in C4. symmetry in C4. apply app_eq_nil in C4. destruct C4 as (-> & ->). cbn [combine map app] in *.
  assert (ST : sh_step s (p, LReturn) = Some (mkShared D (fun q => if Nat.eqb q p then mkSys D (y_c D (sh_y D s p)) [] d false (fc_bad c) else sh_y D s q) d)).
  { unfold Shared.sh_step. cbn [fst snd System.step with_dev y_wait y_c y_rep y_dev y_bad]. rewrite C10, WT, C9, E, C11, C8. cbn [set_out s_out]. rewrite SO. reflexivity. }
  eexists. split; [cbn [map Shared.sh_run]; rewrite ST; reflexivity|]. split; [reflexivity|]. cbn [sh_y]. rewrite Nat.eqb_refl, !put_same.
  exists R0, xsR, xsX, [], []. cbn [fc_fly fc_in fc_st fc_wait fc_bad y_c y_rep y_wait y_bad combine map app concat]. rewrite FE in *.
  split; [exact C1|]. split; [exact C2|]. split; [exact C3|]. split; [reflexivity|]. split; [exact C5|]. split; [exact C6|]. split; [exact C7|]. split; [exact C8|]. split; [reflexivity|]. split; [reflexivity|]. split; [reflexivity|]. split; [exact C12|]. split; [constructor|]. split; [exact C14|]. split.
  - unfold users in *. rewrite filter_app, C15. reflexivity.
  - intros ms EM. split; [reflexivity|]. split; [exact SO|]. eexists. reflexivity.
Qed.

(** A chunk is sent. *)
Lemma sim_chunk d0 F u chunks sent reqs ys d (p : nat) k : Sim d0 F u chunks sent reqs ys d -> (0 < k)%nat -> (k <= length (s_out (fc_st (F p))))%nat ->
  let c := F p in let bs := firstn k (s_out (fc_st c)) in
  Forall (goodb (g p)) bs /\ bs <> [] /\
  Sim d0 (put F p (mkFc (set_out (fc_st c) (skipn k (s_out (fc_st c)))) (fc_wait c) (fc_bad c) (fc_fly c ++ [bs]) (fc_in c))) u (put chunks p (chunks p ++ [map req_of bs])) sent reqs ys d.
Proof using H.
  intros S K1 K2 c bs. assert (GB : Forall (goodb (g p)) bs).
  { destruct S as (ls & s & _ & _ & C). destruct (C p) as (R0 & xsR & xsX & X & O & C1 & C2 & C3 & C4 & C5 & C6 & C7 & C8 & C9 & C10 & C11 & C12 & _). apply Forall_app in C12. apply Forall_firstn, C12. }
  assert (NE : bs <> []). { subst bs c. destruct k; [lia|]. destruct (s_out (fc_st (F p))); [cbn in K2; lia|discriminate]. }
  split; [exact GB|]. split; [exact NE|]. apply (sim_one _ _ _ _ _ _ _ _ p [] _ _ _ _ _ _ _ S).
  { intros q N. rewrite !put_other by exact N. auto. }
  intros ls s R E U (R0 & xsR & xsX & X & O & C1 & C2 & C3 & C4 & C5 & C6 & C7 & C8 & C9 & C10 & C11 & C12 & C13 & C14 & C15 & C16). fold c in C1, C2, C4, C8, C10, C11, C12, C14, C16.
  exists s. split; [reflexivity|]. split; [exact E|]. rewrite !put_same, app_nil_r.
  assert (SP : s_out (fc_st c) = bs ++ skipn k (s_out (fc_st c))) by (symmetry; apply firstn_skipn).
  exists R0, xsR, xsX, X, (O ++ bs). cbn [fc_fly fc_in fc_st fc_wait fc_bad].
  split; [rewrite app_assoc, map_app, <- C1; reflexivity|]. split; [exact C2|]. split; [exact C3|]. split; [rewrite concat_app, C4; cbn [concat]; rewrite app_nil_r, app_assoc; reflexivity|]. split; [exact C5|]. split; [exact C6|]. split; [exact C7|].
  split; [rewrite C8; cbn [set_out s_out]; unfold set_out; cbn [s_ctr s_cur s_heap s_budget]; rewrite <- app_assoc, <- SP; reflexivity|]. split; [exact C9|]. split; [exact C10|]. split; [exact C11|].
  split. { rewrite concat_app. cbn [concat set_out s_out]. rewrite app_nil_r, <- app_assoc, <- SP. exact C12. }
  split; [exact C13|]. split; [destruct C14 as (W1 & W2); split; [apply Forall_skipn, W1|exact W2]|]. split; [exact C15|].
  intros ms EM. destruct (C16 ms EM) as (_ & SO & _). fold c in K2. rewrite SO in K2. cbn in K2. lia.
Qed.

(** Requests reach the device client; chunks of replies are sent. *)
Lemma sim_more d0 F u chunks sent reqs ys d more new : Sim d0 F u chunks sent reqs ys d -> (length ys <= length reqs)%nat ->
  Sim d0 (fun p => mkFc (fc_st (F p)) (fc_wait (F p)) (fc_bad (F p)) (fc_fly (F p)) (fc_in (F p) ++ map chunk_bytes (new p))) u chunks (fun p => sent p ++ new p) (reqs ++ more) ys d.
Proof using H.
  intros (ls & s & R & E & C) L. exists ls, s. split; [exact R|]. split; [exact E|]. intros p. destruct (C p) as (R0 & xsR & xsX & X & O & C1 & C2 & C3 & C4 & C5 & C6 & C7 & C8 & C9 & C10 & C11 & C12 & C13 & C14 & C15 & C16).
  exists R0, xsR, xsX, X, O. cbn [fc_fly fc_in fc_st fc_wait fc_bad]. split; [exact C1|]. split; [rewrite C2, skipn_app, map_app; replace (length R0 - length (sent p))%nat with 0%nat by lia; reflexivity|]. split; [rewrite app_length; lia|]. split; [exact C4|].
  split; [rewrite map_app, combine_app, (skipn_all2 ys) by (rewrite map_length; lia); rewrite combine_nil, app_nil_r; exact C5|]. repeat (split; [assumption|]). exact C16.
Qed.

(** The target carries out a request. *)

Lemma sim_exec d0 F u chunks sent a r b ys d out : Sim d0 F u chunks sent (a ++ r :: b) ys d -> length ys = length a ->
  (forall p, exists rest, cast_by p (a ++ r :: b) ++ rest = concat (chunks p)) ->
  dev_exec D rd wr cf d (body (q_pkt r)) = out ->
  Sim d0 F u chunks sent (a ++ r :: b) (ys ++ [snd out]) (fst out).
Proof using RD CF T H.
  intros S L CH OUT. set (p := q_pid r : nat).
  assert (M0 : forall q, mine q (combine (map q_pid (a ++ r :: b)) ys) = mine q (combine (map q_pid a) ys)).
  { intros q. rewrite map_app, combine_app, (skipn_all2 ys) by (rewrite map_length; lia). rewrite combine_nil, app_nil_r. reflexivity. }
  assert (M1 : forall q, mine q (combine (map q_pid (a ++ r :: b)) (ys ++ [snd out])) = mine q (combine (map q_pid a) ys) ++ (if Nat.eqb p q then [snd out] else [])).
  { intros q. rewrite map_app, combine_app, mine_app, map_length, <- L, skipn_app, skipn_all, Nat.sub_diag. cbn [app skipn map combine]. f_equal.
    - assert (X : forall (A B : Type) (k : list A) (l m : list B), length l = length k -> combine k (l ++ m) = combine k l). { clear. intros A B. induction k as [|x k IH]; intros [|y l] m E; try discriminate; [reflexivity|]. injection E as E. cbn [app combine]. rewrite IH by exact E. reflexivity. }
      rewrite X by (rewrite map_length; exact L). reflexivity.
    - rewrite combine_nil. unfold mine, p. cbn [filter fst]. destruct (Nat.eqb (q_pid r) q); reflexivity. }
  apply (sim_one _ _ _ _ _ _ _ _ p [LTarget] _ _ _ _ _ _ _ S).
  { intros q NE. rewrite M0, M1. destruct (Nat.eqb_spec p q); [congruence|]. rewrite app_nil_r. auto. }
  intros ls s R E U (R0 & xsR & xsX & X & O & C1 & C2 & C3 & C4 & C5 & C6 & C7 & C8 & C9 & C10 & C11 & C12 & C13 & C14 & C15 & C16).
  destruct (CH p) as (rest & CP). rewrite C1, <- concat_map, concat_app, C4, !map_app, cast_app in CP.
  change (r :: b) with ([r] ++ b) in CP. rewrite cast_app in CP. unfold cast_by at 2 in CP. cbn [filter] in CP. unfold p in CP at 2. rewrite Nat.eqb_refl in CP. cbn [map app] in CP.
  rewrite <- app_assoc, (app_assoc (map req_of (concat R0))) in CP. apply app_split in CP.
  2:{ rewrite <- (mine_length p a ys L), <- M0, C5, !app_length, !map_length. lia. }
  destruct CP as (_ & CP). destruct O as [|b0 O]; [discriminate CP|]. cbn [map app] in CP. injection CP as CB _.
  assert (GB : goodb (g p) b0) by (rewrite C4 in C12; apply Forall_app in C12; destruct C12 as (C12 & _); apply Forall_app in C12; destruct C12 as (_ & C12); inversion C12; assumption).
  pose proof (target_bytes t (g p) (H p) D rd wr cf RD CF b0 d GB) as TB. rewrite <- CB, OUT in TB. destruct out as (d', x). cbn [fst snd] in *. destruct TB as (TP & DW & K).
  set (y' := mkSys D (set_out (fc_st (F p)) (O ++ s_out (fc_st (F p)))) (map bk (combine X xsX) ++ [(b0, back b0 x)]) d' (fc_wait (F p)) (fc_bad (F p))).
  assert (ST : sh_step s (p, LTarget) = Some (mkShared D (fun q => if Nat.eqb q p then y' else sh_y D s q) d')).
  { unfold Shared.sh_step. cbn [fst snd System.step with_dev y_wait y_c y_rep y_dev y_bad]. rewrite C8. cbn [set_out s_out app]. rewrite E, TP. cbn [y_dev negb]. rewrite orb_false_r, C9, C10, C11. reflexivity. }
  eexists. split; [cbn [map Shared.sh_run]; rewrite ST; reflexivity|]. split; [reflexivity|]. cbn [sh_y]. rewrite Nat.eqb_refl.
  assert (CC : combine (X ++ [b0]) (xsX ++ [x]) = combine X xsX ++ [(b0, x)]).
  { rewrite combine_app, <- C7, skipn_app, skipn_all, Nat.sub_diag. cbn [app skipn combine]. f_equal. clear - C7. revert X C7. induction xsX as [|z l IH]; intros [|y X] E; try discriminate; [reflexivity|]. injection E as E. cbn [app combine]. rewrite IH by exact E. reflexivity. }
  exists R0, xsR, (xsX ++ [x]), (X ++ [b0]), O. rewrite CC.
  split; [exact C1|]. split; [exact C2|]. split; [exact C3|]. split; [rewrite C4, <- app_assoc; reflexivity|]. split; [rewrite M1, Nat.eqb_refl, <- M0, C5, app_assoc; reflexivity|]. split; [exact C6|]. split; [rewrite !app_length, C7; reflexivity|]. split; [reflexivity|]. split; [rewrite map_app; reflexivity|]. split; [reflexivity|]. split; [reflexivity|]. split; [exact C12|].
  split; [apply Forall_app; split; [exact C13|constructor; [exact (conj GB (conj DW K))|constructor]]|]. split; [exact C14|]. split.
  - unfold users in *. rewrite filter_app, C15. cbn [filter]. apply app_nil_r.
  - intros ms EM. destruct (C16 ms EM) as (FE & _). rewrite FE in C4. destruct X; discriminate C4.
Qed.

(** A chunk of replies is received. *)
Definition rsp (x : buf * bytes) : response := mkR (Some t) 0 (hdr (req_of (fst x)) ++ snd x).
Lemma replies d0 p bs : forall ls s xb rest, (forall q, Forall op_ok (calls (steps_of q ls))) -> sh_run (init_shared D d0) ls = Some s ->
  length xb = length bs -> Forall (goodx p) (combine bs xb) -> y_rep D (sh_y D s p) = map bk (combine bs xb) ++ rest ->
  exists s' h, sh_run s (map (pair p) (repeat LReply (length bs))) = Some s' /\ sh_dev D s' = sh_dev D s /\
    y_c D (sh_y D s' p) = set_heap (y_c D (sh_y D s p)) h /\ y_rep D (sh_y D s' p) = rest /\ y_wait D (sh_y D s' p) = y_wait D (sh_y D s p) /\ y_bad D (sh_y D s' p) = y_bad D (sh_y D s p) /\
    take_replies (g p) (s_heap (y_c D (sh_y D s p))) bs (words_of (chunk_bytes (map rsp (combine bs xb)))) = (h, true) /\
    room_of bs = N.of_nat (length (chunk_bytes (map rsp (combine bs xb)))).
Proof using T H.
  induction bs as [|b bs IH]; intros ls s xb rest FO R L G RE.
  - exists s, (s_heap (y_c D (sh_y D s p))). cbn [repeat length map Shared.sh_run take_replies combine app chunk_bytes flat_map words_of room_of fold_right] in *. repeat split; auto. destruct (y_c D (sh_y D s p)); reflexivity.
  - destruct xb as [|x xb]; [discriminate|]. injection L as L. cbn [combine map app] in *. inversion G as [|? ? (GB & DW & k & LX) G']; subst. cbn [fst snd] in *. unfold bk at 1 in RE. cbn [fst snd] in RE.
    destruct (words_reply t (g p) T (H p) b x k GB LX) as (LR & w0 & WR).
    change (rsp (b, x)) with (mkR (Some t) 0 (hdr (req_of b) ++ x)). cbn [chunk_bytes flat_map]. fold (chunk_bytes (map rsp (combine bs xb))).
    rewrite (words_app _ _ _ LR), WR. cbn [take_replies]. rewrite DW, Nnat.Nat2N.id.
    assert (BL : exists z, back b x = z :: tl (back b x)). { unfold back. destruct (goodb_form t (g p) (H p) b GB) as (rr & -> & _). eexists. reflexivity. }
    destruct BL as (z & BL).
    assert (L0 : length (w0 :: tl (back b x)) = length (back b x)) by (rewrite BL; reflexivity).
    rewrite <- L0, firstn_app, firstn_all, Nat.sub_diag, skipn_app, skipn_all, Nat.sub_diag. cbn [firstn skipn app]. rewrite app_nil_r.
    rewrite (first_word t (g p) (H p) b _ w0 z _ GB), <- BL.
    destruct (receive_packet (g p) (s_heap (y_c D (sh_y D s p))) b (back b x)) as (h1, v) eqn:RP.
    set (bad := match v with VOk => y_bad D (sh_y D s p) | _ => true end).
    set (s1 := mkShared D (fun q => if Nat.eqb q p then mkSys D (set_heap (y_c D (sh_y D s p)) h1) (map bk (combine bs xb) ++ rest) (sh_dev D s) (y_wait D (sh_y D s p)) bad else sh_y D s q) (sh_dev D s)).
    assert (ST : sh_step s (p, LReply) = Some s1).
    { unfold Shared.sh_step. cbn [fst snd System.step with_dev y_wait y_c y_rep y_dev y_bad]. rewrite RE, RP. destruct v; reflexivity. }
    assert (R1 : sh_run (init_shared D d0) (ls ++ map (pair p) [LReply]) = Some s1) by (rewrite sh_run_app, R; cbn [map Shared.sh_run]; rewrite ST; reflexivity).
    assert (F1 : forall q, Forall op_ok (calls (steps_of q (ls ++ map (pair p) [LReply])))).
    { intros q. specialize (FO q). rewrite steps_app, steps_own, calls_app. destruct (Nat.eqb q p); cbn [calls]; rewrite app_nil_r; exact FO. }
    destruct (shared_good _ d0 s1 p F1 R1) as (BD & _). subst s1. cbn [sh_y] in BD. rewrite Nat.eqb_refl in BD. cbn [y_bad] in BD.
    assert (V : v = VOk) by (subst bad; destruct v; try discriminate; reflexivity). subst v. subst bad.
    match type of R1 with _ = Some ?z => set (s1 := z) in * end.
    destruct (IH _ s1 xb rest F1 R1 L G') as (s' & h & RU & DV & YC & YR & YW & YB & TK & RM).
    { subst s1. cbn [sh_y]. rewrite Nat.eqb_refl. reflexivity. }
    subst s1. cbn [sh_y sh_dev] in *. rewrite Nat.eqb_refl in *. cbn [y_c y_rep y_wait y_bad] in *.
    exists s', h. split; [cbn [repeat length map Shared.sh_run]; rewrite ST; exact RU|]. split; [exact DV|]. split; [rewrite YC; destruct (y_c D (sh_y D s p)); reflexivity|]. split; [exact YR|]. split; [exact YW|]. split; [exact YB|]. split.
    + destruct (y_c D (sh_y D s p)); exact TK.
    + cbn [room_of fold_right]. fold (room_of bs). rewrite RM, app_length, LR. unfold reply_counter. rewrite DW. lia.
Qed.

Lemma mine_reply p (a : list req) : forall ys, mine p (map (reply_to t) (combine a ys)) = map (fun x => mkR (Some t) 0 (hdr (fst x) ++ snd x)) (combine (cast_by p a) (mine p (combine (map q_pid a) ys))).
Proof using Type.
  unfold mine, cast_by. induction a as [|r a IH]; intros [|y ys]; cbn [map combine filter]; try reflexivity; [destruct (if Nat.eqb (q_pid r) p then _ else _); reflexivity|].
  unfold reply_to at 1. cbn [fst snd]. destruct (Nat.eqb (q_pid r) p); cbn [map combine fst snd]; rewrite IH; reflexivity.
Qed.

Lemma groups_first {A B} (a b : list (list B)) : forall rs : list A, (length a <= length (groups (map (@length _) (a ++ b)) rs))%nat ->
  concat (firstn (length a) (groups (map (@length _) (a ++ b)) rs)) = firstn (length (concat a)) rs /\ (length (concat a) <= length rs)%nat.
Proof using Type.
  induction a as [|x a IH]; intros rs L; [split; [reflexivity|cbn; lia]|]. cbn [app map groups length concat] in *. destruct (Nat.ltb_spec (length rs) (length x)); [cbn in L; lia|]. cbn [length firstn concat] in *.
  destruct (IH (skipn (length x) rs)) as (E & LE); [lia|]. rewrite E, app_length. rewrite skipn_length in LE. split; [|lia].
  rewrite <- (firstn_skipn (length x) rs) at 3. rewrite firstn_app, firstn_firstn, firstn_length. rewrite (Nat.min_r _ (length x)) by lia. replace (length x + length (concat a) - Nat.min (length x) (length rs))%nat with (length (concat a)) by lia. reflexivity.
Qed.

(** One reply is an error: so the client sees an error. *)
Lemma errors_seen p b bs2 c ws : goodb (g p) b -> error_code c -> forall bs1 xb h, length xb = length bs1 -> Forall (goodx p) (combine bs1 xb) ->
  snd (take_replies (g p) h (bs1 ++ b :: bs2) (words_of (chunk_bytes (map rsp (combine bs1 xb)) ++ reply_bytes (mkR (Some t) c []) ++ ws))) = false.
Proof using T H.
  intros GB EC. induction bs1 as [|b1 bs1 IH]; intros xb h L G.
  - destruct xb; [|discriminate]. cbn [combine map chunk_bytes flat_map app]. rewrite (words_app 3); [apply (error_seen t (g p) T (H p)); assumption|]. destruct t as (ip, port). reflexivity.
  - destruct xb as [|x xb]; [discriminate|]. injection L as L. cbn [combine] in G. inversion G as [|? ? (GB1 & DW & k & LX) G']; subst. cbn [fst snd] in *.
    destruct (words_reply t (g p) T (H p) b1 x k GB1 LX) as (LR & w0 & WR).
    cbn [combine map]. change (rsp (b1, x)) with (mkR (Some t) 0 (hdr (req_of b1) ++ x)). cbn [chunk_bytes flat_map]. fold (chunk_bytes (map rsp (combine bs1 xb))). rewrite <- app_assoc.
    rewrite (words_app _ _ _ LR), WR. cbn [app take_replies]. rewrite DW, Nnat.Nat2N.id.
    assert (BL : exists z, back b1 x = z :: tl (back b1 x)). { unfold back. destruct (goodb_form t (g p) (H p) b1 GB1) as (rr & -> & _). eexists. reflexivity. }
    destruct BL as (z & BL).
    assert (L0 : length (back b1 x) = length (w0 :: tl (back b1 x))) by (rewrite BL; reflexivity).
    rewrite L0. rewrite app_comm_cons. rewrite firstn_app, firstn_all, Nat.sub_diag, skipn_app, skipn_all, Nat.sub_diag. cbn [firstn skipn app].
    destruct (receive_packet (g p) h b1 _) as (h1, v). destruct v; try reflexivity. apply IH; assumption.
Qed.

Definition all_ok (rs : list (list response)) : Prop := Forall (Forall (fun r => r_code r = 0)) rs.
Lemma sim_back d0 F u chunks sent reqs ys d (p : nat) m j bs q r rest E0 : Sim d0 F u chunks sent reqs ys d -> (forall q, Forall op_ok (calls (u q))) ->
  (m <= length ys)%nat -> (m <= length reqs)%nat -> (exists more, cast_by p reqs ++ more = concat (chunks p)) ->
  sent p = groups (map (@length _) (chunks p)) (firstn j (mine p (map (reply_to t) (combine (firstn m reqs) ys)) ++ E0)) ->
  Forall (fun r => exists c, error_code c /\ r = mkR (Some t) c []) E0 ->
  let c := F p in fc_fly c = bs :: q -> fc_in c = r :: rest -> all_ok (firstn (length (sent p) - length (fc_in c)) (sent p)) ->
  let (h, ok) := if room_of bs <? N.of_nat (length r) then (s_heap (fc_st c), false) else take_replies (g p) (s_heap (fc_st c)) bs (words_of r) in
  (E0 = [] -> ok = true) /\
  (ok = true -> Sim d0 (put F p (mkFc (set_heap (fc_st c) h) (fc_wait c) (fc_bad c) q rest)) u chunks sent reqs ys d /\ all_ok (firstn (length (sent p) - length rest) (sent p))).
Proof using T H.
  intros S FO M1 M2 (more & CP) SN EE c FE IE AO.
  destruct S as (ls & s & R & E & C). pose proof (C p) as CC.
  destruct CC as (R0 & xsR & xsX & X & O & C1 & C2 & C3 & C4 & C5 & C6 & C7 & C8 & C9 & C10 & C11 & C12 & C13 & C14 & C15 & C16). fold c in C1, C2, C4, C8, C10, C11, C12, C14, C16.
  rewrite FE in C1, C4, C12. rewrite IE in C2. cbn [concat] in C4.
  set (a := firstn m reqs) in *. set (xa := mine p (combine (map q_pid a) ys)).
  assert (RA : reqs = a ++ skipn m reqs) by (symmetry; apply firstn_skipn). assert (LA : length a = m) by (subst a; apply firstn_length_le, M2).
  assert (XA : exists xz, xa ++ xz = xsR ++ xsX). { exists (mine p (combine (map q_pid (skipn m reqs)) (skipn (length (map q_pid a)) ys))). unfold xa. rewrite <- mine_app, <- combine_app, <- map_app, <- RA. exact C5. }
  assert (LX : length xa = length (cast_by p a)).
  { unfold xa. replace (combine (map q_pid a) ys) with (combine (map q_pid a) (firstn m ys)); [apply mine_length; rewrite LA; apply firstn_length_le, M1|].
    clear - LA. clearbody a. revert a LA ys. induction m as [|m IH]; intros [|x a] LA [|y ys]; try discriminate; try reflexivity. cbn [map firstn combine]. injection LA as LA. rewrite (IH a LA). reflexivity. }
  destruct XA as (xz & XA). rewrite mine_reply in SN. fold xa in SN.
  assert (SN' : sent p = groups (map (@length _) (R0 ++ bs :: q)) (firstn j (map (fun x => mkR (Some t) 0 (hdr (fst x) ++ snd x)) (combine (cast_by p a) xa) ++ E0))).
  { rewrite SN, C1, map_map. f_equal. apply map_ext. intros l. apply map_length. }
  assert (LS : (length R0 < length (sent p))%nat).
  { destruct (Nat.le_gt_cases (length (sent p)) (length R0)) as [LE|]; [|assumption]. rewrite (skipn_all2 (sent p)) in C2 by exact LE. discriminate C2. }
  pose proof LS as LS0. rewrite SN' in LS. destruct (groups_nth R0 bs q _ LS) as (NT & LE). destruct (groups_first R0 (bs :: q) _ (Nat.lt_le_incl _ _ LS)) as (GF & _). rewrite <- SN' in GF.
  assert (LI : (length (sent p) - length (fc_in c) = length R0)%nat). { apply (f_equal (@length _)) in C2. rewrite map_length, skipn_length in C2. rewrite IE. lia. }
  assert (LJ : (length (sent p) = length R0 + (length rest + 1))%nat). { assert (C2n := f_equal (@length _) C2). rewrite map_length, skipn_length in C2n. cbn [length] in C2n. lia. }
  rewrite LI in AO. rewrite <- SN' in NT. clear LS.
  rewrite firstn_length, app_length, map_length, combine_length, LX, Nat.min_id in LE.
  set (oks := map (fun x => mkR (Some t) 0 (hdr (fst x) ++ snd x)) (combine (cast_by p a) xa)) in *.
  assert (LO : length oks = length (cast_by p a)) by (subst oks; rewrite map_length, combine_length, LX; apply Nat.min_id).
  assert (LR0 : (length (concat R0) <= length oks)%nat).
  { destruct (Nat.le_gt_cases (length (concat R0)) (length oks)) as [|GT]; [assumption|exfalso].
    assert (FR : Forall (fun r => r_code r = 0) (concat (firstn (length R0) (sent p)))) by (apply Forall_concat; exact AO).
    rewrite GF, firstn_firstn, Nat.min_l in FR by lia. rewrite firstn_app in FR. apply Forall_app in FR. destruct FR as (_ & FR).
    destruct E0 as [|e E0]; [cbn [length] in LE; lia|]. pose proof (Forall_inv EE) as (c0 & EC & ->). destruct (length (concat R0) - length oks)%nat eqn:SB; [lia|]. cbn [firstn] in FR. pose proof (Forall_inv FR) as FR0. cbn [r_code] in FR0. destruct EC as [->|[->| ->]]; discriminate. }
  assert (GR : forall bs1 bsr, bs = bs1 ++ bsr -> (length (concat R0) + length bs1 <= length oks)%nat -> firstn (length bs1) (skipn (length (concat R0)) oks) = map rsp (combine bs1 (firstn (length bs1) xsX))).
  { intros bs1 bsr BE LC. rewrite LO in LC. unfold oks. rewrite skipn_map, firstn_map, skipn_combine, firstn_combine.
    assert (W1 : firstn (length bs1) (skipn (length (concat R0)) (cast_by p a)) = map req_of bs1).
    { pose proof (cut_out (cast_by p a) (cast_by p (skipn m reqs) ++ more) (map req_of (concat R0)) (map req_of bs1) (map req_of (bsr ++ concat q))) as Wn. rewrite !map_length in Wn. apply Wn; [|lia].
      rewrite app_assoc, <- cast_app, <- RA, CP, C1, <- concat_map, concat_app. cbn [concat]. rewrite BE, !map_app, <- app_assoc. reflexivity. }
    assert (W2 : firstn (length bs1) (skipn (length (concat R0)) xa) = firstn (length bs1) xsX).
    { rewrite <- C6. assert (LB : (length xsR + length (firstn (length bs1) xsX) <= length xa)%nat) by (rewrite firstn_length; lia).
      pose proof (cut_out xa xz xsR (firstn (length bs1) xsX) (skipn (length bs1) xsX)) as Wn. rewrite firstn_skipn in Wn. specialize (Wn XA LB).
      rewrite <- Wn at 1. rewrite firstn_length, Nat.min_l; [reflexivity|]. apply (f_equal (@length _)) in XA. rewrite !app_length in XA. lia. }
    unfold bytes in *. rewrite W1, W2, combine_map_l, map_map. reflexivity. }
  assert (LXX : (length oks <= length (concat R0) + length xsX)%nat) by (apply (f_equal (@length _)) in XA; rewrite !app_length in XA; lia).
  rewrite skipn_firstn_comm, firstn_firstn, Nat.min_l in NT by lia.
  destruct (Nat.le_gt_cases (length (concat R0) + length bs) (length oks)) as [LC|LC].
  2:{ (* an error *)
    assert (NO : snd (if room_of bs <? N.of_nat (length r) then (s_heap (fc_st c), false) else take_replies (g p) (s_heap (fc_st c)) bs (words_of r)) = false).
    2:{ destruct (if room_of bs <? _ then _ else _) as (h, ok). cbn [snd] in NO. subst ok. split; [|discriminate]. intros ->. cbn [length] in LE. lia. }
    destruct (room_of bs <? N.of_nat (length r)); [reflexivity|].
    set (n1 := (length oks - length (concat R0))%nat). assert (LN : (n1 < length bs)%nat) by (subst n1; lia).
    set (bs1 := firstn n1 bs). assert (L1 : length bs1 = n1) by (subst bs1; apply firstn_length_le; lia).
    destruct (skipn n1 bs) as [|b bs2] eqn:SB; [apply (f_equal (@length _)) in SB; rewrite skipn_length in SB; cbn in SB; lia|].
    assert (BE : bs = bs1 ++ b :: bs2) by (rewrite <- SB; symmetry; apply firstn_skipn).
    assert (G1 := GR bs1 (b :: bs2) BE ltac:(subst n1; lia)).
    destruct E0 as [|e E0]; [cbn [length] in LE; lia|]. pose proof (Forall_inv EE) as (c0 & EC & ->).
    assert (CH : firstn (length bs) (skipn (length (concat R0)) (oks ++ mkR (Some t) c0 [] :: E0)) = map rsp (combine bs1 (firstn (length bs1) xsX)) ++ mkR (Some t) c0 [] :: firstn (length bs - n1 - 1) E0).
    { rewrite skipn_app. replace (length (concat R0) - length oks)%nat with 0%nat by lia. cbn [skipn]. rewrite firstn_app, skipn_length. fold n1. rewrite <- G1, L1.
      rewrite (firstn_all2 (skipn _ oks)) by (rewrite skipn_length; fold n1; lia). rewrite (firstn_all2 (skipn _ oks)) by (rewrite skipn_length; fold n1; lia). f_equal.
      replace (length bs - n1)%nat with (Datatypes.S (length bs - n1 - 1)) at 1 by lia. reflexivity. }
    rewrite CH in NT. clear CH.
    assert (SK : exists more, skipn (length R0) (sent p) = (map rsp (combine bs1 (firstn (length bs1) xsX)) ++ mkR (Some t) c0 [] :: firstn (length bs - n1 - 1) E0) :: more).
    { exists (skipn (Datatypes.S (length R0)) (sent p)). clear - NT. revert NT. generalize (length R0), (sent p). induction n as [|n IH]; intros [|z l] NT; try discriminate; cbn [nth_error skipn] in *; [congruence|apply IH, NT]. }
    destruct SK as (more0 & SK). rewrite SK in C2. cbn [map] in C2. injection C2 as C2 _. rewrite C2. unfold chunk_bytes. rewrite flat_map_app. cbn [flat_map]. fold (chunk_bytes (map rsp (combine bs1 (firstn (length bs1) xsX)))).
    assert (X1 : combine bs1 (firstn (length bs1) xsX) = firstn n1 (combine X xsX)).
    { rewrite firstn_combine, L1. f_equal. unfold bs1. assert (FF : firstn n1 (bs ++ concat q) = firstn n1 (X ++ O)) by (rewrite C4; reflexivity). rewrite !firstn_app in FF. replace (n1 - length bs)%nat with 0%nat in FF by lia. replace (n1 - length X)%nat with 0%nat in FF by (subst n1; lia). cbn [firstn] in FF. rewrite !app_nil_r in FF. exact FF. }
    rewrite BE. apply errors_seen; [|exact EC| |].
    - cbn [concat] in C12. rewrite BE in C12. rewrite <- !app_assoc in C12. apply Forall_app in C12. destruct C12 as (_ & C12). inversion C12. assumption.
    - rewrite firstn_length, L1. subst n1. lia.
    - rewrite X1. apply Forall_firstn, C13. }
  assert (K : exists h, (if room_of bs <? N.of_nat (length r) then (s_heap (fc_st c), false) else take_replies (g p) (s_heap (fc_st c)) bs (words_of r)) = (h, true) /\
    Sim d0 (put F p (mkFc (set_heap (fc_st c) h) (fc_wait c) (fc_bad c) q rest)) u chunks sent reqs ys d /\ all_ok (firstn (length (sent p) - length rest) (sent p))).
  2:{ destruct K as (h & -> & K). auto. }
  specialize (GR bs [] ltac:(rewrite app_nil_r; reflexivity) LC). rewrite skipn_app in NT. replace (length (concat R0) - length oks)%nat with 0%nat in NT by lia. cbn [skipn] in NT. rewrite firstn_app, skipn_length in NT. replace (length bs - (length oks - length (concat R0)))%nat with 0%nat in NT by lia. cbn [firstn] in NT. rewrite app_nil_r in NT.
  rewrite GR in NT.
  assert (LB : (length bs <= length xsX)%nat) by (apply (f_equal (@length _)) in XA; rewrite !app_length in XA; lia).
  set (xb := firstn (length bs) xsX) in *. set (xr := skipn (length bs) xsX).
  assert (XS : xsX = xb ++ xr) by (symmetry; apply firstn_skipn). assert (LXB : length xb = length bs) by (apply firstn_length_le, LB).
  assert (XP : X = bs ++ skipn (length bs) X).
  { assert (FF : firstn (length bs) (bs ++ concat q) = firstn (length bs) (X ++ O)) by (rewrite C4; reflexivity). rewrite !firstn_app, firstn_all, Nat.sub_diag in FF. replace (length bs - length X)%nat with 0%nat in FF by lia. cbn [firstn] in FF. rewrite !app_nil_r in FF. rewrite FF at 1. symmetry. apply firstn_skipn. }
  set (Xr := skipn (length bs) X) in *. clearbody xb xr Xr. subst xsX X.
  assert (CX : combine (bs ++ Xr) (xb ++ xr) = combine bs xb ++ combine Xr xr).
  { rewrite combine_app, <- LXB, skipn_app, skipn_all, Nat.sub_diag. cbn [app skipn]. f_equal. clear - LXB. revert bs LXB. induction xb as [|z l IH]; intros [|y X] E; try discriminate; [reflexivity|]. injection E as E. cbn [app combine]. rewrite IH by exact E. reflexivity. }
  rewrite CX in C9, C13. rewrite map_app in C9. apply Forall_app in C13. destruct C13 as (C13 & C13').
  assert (SK : skipn (length R0) (sent p) = map rsp (combine bs xb) :: skipn (S (length R0)) (sent p)).
  { clear - NT. revert NT. generalize (length R0), (sent p). induction n as [|n IH]; intros [|z l] NT; try discriminate; cbn [nth_error skipn] in *; [congruence|apply IH, NT]. }
  rewrite SK in C2. cbn [map] in C2. injection C2 as C2 C2'.
  assert (UU : forall q, Forall op_ok (calls (steps_of q ls))).
  { intros k. destruct (C k) as (? & ? & ? & ? & ? & Z). rewrite <- calls_users. replace (users (steps_of k ls)) with (u k); [apply FO|symmetry; apply Z]. }
  destruct (replies d0 p bs ls s xb _ UU R LXB C13 C9) as (s' & h & RU & DV & YC & YR & YW & YB & TK & RM).
  exists h. rewrite C2. split.
  { destruct (N.ltb_spec (room_of bs) (N.of_nat (length (chunk_bytes (map rsp (combine bs xb)))))) as [LT|_]; [rewrite RM in LT; lia|]. rewrite C8 in TK. exact TK. }
  split.
  2:{ assert (LL : (length (sent p) - length rest = length R0 + 1)%nat) by (clear - LJ; lia). rewrite LL. unfold all_ok.
      assert (SP : firstn (length R0 + 1) (sent p) = firstn (length R0) (sent p) ++ [map rsp (combine bs xb)]).
      { rewrite <- (firstn_skipn (length R0) (sent p)) at 1. rewrite firstn_app, firstn_firstn, firstn_length, SK. replace (length R0 + 1 - Nat.min (length R0) (length (sent p)))%nat with 1%nat by lia. rewrite Nat.min_r by lia. reflexivity. }
      rewrite SP. apply Forall_app. split; [exact AO|]. constructor; [|constructor]. apply Forall_map. clear. induction (combine bs xb); constructor; [reflexivity|assumption]. }
  exists (ls ++ map (pair p) (repeat LReply (length bs))), s'. rewrite sh_run_app, R. split; [exact RU|]. split; [rewrite DV; exact E|]. intros k. rewrite steps_app, steps_own. destruct (Nat.eqb_spec k p) as [->|NE].
  2:{ rewrite app_nil_r, put_other by exact NE. rewrite (sh_own _ _ _ _ RU k NE). apply C. }
  rewrite put_same. exists (R0 ++ [bs]), (xsR ++ xb), xr, Xr, O. cbn [fc_fly fc_in fc_st fc_wait fc_bad set_heap s_out].
  split; [rewrite <- app_assoc; exact C1|]. split; [rewrite app_length, Nat.add_1_r; exact C2'|].
  split. { rewrite app_length. cbn [length]. apply nth_error_Some_lt in NT. lia. }
  split. { rewrite <- app_assoc in C4. apply app_inv_head in C4. exact C4. }
  split; [rewrite <- app_assoc; exact C5|]. split; [rewrite concat_app, !app_length; cbn [concat]; rewrite app_nil_r; lia|]. split; [rewrite !app_length in C7; lia|].
  split; [rewrite YC, C8; reflexivity|]. split; [exact YR|]. split; [rewrite YW; exact C10|]. split; [rewrite YB; exact C11|].
  split. { cbn [concat] in C12. rewrite <- app_assoc in C12. apply Forall_app in C12. apply C12. }
  split; [exact C13'|]. split; [exact C14|]. split.
  - unfold users in *. rewrite filter_app, C15. replace (filter _ (repeat LReply (length bs))) with (@nil label); [apply app_nil_r|]. clear. induction bs; [reflexivity|]. exact IHbs.
  - intros ms EM. destruct (C16 ms EM) as (Z & _). congruence.
Qed.
End F.
