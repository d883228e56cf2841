(** C57: several threads sharing one client. *)
From Verif Require Import Word Bits Header WordLemmas ValMem Client Validate Target Spec SpecLemmas System
  Tx E2E E2ECor Devices DeviceLemmas NetProofs2 Prop_E2E Threads.
From Coq Require Import NArith ZArith List Lia Bool PeanoNat ZifyBool ZifyNat ZifyN.
Import ListNotations.
Open Scope N_scope.

(** The queueing calls of an order of execution, and those of one thread. *)
Definition logged (l : list (nat * op * option nat)) : list op := map (fun e => snd (fst e)) l.
Definition logged_by (i : nat) (l : list (nat * op * option nat)) : list op :=
  map (fun e => snd (fst e)) (filter (fun e => Nat.eqb (fst (fst e)) i) l).

(** Nothing queued, nothing on its way. *)
Definition quiet {D} (y : sys D) : Prop :=
  s_cur (y_c D y) = None /\ s_out (y_c D y) = [] /\ y_rep D y = [].

Section T.
Variable D : Type.
Variable rd : D -> N -> D * N.
Variable wr : D -> N -> N -> D.
Variable cf : D -> N -> D * N.
Variable g : cfg.
Hypothesis G : cfg_ok g.

Notation direct := (direct D rd wr cf (g_ver g)).
Notation direct_op := (direct_op D rd wr cf (g_ver g)).
Notation run := (run D rd wr cf g).
Notation step := (step D rd wr cf g).
Notation tstep := (tstep D rd wr cf g).
Notation trun := (trun D rd wr cf g).

(** Invariant of one thread. *)
Record thr_inv (s : tst D) (ps : list (list call)) (i : nat) (t : thr) : Prop := {
  q_prog : nth_error ps i = Some (t_done t ++ t_prog t);
  q_log : logged_by i (ts_log D s) = ops_of (t_done t) ++
          match t_phase t, t_prog t with PRet, COp o :: _ => [o] | _, _ => [] end;
  q_mutex : t_phase t = POut \/ ts_mutex D s = Some i;
  q_hs : t_hs t = flat_map (fun e => match snd e with Some h => [h] | None => [] end)
           (filter (fun e => Nat.eqb (fst (fst e)) i) (ts_log D s));
  q_wait : ts_mutex D s = Some i ->
           y_wait D (ts_sys D s) = match t_phase t with PWait => true | _ => false end /\
           t_phase t <> POut;
  q_shape : match t_phase t, t_prog t with
            | POut, _ => True
            | PWait, CDispatch :: _ => True
            | PWait, _ | _, [] => False
            | _, _ :: _ => True
            end;
  q_quiet : t_phase t = PRet -> (exists p, t_prog t = CDispatch :: p) -> quiet (ts_sys D s)
}.

Record tinv (d0 : D) (ps : list (list call)) (s : tst D) : Prop := {
  z_run : exists ls, run (init_sys D d0) ls = Some (ts_sys D s) /\ calls ls = logged (ts_log D s);
  z_ok : Forall op_ok (logged (ts_log D s));
  z_len : length (ts_thr D s) = length ps;
  z_held : forall i, ts_mutex D s = Some i -> (i < length (ts_thr D s))%nat;
  z_free : ts_mutex D s = None -> y_wait D (ts_sys D s) = false;
  z_thr : forall i t, nth_error (ts_thr D s) i = Some t -> thr_inv s ps i t;
  z_res : forall pre i o r post, ts_log D s = pre ++ (i, o, r) :: post ->
          r = match snd (direct_op (fst (direct d0 (logged pre))) o) with
              | Some _ => Some (length (snd (direct d0 (logged pre))))
              | None => None
              end
}.

Lemma ops_of_app p q : ops_of (p ++ q) = ops_of p ++ ops_of q.
Proof. induction p as [|[o|] t IH]; cbn; congruence. Qed.

Lemma nth_set_thr l i t j : nth_error (set_thr l i t) j =
  if Nat.eqb j i then option_map (fun _ => t) (nth_error l j) else nth_error l j.
Proof.
  unfold set_thr. revert i j. induction l as [|x l IH]; intros [|i] [|j]; cbn; try reflexivity.
  - destruct (Nat.eqb j i); reflexivity.
  - apply IH.
Qed.

Lemma set_thr_length l i t : length (set_thr l i t) = length l.
Proof. apply upd_length. Qed.

Lemma logged_app a b : logged (a ++ b) = logged a ++ logged b.
Proof. apply map_app. Qed.

Lemma logged_by_snoc i l j o r : logged_by i (l ++ [(j, o, r)]) =
  logged_by i l ++ (if Nat.eqb j i then [o] else []).
Proof.
  unfold logged_by. rewrite filter_app. cbn [filter fst]. rewrite map_app.
  destruct (Nat.eqb j i); reflexivity.
Qed.

Lemma step_op y o : y_wait D y = false ->
  step y (LOp o) = Some (fst (body_op D g y o)).
Proof.
  intros W. cbn [System.step]. unfold body_op. rewrite W.
  destruct (run_op g (y_c D y) o); reflexivity.
Qed.

Lemma step_dispatch y : y_wait D y = false ->
  step y LDispatch = Some (fst (body_dispatch D g y)) /\
  y_wait D (fst (body_dispatch D g y)) = snd (body_dispatch D g y).
Proof.
  intros W. cbn [System.step]. unfold body_dispatch. rewrite W.
  destruct (s_cur (y_c D y)); [|auto].
  destruct (dispatch_send g (y_c D y)); auto.
Qed.

(** A dispatch() that does not enter Flush leaves nothing on its way. *)
Lemma dispatch_quiet d0 ls y : Forall op_ok (calls ls) -> run (init_sys D d0) ls = Some y ->
  y_wait D y = false -> snd (body_dispatch D g y) = false -> quiet (fst (body_dispatch D g y)).
Proof.
  intros F R W Q.
  destruct (reach_inv D rd wr cf g G d0 ls y F R) as (dr & gr & go & gc & I & B & AL & BD).
  rewrite W in BD. unfold body_dispatch in *.
  destruct (s_cur (y_c D y)) as [b|] eqn:C.
  - assert (exists s, dispatch_send g (y_c D y) = Ok s tt) as (s & E).
    { pose proof (i_cur _ _ _ _ _ _ _ _ _ _ _ _ _ I) as X. rewrite C in X.
      destruct gc as [p|]; [|contradiction].
      destruct (send_current_ok D rd wr cf (dev_rmw D rd wr) g G false _ _ _ _ _ b p I C (proj2 BD p eq_refl)) as (s & n & E & _).
      exists s. unfold dispatch_send. rewrite C. exact E. }
    rewrite E in Q. discriminate.
  - pose proof (i_cur _ _ _ _ _ _ _ _ _ _ _ _ _ I) as X. rewrite C in X. destruct gc; [contradiction|].
    destruct (proj1 BD eq_refl) as (-> & ->). cbn [fst]. split; [exact C|].
    pose proof (i_out _ _ _ _ _ _ _ _ _ _ _ _ _ I) as X1. inversion X1.
    pose proof (i_rep _ _ _ _ _ _ _ _ _ _ _ _ _ I) as X2. inversion X2. auto.
Qed.

Lemma tinv_init d0 ps : tinv d0 ps (init_tst D d0 ps).
Proof.
  constructor; cbn [init_tst ts_log ts_sys ts_thr ts_mutex logged map].
  - exists []. split; reflexivity.
  - constructor.
  - apply map_length.
  - discriminate.
  - reflexivity.
  - intros i t E. rewrite nth_error_map in E. destruct (nth_error ps i) as [p|] eqn:P; [|discriminate].
    injection E as <-. constructor; cbn; trivial; try discriminate. left. reflexivity.
  - intros [|? ?] ? ? ? ? E; discriminate.
Qed.

(** Threads other than the one that moves. *)
Lemma other_thr s s' ps i j t : thr_inv s ps j t -> j <> i -> ts_mutex D s = Some i ->
  (exists e, ts_log D s' = ts_log D s ++ e /\ Forall (fun x => fst (fst x) = i) e) ->
  ts_mutex D s' = Some i \/ ts_mutex D s' = None ->
  thr_inv s' ps j t.
Proof.
  intros [A B C E F K H] N M (e & L & Fe) M'.
  assert (O : t_phase t = POut) by (destruct C as [C|C]; congruence).
  assert (X : filter (fun e => Nat.eqb (fst (fst e)) j) (ts_log D s') = filter (fun e => Nat.eqb (fst (fst e)) j) (ts_log D s)).
  { rewrite L, filter_app. replace (filter _ e) with (@nil (nat * op * option nat)); [apply app_nil_r|].
    symmetry. clear -Fe N. induction Fe as [|x l Hx _ IH]; [reflexivity|]. cbn [filter].
    rewrite Hx. destruct (Nat.eqb_spec i j); [congruence|exact IH]. }
  constructor.
  - exact A.
  - unfold logged_by in *. rewrite X. exact B.
  - left. exact O.
  - rewrite X. exact E.
  - intros Q. destruct M'; congruence.
  - rewrite O. exact Logic.I.
  - rewrite O. discriminate.
Qed.

Lemma tinv_step d0 ps s l s' : (forall i p, nth_error ps i = Some p -> Forall op_ok (ops_of p)) ->
  tinv d0 ps s -> tstep s l = Some s' -> tinv d0 ps s'.
Proof.
  intros OK I ST. destruct I as [ZR ZO ZL ZH ZF ZT ZS]. destruct ZR as (ls & R & CL).
  destruct l as [i|i|i|i|rep]; cbn [Threads.tstep] in ST.
  - (* lock *)
    destruct (ts_mutex D s) eqn:M; [discriminate|].
    destruct (nth_error (ts_thr D s) i) as [[[|c p] [| | |] hs dn]|] eqn:T; try discriminate.
    injection ST as <-. assert (Q := ZT _ _ T).
    constructor; cbn [ts_log ts_sys ts_thr ts_mutex]; trivial.
    + exists ls. auto.
    + rewrite set_thr_length. exact ZL.
    + rewrite set_thr_length. intros j X. injection X as <-. apply nth_error_Some. congruence.
    + discriminate.
    + intros j t E. rewrite nth_set_thr in E. destruct (Nat.eqb_spec j i) as [->|N].
      * rewrite T in E. injection E as <-. destruct Q as [A B C E F K H]. cbn [t_done t_prog t_phase t_hs] in *.
        constructor; cbn [t_done t_prog t_phase t_hs ts_log ts_sys ts_mutex]; trivial.
        -- right. reflexivity.
        -- intros _. split; [apply ZF; reflexivity|discriminate].
        -- discriminate.
      * assert (Q' := ZT _ _ E). destruct Q' as [A B C E' F K H].
        assert (O : t_phase t = POut) by (destruct C as [C|C]; congruence).
        constructor; cbn [ts_log ts_sys ts_mutex]; trivial.
        -- left. exact O.
        -- intros X. congruence.
  - (* body *)
    destruct (nth_error (ts_thr D s) i) as [[[|[o|] p] [| | |] hs dn]|] eqn:T; try discriminate.
    + (* queueing call *)
      assert (Q := ZT _ _ T). destruct Q as [A B C E F K H]. cbn [t_done t_prog t_phase t_hs] in *.
      destruct C as [C|C]; [discriminate|]. destruct (F C) as (W & _).
      assert (OKo : op_ok o).
      { specialize (OK _ _ A). rewrite ops_of_app in OK. apply Forall_app in OK.
        destruct OK as (_ & OK). cbn [ops_of] in OK. inversion OK. assumption. }
      pose proof (step_op (ts_sys D s) o W) as S1.
      assert (RS : match snd (direct_op (fst (direct d0 (logged (ts_log D s)))) o) with
              | Some _ => snd (body_op D g (ts_sys D s) o) = Some (length (snd (direct d0 (logged (ts_log D s)))))
              | None => snd (body_op D g (ts_sys D s) o) = None
              end).
      { assert (FC : Forall op_ok (calls ls)) by (rewrite CL; exact ZO).
        assert (X := C14_handles D rd wr cf g d0 ls _ o G FC OKo R W). rewrite CL in X. unfold body_op.
        destruct (snd (direct_op _ o)).
        - destruct X as (s1 & ->). reflexivity.
        - destruct X as (s1 & e & ->). reflexivity. }
      assert (WB : y_wait D (fst (body_op D g (ts_sys D s) o)) = false).
      { unfold body_op. destruct (run_op g (y_c D (ts_sys D s)) o); exact W. }
      destruct (body_op D g (ts_sys D s) o) as [y r] eqn:BO. cbn [fst snd] in *.
      injection ST as <-.
      constructor; cbn [ts_log ts_sys ts_thr ts_mutex].
      * exists (ls ++ [LOp o]). rewrite run_app, R. cbn [System.run]. rewrite S1. split; [reflexivity|].
        rewrite calls_app, logged_app, CL. reflexivity.
      * rewrite logged_app. apply Forall_app. split; [exact ZO|]. constructor; [exact OKo|constructor].
      * rewrite set_thr_length. exact ZL.
      * rewrite set_thr_length. exact ZH.
      * congruence.
      * intros j t E1. rewrite nth_set_thr in E1. destruct (Nat.eqb_spec j i) as [->|N].
        -- rewrite T in E1. injection E1 as <-.
           constructor; cbn [t_done t_prog t_phase t_hs ts_log ts_sys ts_mutex].
           ++ exact A.
           ++ rewrite logged_by_snoc, B, Nat.eqb_refl, app_nil_r. reflexivity.
           ++ right. exact C.
           ++ rewrite filter_app, flat_map_app. cbn [filter fst]. rewrite Nat.eqb_refl. cbn [flat_map snd].
              rewrite <- E. destruct r; rewrite ?app_nil_r; reflexivity.
           ++ intros _. split; [exact WB|discriminate].
           ++ exact Logic.I.
           ++ intros _ (p' & X). discriminate.
        -- apply (other_thr s _ ps i j t (ZT _ _ E1) N C).
           ++ cbn [ts_log]. eexists. split; [reflexivity|]. constructor; [reflexivity|constructor].
           ++ left. exact C.
      * intros pre k o' r' post L.
        destruct post as [|z post] using rev_ind.
        -- apply app_inj_tail in L. destruct L as (<- & L). injection L as <- <- <-.
           destruct (snd (direct_op _ o)); exact RS.
        -- clear IHpost. change (pre ++ (k, o', r') :: post ++ [z]) with (pre ++ ((k, o', r') :: post) ++ [z]) in L.
           rewrite app_assoc in L. apply app_inj_tail in L. destruct L as (L & _).
           apply (ZS _ _ _ _ _ L).
    + (* dispatch *)
      assert (Q := ZT _ _ T). destruct Q as [A B C E F K H]. cbn [t_done t_prog t_phase t_hs] in *.
      destruct C as [C|C]; [discriminate|]. destruct (F C) as (W & _).
      destruct (step_dispatch (ts_sys D s) W) as (S1 & S2).
      assert (FC : Forall op_ok (calls ls)) by (rewrite CL; exact ZO).
      assert (QT := dispatch_quiet d0 ls _ FC R W).
      destruct (body_dispatch D g (ts_sys D s)) as [y w] eqn:BO. cbn [fst snd] in *.
      injection ST as <-.
      constructor; cbn [ts_log ts_sys ts_thr ts_mutex]; trivial.
      * exists (ls ++ [LDispatch]). rewrite run_app, R. cbn [System.run]. rewrite S1. split; [reflexivity|].
        rewrite calls_app. cbn [calls]. rewrite app_nil_r. exact CL.
      * rewrite set_thr_length. exact ZL.
      * rewrite set_thr_length. exact ZH.
      * congruence.
      * intros j t E1. rewrite nth_set_thr in E1. destruct (Nat.eqb_spec j i) as [->|N].
        -- rewrite T in E1. injection E1 as <-.
           constructor; cbn [t_done t_prog t_phase t_hs ts_log ts_sys ts_mutex].
           ++ exact A.
           ++ rewrite B. destruct w; reflexivity.
           ++ right. exact C.
           ++ exact E.
           ++ intros _. split; [rewrite S2; destruct w; reflexivity|destruct w; discriminate].
           ++ destruct w; exact Logic.I.
           ++ intros P _. apply QT. destruct w; [discriminate|reflexivity].
        -- apply (other_thr s _ ps i j t (ZT _ _ E1) N C).
           ++ exists []. rewrite app_nil_r. split; [reflexivity|constructor].
           ++ left. exact C.
  - (* Flush returns *)
    destruct (nth_error (ts_thr D s) i) as [[[|[o|] p] [| | |] hs dn]|] eqn:T; try discriminate.
    destruct (s_out (y_c D (ts_sys D s))) eqn:O; [|discriminate].
    destruct (y_rep D (ts_sys D s)) eqn:P; [|discriminate].
    injection ST as <-.
    assert (Q := ZT _ _ T). destruct Q as [A B C E F K H]. cbn [t_done t_prog t_phase t_hs] in *.
    destruct C as [C|C]; [discriminate|]. destruct (F C) as (W & _).
    assert (S1 : step (ts_sys D s) LReturn = Some (mkSys D (y_c D (ts_sys D s)) [] (y_dev D (ts_sys D s)) false (y_bad D (ts_sys D s)))).
    { cbn [System.step]. rewrite W, O, P. reflexivity. }
    assert (FC : Forall op_ok (calls ls)) by (rewrite CL; exact ZO).
    assert (RR : run (init_sys D d0) (ls ++ [LReturn]) = Some (mkSys D (y_c D (ts_sys D s)) [] (y_dev D (ts_sys D s)) false (y_bad D (ts_sys D s)))).
    { rewrite run_app, R. cbn [System.run]. rewrite S1. reflexivity. }
    destruct (return_quiescent D rd wr cf g G d0 ls _ FC RR) as (Q1 & Q2 & Q3 & _).
    constructor; cbn [ts_log ts_sys ts_thr ts_mutex]; trivial.
    + exists (ls ++ [LReturn]). split; [exact RR|].
      rewrite calls_app. cbn [calls]. rewrite app_nil_r. exact CL.
    + rewrite set_thr_length. exact ZL.
    + rewrite set_thr_length. exact ZH.
    + intros j t E1. rewrite nth_set_thr in E1. destruct (Nat.eqb_spec j i) as [->|N].
      * rewrite T in E1. injection E1 as <-.
        constructor; cbn [t_done t_prog t_phase t_hs ts_log ts_sys ts_mutex]; trivial.
        -- right. exact C.
        -- intros _. split; [reflexivity|discriminate].
        -- intros _ _. split; [exact Q1|split; [exact Q2|exact Q3]].
      * apply (other_thr s _ ps i j t (ZT _ _ E1) N C).
        -- exists []. rewrite app_nil_r. split; [reflexivity|constructor].
        -- left. exact C.
  - (* unlock *)
    destruct (nth_error (ts_thr D s) i) as [[[|c p] [| | |] hs dn]|] eqn:T; try discriminate.
    injection ST as <-.
    assert (Q := ZT _ _ T). destruct Q as [A B C E F K H]. cbn [t_done t_prog t_phase t_hs] in *.
    destruct C as [C|C]; [discriminate|]. destruct (F C) as (W & _).
    constructor; cbn [ts_log ts_sys ts_thr ts_mutex]; trivial.
    + exists ls. auto.
    + rewrite set_thr_length. exact ZL.
    + rewrite set_thr_length. discriminate.
    + intros j t E1. rewrite nth_set_thr in E1. destruct (Nat.eqb_spec j i) as [->|N].
      * rewrite T in E1. injection E1 as <-.
        constructor; cbn [t_done t_prog t_phase t_hs ts_log ts_sys ts_mutex]; trivial.
        -- rewrite <- app_assoc. exact A.
        -- rewrite B, ops_of_app, app_nil_r. destruct c; reflexivity.
        -- left. reflexivity.
        -- discriminate.
        -- discriminate.
      * apply (other_thr s _ ps i j t (ZT _ _ E1) N C).
        -- exists []. rewrite app_nil_r. split; [reflexivity|constructor].
        -- right. reflexivity.
  - (* network *)
    destruct (step (ts_sys D s) (if rep then LReply else LTarget)) as [y|] eqn:S1; [|discriminate].
    injection ST as <-.
    assert (NL : net_label (if rep then LReply else LTarget)) by (destruct rep; [right|left]; reflexivity).
    assert (W := net_wait D rd wr cf g _ _ _ NL S1).
    constructor; cbn [ts_log ts_sys ts_thr ts_mutex]; trivial.
    + exists (ls ++ [if rep then LReply else LTarget]). rewrite run_app, R. cbn [System.run]. rewrite S1.
      split; [reflexivity|]. rewrite calls_app, CL. destruct rep; apply app_nil_r.
    + rewrite W. exact ZF.
    + intros j t E1. assert (Q := ZT _ _ E1). destruct Q as [A B C E F K H].
      constructor; cbn [ts_log ts_sys ts_mutex]; trivial.
      * rewrite W. exact F.
      * intros P1 P2. destruct (H P1 P2) as (H1 & H2 & H3). exfalso.
        destruct rep; cbn [System.step] in S1; rewrite ?H2, ?H3 in S1; discriminate.
Qed.

Lemma tinv_run d0 ps : (forall i p, nth_error ps i = Some p -> Forall op_ok (ops_of p)) ->
  forall ls s s', tinv d0 ps s -> trun s ls = Some s' -> tinv d0 ps s'.
Proof.
  intros OK. induction ls as [|l t IH]; intros s s' I R.
  - injection R as <-. exact I.
  - cbn [Threads.trun] in R. destruct (tstep s l) as [s1|] eqn:E; [|discriminate].
    exact (IH _ _ (tinv_step _ _ _ _ _ OK I E) R).
Qed.
End T.

(** All programs consist of admissible calls. *)
Definition progs_ok (ps : list (list call)) : Prop :=
  forall i p, nth_error ps i = Some p -> Forall op_ok (ops_of p).

(** Serialisation: at every moment of every execution there is one order of all
    the calls made so far, in which each thread's calls appear in its program
    order, such that
    - at most one thread is inside a call;
    - each call returned the handle it would have got in that order;
    - whenever nothing is pending, device and handles are exactly those of
      executing the calls directly, one after the other, in that order. *)
Theorem C57_serialised : forall D rd wr cf g (d0 : D) ps ls s,
  cfg_ok g -> progs_ok ps -> trun D rd wr cf g (init_tst D d0 ps) ls = Some s ->
  let dir := direct D rd wr cf (g_ver g) d0 in
  (forall i j t u, nth_error (ts_thr D s) i = Some t -> nth_error (ts_thr D s) j = Some u ->
     t_phase t <> POut -> t_phase u <> POut -> i = j) /\
  (forall i t, nth_error (ts_thr D s) i = Some t ->
     exists p, nth_error ps i = Some p /\ p = t_done t ++ t_prog t /\
     (t_phase t = POut -> logged_by i (ts_log D s) = ops_of (t_done t)) /\
     exists rest, ops_of p = logged_by i (ts_log D s) ++ rest) /\
  (forall pre i o r post, ts_log D s = pre ++ (i, o, r) :: post ->
     (r = None -> snd (direct_op D rd wr cf (g_ver g) (fst (dir (logged pre))) o) = None) /\
     (forall h, r = Some h ->
        nth_error (snd (dir (logged (ts_log D s)))) h =
        snd (direct_op D rd wr cf (g_ver g) (fst (dir (logged pre))) o))) /\
  (quiet (ts_sys D s) ->
     (y_dev D (ts_sys D s), s_heap (y_c D (ts_sys D s))) = dir (logged (ts_log D s))) /\
  y_bad D (ts_sys D s) = false.
Proof.
  intros D rd wr cf g d0 ps ls s G OK R dir.
  assert (I := tinv_run D rd wr cf g G d0 ps OK ls _ _ (tinv_init D rd wr cf g d0 ps) R).
  destruct I as [(ms & RM & CL) ZO ZL ZH ZF ZT ZS].
  assert (FC : Forall op_ok (calls ms)) by (rewrite CL; exact ZO).
  destruct (reach_inv D rd wr cf g G d0 ms _ FC RM) as (dr & gr & go & gc & I & B & AL & BD).
  split; [|split; [|split; [|split]]].
  - intros i j t u Ei Ej Ni Nj.
    destruct (q_mutex _ _ _ _ _ (ZT _ _ Ei)) as [A|A]; [contradiction|].
    destruct (q_mutex _ _ _ _ _ (ZT _ _ Ej)) as [A'|A']; [contradiction|]. congruence.
  - intros i t E. destruct (ZT _ _ E) as [A B' C' E' F' K' H']. eexists. split; [exact A|].
    split; [reflexivity|]. split.
    + intros P. rewrite B', P. apply app_nil_r.
    + rewrite B', ops_of_app.
      destruct (t_phase t); try (exists (ops_of (t_prog t)); rewrite app_nil_r; reflexivity).
      destruct (t_prog t) as [|[o|] q]; [exists []|exists (ops_of q)|exists (ops_of q)];
        cbn [ops_of]; rewrite <- ?app_assoc, ?app_nil_r; reflexivity.
  - intros pre i o r post L. assert (X := ZS _ _ _ _ _ L). split.
    + intros ->. destruct (snd (direct_op _ _ _ _ _ _ o)); [discriminate|reflexivity].
    + intros h ->.
      destruct (snd (direct_op D rd wr cf (g_ver g) (fst (direct D rd wr cf (g_ver g) d0 (logged pre))) o)) as [c|] eqn:Y;
        [|discriminate]. injection X as ->. unfold dir. rewrite Y.
      rewrite L. unfold logged. rewrite map_app. cbn [map fst snd]. fold (logged pre). fold (logged post).
      change (o :: logged post) with ([o] ++ logged post). rewrite app_assoc.
      assert (SN := direct_snoc D rd wr cf (g_ver g) d0 (logged pre) o). rewrite Y in SN.
      assert (MON : forall l os, exists e, snd (direct D rd wr cf (g_ver g) d0 (os ++ l)) =
                snd (direct D rd wr cf (g_ver g) d0 os) ++ e).
      { clear. induction l as [|x l IH] using rev_ind; intros os.
        - exists []. rewrite !app_nil_r. reflexivity.
        - rewrite app_assoc, direct_snoc. cbn [snd]. destruct (IH os) as (e & ->).
          eexists. rewrite <- app_assoc. reflexivity. }
      destruct (MON (logged post) (logged pre ++ [o])) as (e & ->). rewrite SN. cbn [snd].
      rewrite <- app_assoc, nth_error_app2, Nat.sub_diag by lia. reflexivity.
  - intros (Q1 & Q2 & Q3). unfold dir. rewrite <- CL.
    destruct (E2E.quiescent_direct D rd wr cf g G false [] d0 ms (ts_sys D s) FC) as (_ & X);
      [discriminate|exact RM|]. rewrite (X Q1 Q2 Q3). apply above_nil.
  - exact B.
Qed.

Lemma direct_op_valid D rd wr cf v (d : D) o c :
  snd (direct_op D rd wr cf v d o) = Some c -> cell_valid c = true.
Proof.
  intros Y. destruct o; cbn [direct_op snd] in Y; unfold spec_rmw in Y;
      repeat match type of Y with
             | context [let (_, _) := ?x in _] => destruct x
             | context [if ?x then _ else _] => destruct x
             | context [match ?x with V1 => _ | V2 => _ end] => destruct x
             end; cbn [snd] in Y; try discriminate; injection Y as <-; reflexivity.
Qed.

(** When dispatch() returns in a thread, every handle that thread has obtained is
    readable, and holds the result of its call in the common order. *)
Theorem C57_readable : forall D rd wr cf g (d0 : D) ps ls s i s' t p,
  cfg_ok g -> progs_ok ps -> trun D rd wr cf g (init_tst D d0 ps) ls = Some s ->
  nth_error (ts_thr D s) i = Some t -> t_prog t = CDispatch :: p ->
  tstep D rd wr cf g s (TUnlock i) = Some s' ->
  quiet (ts_sys D s') /\
  length (ops_of (t_done t)) = length (logged_by i (ts_log D s')) /\
  (forall h, In h (t_hs t) -> exists c, nth_error (s_heap (y_c D (ts_sys D s'))) h = Some c /\ cell_valid c = true) /\
  (forall pre o h post, ts_log D s' = pre ++ (i, o, Some h) :: post -> In h (t_hs t) /\
     nth_error (s_heap (y_c D (ts_sys D s'))) h =
       snd (direct_op D rd wr cf (g_ver g) (fst (direct D rd wr cf (g_ver g) d0 (logged pre))) o)).
Proof.
  intros D rd wr cf g d0 ps ls s i s' t p G OK R T P ST.
  assert (I := tinv_run D rd wr cf g G d0 ps OK ls _ _ (tinv_init D rd wr cf g d0 ps) R).
  assert (SS : ts_sys D s' = ts_sys D s /\ ts_log D s' = ts_log D s /\ t_phase t = PRet).
  { cbn [Threads.tstep] in ST. rewrite T in ST. destruct t as [pr ph hs dn]. cbn [t_prog] in P. subst pr.
    destruct ph; try discriminate. injection ST as <-. auto. }
  destruct SS as (-> & -> & PH).
  assert (Q := z_thr _ _ _ _ _ _ _ _ I _ _ T).
  assert (QU : quiet (ts_sys D s)) by (apply (q_quiet _ _ _ _ _ Q PH); eauto).
  destruct (C57_serialised D rd wr cf g d0 ps ls s G OK R) as (_ & _ & RS & QD & _).
  specialize (QD QU). split; [exact QU|].
  assert (LG := q_log _ _ _ _ _ Q). rewrite PH, P, app_nil_r in LG.
  split; [rewrite LG; reflexivity|].
  assert (HV : forall pre j o h post, ts_log D s = pre ++ (j, o, Some h) :: post ->
     nth_error (s_heap (y_c D (ts_sys D s))) h =
     snd (direct_op D rd wr cf (g_ver g) (fst (direct D rd wr cf (g_ver g) d0 (logged pre))) o)).
  { intros pre j o h post L. destruct (RS _ _ _ _ _ L) as (_ & X). rewrite <- (X h eq_refl), <- QD. reflexivity. }
  assert (HS := q_hs _ _ _ _ _ Q). split.
  - intros h Hh. rewrite HS in Hh. apply in_flat_map in Hh. destruct Hh as ([[j o] r] & X & Y).
    apply filter_In in X. destruct X as (X & _). destruct r as [h'|]; [|destruct Y]. destruct Y as [->|[]].
    apply in_split in X. destruct X as (pre & post & L). rewrite (HV _ _ _ _ _ L).
    assert (X := z_res _ _ _ _ _ _ _ _ I _ _ _ _ _ L).
    destruct (snd (direct_op D rd wr cf (g_ver g) _ o)) as [c|] eqn:Y; [|discriminate].
    exists c. split; [reflexivity|].
    exact (direct_op_valid _ _ _ _ _ _ _ _ Y).
  - intros pre o h post L. split; [|exact (HV _ _ _ _ _ L)].
    rewrite HS, L. apply in_flat_map. exists (i, o, Some h). split; [|left; reflexivity].
    apply filter_In. split; [apply in_or_app; right; left; reflexivity|]. apply Nat.eqb_refl.
Qed.

(** No deadlock: as long as some thread has calls left, some event is possible. *)
Theorem C57_no_deadlock : forall D rd wr cf g (d0 : D) ps ls s,
  cfg_ok g -> progs_ok ps -> trun D rd wr cf g (init_tst D d0 ps) ls = Some s ->
  (exists t, In t (ts_thr D s) /\ t_prog t <> []) ->
  exists l, tstep D rd wr cf g s l <> None.
Proof.
  intros D rd wr cf g d0 ps ls s G OK R (t & T & NP).
  assert (I := tinv_run D rd wr cf g G d0 ps OK ls _ _ (tinv_init D rd wr cf g d0 ps) R).
  apply In_nth_error in T. destruct T as (i & T).
  assert (INS : forall j u, nth_error (ts_thr D s) j = Some u -> t_phase u <> POut ->
    exists l, tstep D rd wr cf g s l <> None).
  { intros j [pr ph hs dn] U NO. assert (Q := q_shape _ _ _ _ _ (z_thr _ _ _ _ _ _ _ _ I _ _ U)).
    cbn [t_phase t_prog] in *.
    destruct ph; [congruence|..]; (destruct pr as [|c p]; [destruct Q|]).
    - exists (TBody j). cbn [Threads.tstep]. rewrite U. destruct c as [o|].
      + destruct (body_op D g (ts_sys D s) o). discriminate.
      + destruct (body_dispatch D g (ts_sys D s)). discriminate.
    - destruct c as [o|]; [destruct Q|].
      destruct (s_out (y_c D (ts_sys D s))) as [|b q] eqn:O.
      + destruct (y_rep D (ts_sys D s)) as [|[b r] q] eqn:P.
        * exists (TFlushed j). cbn [Threads.tstep]. rewrite U, O, P. discriminate.
        * exists (TNet true). cbn [Threads.tstep System.step]. rewrite P.
          destruct (receive_packet g _ b r) as [h [| |]]; discriminate.
      + exists (TNet false). cbn [Threads.tstep System.step]. rewrite O.
        destruct (target_packet _ _ _ _ _ _ _) as [[? ?] ?]. discriminate.
    - exists (TUnlock j). cbn [Threads.tstep]. rewrite U. discriminate. }
  destruct (ts_mutex D s) as [j|] eqn:M.
  - destruct (nth_error (ts_thr D s) j) as [u|] eqn:U.
    + apply (INS j u U). apply (q_wait _ _ _ _ _ (z_thr _ _ _ _ _ _ _ _ I _ _ U) M).
    + apply nth_error_None in U. assert (X := z_held _ _ _ _ _ _ _ _ I _ M). lia.
  - destruct (q_mutex _ _ _ _ _ (z_thr _ _ _ _ _ _ _ _ I _ _ T)) as [O|O]; [|congruence].
    exists (TLock i). cbn [Threads.tstep]. rewrite M, T. destruct t as [[|c p] ph hs dn]; [cbn in NP; congruence|].
    cbn [t_phase] in O. subst ph. discriminate.
Qed.

(** Two threads on the device that records its accesses, packets of 32 bytes: the
    second thread's block is queued between the first thread's calls, and the
    first thread's dispatch also completes it. *)
Definition t_ps : list (list call) :=
  [[COp (ORead 1 0xFFFFFFFF); CDispatch; COp (OWrite 2 5); CDispatch];
   [COp (OWriteBlock 0x10 [1; 2; 3; 4] true); CDispatch]].
Definition t_cfg : cfg := mkCfg V2 32 32 None.
Definition t_sched : list tlabel :=
  [TLock 0; TBody 0; TUnlock 0; TLock 1; TBody 1; TUnlock 1; TLock 0; TBody 0; TNet false; TNet true;
   TNet false; TNet true; TFlushed 0; TUnlock 0; TLock 1; TBody 1; TUnlock 1].

Example C57_case_hyps : cfg_ok t_cfg /\ progs_ok t_ps.
Proof.
  split; [unfold cfg_ok; cbn; repeat split; try lia; discriminate|].
  intros [|[|[|i]]] p E; try discriminate; injection E as <-; repeat constructor; cbn; lia.
Qed.

Example C57_case :
  option_map (fun s => (y_dev _ (ts_sys _ s), map t_hs (ts_thr _ s), logged (ts_log _ s),
                        map cell_valid (s_heap (y_c _ (ts_sys _ s)))))
    (trun (list access) (log_rd (fun _ a => a + 7)) log_wr (log_cf (fun _ _ => 0)) t_cfg
       (init_tst _ [] t_ps) t_sched) =
  Some ([ARead 1; AWrite 0x10 1; AWrite 0x11 2; AWrite 0x12 3; AWrite 0x13 4], [[0%nat]; [1%nat]],
        [ORead 1 0xFFFFFFFF; OWriteBlock 0x10 [1; 2; 3; 4] true], [true; true]).
Proof. vm_compute. reflexivity. Qed.

Print Assumptions C57_serialised.
Print Assumptions C57_readable.
Print Assumptions C57_no_deadlock.
