(** Proof layer: consequences of the simulation for whole executions. *)
From Verif Require Import Word Bits Header WordLemmas HeaderProofs ValMem Client
  Validate Target Spec AtomicSpec SpecLemmas System Tx E2E.
From Coq Require Import NArith ZArith List Lia Bool ZifyBool ZifyNat ZifyN.
Import ListNotations.
Open Scope N_scope.

Section Cor.
Variable D : Type.
Variable rd : D -> N -> D * N.
Variable wr : D -> N -> N -> D.
Variable cf : D -> N -> D * N.
Variable g : cfg.
Hypothesis G : cfg_ok g.

Notation v := (g_ver g).
Notation direct := (direct D rd wr cf v).
Notation run := (run D rd wr cf g).
Notation step := (step D rd wr cf g).

Lemma reach_inv_from hb d0 ls y :
  Forall op_ok (calls ls) -> run (start D hb d0) ls = Some y ->
  Sinv D rd wr cf (dev_rmw D rd wr) g false hb d0 (calls ls) y.
Proof.
  intros F R.
  apply (run_inv D rd wr cf g G false hb d0 ls [] _ _ (init_inv D rd wr cf (dev_rmw D rd wr) g false hb d0) F); trivial.
  discriminate.
Qed.

Lemma above_nil r : above D [] r = r.
Proof. destruct r. reflexivity. Qed.

Lemma reach_inv d0 ls y :
  Forall op_ok (calls ls) -> run (init_sys D d0) ls = Some y ->
  Sinv D rd wr cf (dev_rmw D rd wr) g false [] d0 (calls ls) y.
Proof. exact (reach_inv_from [] d0 ls y). Qed.

Lemma run_app ls ms y : run y (ls ++ ms) =
  match run y ls with Some y' => run y' ms | None => None end.
Proof.
  revert y. induction ls as [|l t IH]; intros y; [reflexivity|].
  cbn [app System.run]. destruct (step y l); [apply IH|reflexivity].
Qed.

Lemma return_quiescent_from hb d0 ls y :
  Forall op_ok (calls ls) -> run (start D hb d0) (ls ++ [LReturn]) = Some y ->
  s_cur (y_c D y) = None /\ s_out (y_c D y) = [] /\ y_rep D y = [] /\ y_wait D y = false /\
  y_bad D y = false /\
  (y_dev D y, s_heap (y_c D y)) = above D hb (direct d0 (calls ls)).
Proof.
  intros F R.
  assert (CL : calls (ls ++ [LReturn]) = calls ls)
    by (rewrite calls_app; cbn; apply app_nil_r).
  assert (Q := R). rewrite run_app in R.
  destruct (run (start D hb d0) ls) as [y0|] eqn:E; [|discriminate].
  destruct (reach_inv_from hb d0 ls y0 F E) as (dr & gr & go & gc & I & B & AL & BD).
  cbn [System.run System.step] in R.
  destruct (y_wait D y0) eqn:W; [|discriminate].
  destruct (s_out (y_c D y0)) eqn:O; [|discriminate].
  destruct (y_rep D y0) eqn:P; [|discriminate].
  injection R as <-. cbn [y_c y_rep y_dev y_wait y_bad].
  assert (C : s_cur (y_c D y0) = None).
  { subst gc. pose proof (i_cur _ _ _ _ _ _ _ _ _ _ _ _ _ I) as X.
    destruct (s_cur (y_c D y0)); [contradiction|reflexivity]. }
  repeat (split; [assumption||reflexivity|]).
  destruct (quiescent_direct D rd wr cf g G false hb d0 ls y0 F ltac:(discriminate) E) as (_ & X).
  apply X; assumption.
Qed.

Lemma return_quiescent d0 ls y :
  Forall op_ok (calls ls) -> run (init_sys D d0) (ls ++ [LReturn]) = Some y ->
  s_cur (y_c D y) = None /\ s_out (y_c D y) = [] /\ y_rep D y = [] /\ y_wait D y = false /\
  y_bad D y = false /\
  (y_dev D y, s_heap (y_c D y)) = direct d0 (calls ls).
Proof.
  intros F R. destruct (return_quiescent_from [] d0 ls y F R) as (A & B & C & E & H & I).
  rewrite above_nil in I. auto 10.
Qed.

Lemma handles d0 ls y o :
  Forall op_ok (calls ls) -> run (init_sys D d0) ls = Some y -> y_wait D y = false ->
  op_ok o ->
  op_result (run_op g (y_c D y) o) (length (snd (direct d0 (calls ls))))
            (snd (direct_op D rd wr cf v (fst (direct d0 (calls ls))) o)).
Proof.
  intros F R W OK.
  destruct (reach_inv d0 ls y F R) as (dr & gr & go & gc & I & B & AL & BD).
  rewrite W in BD.
  destruct (run_op_ok D rd wr cf (dev_rmw D rd wr) (dev_ext _ _ _) g G false _ _ _ _ _ _ (y_dev D y) o I OK BD) as (X & _);
    [discriminate|].
  rewrite above_nil in AL. change (atomic D rd wr cf (dev_rmw D rd wr) v d0 (calls ls)) with (direct d0 (calls ls)) in AL. rewrite <- AL. rewrite alpha_heap_length. exact X.
Qed.

(** Progress of dispatch(). *)
Definition net_label (l : label) : Prop := l = LTarget \/ l = LReply.
Definition work (y : sys D) : nat := 2 * length (s_out (y_c D y)) + length (y_rep D y).

Lemma net_step_work y l y' : net_label l -> step y l = Some y' -> S (work y') = work y.
Proof.
  intros [->| ->]; unfold work; destruct y as [s rep d w b]; cbn [System.step y_c y_rep y_wait y_dev y_bad].
  - destruct (s_out s) as [|p q]; [discriminate|].
    destruct (target_packet D rd wr cf g d (b_send p)) as [[d' r] ok].
    intros E. injection E as <-. cbn. rewrite app_length. cbn. lia.
  - destruct rep as [|[p r] q]; [discriminate|].
    destruct (receive_packet g (s_heap s) p r) as [h [| |]];
      intros E; injection E as <-; cbn; lia.
Qed.

Lemma net_run_work ms : forall y y', Forall net_label ms -> run y ms = Some y' ->
  (length ms + work y' = work y)%nat.
Proof.
  induction ms as [|l t IH]; intros y y' F R.
  - injection R as <-. reflexivity.
  - inversion F as [|? ? Fl Ft]; subst. cbn [System.run] in R.
    destruct (step y l) as [y1|] eqn:E; [|discriminate].
    assert (A := net_step_work _ _ _ Fl E). assert (B := IH _ _ Ft R). cbn [length]. lia.
Qed.

Lemma net_wait y l y' : net_label l -> step y l = Some y' -> y_wait D y' = y_wait D y.
Proof.
  intros [->| ->]; destruct y as [s rep d w b]; cbn [System.step y_c y_rep y_wait y_dev y_bad].
  - destruct (s_out s) as [|p q]; [discriminate|].
    destruct (target_packet D rd wr cf g d (b_send p)) as [[d' r] ok].
    intros E. injection E as <-. reflexivity.
  - destruct rep as [|[p r] q]; [discriminate|].
    destruct (receive_packet g (s_heap s) p r) as [h [| |]];
      intros E; injection E as <-; reflexivity.
Qed.

Lemma dispatch_completes : forall n y, (work y <= n)%nat -> y_wait D y = true ->
  exists ms y', Forall net_label ms /\ run y (ms ++ [LReturn]) = Some y'.
Proof.
  induction n as [|n IH]; intros y L W.
  - exists [], (mkSys D (y_c D y) [] (y_dev D y) false (y_bad D y)). split; [constructor|].
    cbn [app System.run System.step]. rewrite W.
    unfold work in L. destruct (s_out (y_c D y)); [|cbn in L; lia].
    destruct (y_rep D y); [reflexivity|cbn in L; lia].
  - assert (X : (exists l y', net_label l /\ step y l = Some y') \/
               (s_out (y_c D y) = [] /\ y_rep D y = [])).
    { destruct (y_rep D y) as [|[p r] q] eqn:P.
      - destruct (s_out (y_c D y)) as [|b q] eqn:O; [right; auto|left].
        exists LTarget. cbn [System.step]. rewrite O.
        destruct (target_packet D rd wr cf g (y_dev D y) (b_send b)) as [[d' r] ok].
        eexists. split; [left; reflexivity|reflexivity].
      - left. exists LReply. cbn [System.step]. rewrite P.
        destruct (receive_packet g (s_heap (y_c D y)) p r) as [h [| |]]; eexists;
          (split; [right; reflexivity|reflexivity]). }
    destruct X as [(l & y1 & NL & E)|(O & P)].
    + assert (A := net_step_work _ _ _ NL E). assert (B := net_wait _ _ _ NL E).
      destruct (IH y1) as (ms & y2 & F & R); [lia|congruence|].
      exists (l :: ms), y2. split; [constructor; assumption|].
      cbn [app System.run]. rewrite E. exact R.
    + exists []. eexists. split; [constructor|]. cbn [app System.run System.step].
      rewrite W, O, P. reflexivity.
Qed.

(** Without operations nothing gets queued. *)
Lemma no_ops_idle ns : forall y y',
  calls ns = [] -> s_cur (y_c D y) = None -> run y ns = Some y' -> s_cur (y_c D y') = None.
Proof.
  induction ns as [|l t IH]; intros y y' C S R.
  - injection R as <-. exact S.
  - cbn [System.run] in R. destruct (step y l) as [y1|] eqn:E; [|discriminate].
    apply (IH y1); [destruct l; [discriminate|exact C..]| |exact R].
    destruct y as [s rep d w b]; destruct l; cbn [System.step y_c y_rep y_wait y_dev y_bad] in *;
      try discriminate.
    + destruct w; [discriminate|]. rewrite S in E. injection E as <-. exact S.
    + destruct w; [|discriminate]. destruct (s_out s); [|discriminate].
      destruct rep; [|discriminate]. injection E as <-. exact S.
    + destruct (s_out s) as [|p q]; [discriminate|].
      destruct (target_packet D rd wr cf g d (b_send p)) as [[d' r] ok].
      injection E as <-. exact S.
    + destruct rep as [|[p r] q]; [discriminate|].
      destruct (receive_packet g (s_heap s) p r) as [h [| |]];
        injection E as <-; exact S.
Qed.
End Cor.
