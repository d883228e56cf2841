(** C91: several clients of one target. *)
From Coq Require Import NArith ZArith List Bool Lia PeanoNat ZifyBool ZifyNat ZifyN.
From Verif Require Import Word Bits Header ValMem Client Validate Target Spec AtomicSpec System TargetRm Tx E2E Devices Shared SharedSpec E2ECor Prop_E2E.
Import ListNotations.
Open Scope N_scope.

Section S.
Variable D : Type.
Variable rd : D -> N -> D * N.
Variable wr : D -> N -> N -> D.
Variable cf : D -> N -> D * N.
(** Accesses one after the other, and the words read. *)
Fixpoint make_all (d : D) (l : list use) : D * list N :=
  match l with
  | [] => (d, [])
  | x :: t => let (d1, r1) := make D rd wr cf d x in let (d2, r2) := make_all d1 t in (d2, r1 ++ r2)
  end.
Notation t_loop := (loop_rm told told_rd told_wr told_cf told_rm).
Notation d_loop := (target_loop D rd wr cf).

Lemma make_all_app l m : forall d, make_all d (l ++ m) = let (d1, r1) := make_all d l in let (d2, r2) := make_all d1 m in (d2, r1 ++ r2).
Proof.
  induction l as [|x l IH]; intros d; cbn [app make_all]; [destruct (make_all d m); reflexivity|].
  destruct (make D rd wr cf d x) as (d1, r1). rewrite IH. destruct (make_all d1 l) as (d2, r2). destruct (make_all d2 m). rewrite app_assoc. reflexivity.
Qed.

(** What a function of the target does, on the device and on the one that is told
    the words. *)
Definition same_on {A} (f : D -> D * A) (h : told -> told * A) (d : D) : Prop :=
  exists l r, make_all d l = (fst (f d), r) /\ forall rest log, h (r ++ rest, log) = ((rest, log ++ l), snd (f d)).

Lemma read_same n inc : forall d a, same_on (fun d => dev_read D rd d a n inc) (fun o => dev_read told told_rd o a n inc) d.
Proof.
  unfold same_on. induction n as [|n IH]; intros d a; cbn [dev_read].
  - exists [], []. split; [reflexivity|]. intros. rewrite app_nil_r. reflexivity.
  - destruct (rd d a) as (d1, x) eqn:E. destruct (IH d1 (if inc then add32 a 1 else a)) as (l & r & M & H).
    exists (URead a :: l), (x :: r). cbn [make_all make]. rewrite E, M.
    destruct (dev_read D rd d1 (if inc then add32 a 1 else a) n inc) as (d2, xs) eqn:E2. cbn [fst snd] in *. split; [reflexivity|].
    intros rest log. unfold told_rd at 1. cbn [fst snd app tl hd]. rewrite H, <- app_assoc. reflexivity.
Qed.
Lemma cfg_same n : forall d a, same_on (fun d => dev_cfg_read D cf d a n) (fun o => dev_cfg_read told told_cf o a n) d.
Proof.
  unfold same_on. induction n as [|n IH]; intros d a; cbn [dev_cfg_read].
  - exists [], []. split; [reflexivity|]. intros. rewrite app_nil_r. reflexivity.
  - destruct (cf d a) as (d1, x) eqn:E. destruct (IH d1 (add32 a 1)) as (l & r & M & H).
    exists (UCfg a :: l), (x :: r). cbn [make_all make]. rewrite E, M.
    destruct (dev_cfg_read D cf d1 (add32 a 1) n) as (d2, xs) eqn:E2. cbn [fst snd] in *. split; [reflexivity|].
    intros rest log. unfold told_cf at 1. cbn [fst snd app tl hd]. rewrite H, <- app_assoc. reflexivity.
Qed.
Lemma write_same ws inc : forall d a, same_on (fun d => (dev_write D wr d a ws inc, tt)) (fun o => (dev_write told told_wr o a ws inc, tt)) d.
Proof.
  unfold same_on. induction ws as [|x ws IH]; intros d a; cbn [dev_write].
  - exists [], []. split; [reflexivity|]. intros. rewrite app_nil_r. reflexivity.
  - destruct (IH (wr d a x) (if inc then add32 a 1 else a)) as (l & r & M & H).
    exists (UWrite a x :: l), r. cbn [make_all make]. rewrite M. cbn [fst snd] in *. split; [reflexivity|].
    intros rest log. unfold told_wr at 2. cbn [fst snd]. rewrite H, <- app_assoc. reflexivity.
Qed.
Lemma rmw_same v f d a : same_on (fun d => dev_rmw D rd wr v d a f) (fun o => told_rm v o a f) d.
Proof.
  unfold same_on, dev_rmw. destruct (rd d a) as (d1, x) eqn:E. exists [URmw a (f x)], [x]. cbn [make_all make]. rewrite E. cbn [fst snd app].
  split; [reflexivity|]. intros rest log. unfold told_rm. cbn [fst snd app tl hd]. reflexivity.
Qed.

Definition loop_same fuel v ws d : Prop :=
  exists l r, make_all d l = (fst (fst (d_loop fuel v d ws)), r) /\
    forall rest log, t_loop fuel v (r ++ rest, log) ws = ((rest, log ++ l), snd (fst (d_loop fuel v d ws)), snd (d_loop fuel v d ws)).

Lemma finish_same fuel v (IH : forall ws d, loop_same fuel v ws d) l0 r0 d d1 reply rest0 :
  make_all d l0 = (d1, r0) ->
  let fin D (loop : nat -> version -> D -> list N -> D * list N * bool) d :=
    match rest0 with [] => (d, reply, true) | _ => let '(d', r, ok) := loop fuel v d rest0 in (d', reply ++ r, ok) end in
  exists l r, make_all d l = (fst (fst (fin D d_loop d1)), r) /\
    forall rest log, exists rest1 log1, (r ++ rest, log) = (r0 ++ rest1, log) /\
      log1 = log ++ l0 /\
      fin told t_loop (rest1, log1) = ((rest, log ++ l), snd (fst (fin D d_loop d1)), snd (fin D d_loop d1)).
Proof.
  intros M fin. subst fin. cbn beta. destruct rest0 as [|w ws].
  - exists l0, r0. split; [exact M|]. intros rest log. exists rest, (log ++ l0). auto.
  - destruct (IH (w :: ws) d1) as (l & r & M1 & H). destruct (d_loop fuel v d1 (w :: ws)) as ((d2, rp), ok). cbn [fst snd] in *.
    exists (l0 ++ l), (r0 ++ r). split; [rewrite make_all_app, M, M1; reflexivity|].
    intros rest log. exists (r ++ rest), (log ++ l0). split; [rewrite app_assoc; reflexivity|]. split; [reflexivity|]. rewrite H, <- app_assoc. reflexivity.
Qed.

Lemma loop_ok fuel v : forall ws d, loop_same fuel v ws d.
Proof.
  induction fuel as [|fuel IH]; intros ws d.
  { exists [], []. split; [reflexivity|]. intros. cbn [app target_loop loop_rm fst snd]. rewrite app_nil_r. reflexivity. }
  assert (STOP : forall reply (b : bool), exists l r, make_all d l = (d, r) /\ forall rest log, ((r ++ rest, log), reply, b) = ((rest, log ++ l), reply, b) :> told * list N * bool).
  { intros reply b. exists [], []. split; [reflexivity|]. intros. rewrite app_nil_r. reflexivity. }
  unfold loop_same. cbn [target_loop loop_rm]. destruct ws as [|h rest0]; [apply STOP|].
  destruct (extract_header v h) as [x|]; [|apply STOP].
  destruct (negb (h_info x =? req_info v)); [apply STOP|].
  assert (FIN : forall (A : Type) (f : D -> D * A) (t : told -> told * A) (reply : A -> list N) rest1, same_on f t d ->
    let fin D (loop : nat -> version -> D -> list N -> D * list N * bool) (q : D * A) :=
      let (d, l) := q in match rest1 with [] => (d, reply l, true) | _ => let '(d', r, ok) := loop fuel v d rest1 in (d', reply l ++ r, ok) end in
    exists l r, make_all d l = (fst (fst (fin D d_loop (f d))), r) /\
      forall rest log, fin told t_loop (t (r ++ rest, log)) = ((rest, log ++ l), snd (fst (fin D d_loop (f d))), snd (fin D d_loop (f d)))).
  { intros A f t reply rest1 (l0 & r0 & M & T). destruct (finish_same fuel v IH l0 r0 d (fst (f d)) (reply (snd (f d))) rest1 M) as (l & r & M1 & H). cbn zeta. cbn beta in H, M1.
    destruct (f d) as (d1, x1). cbn [fst snd] in *.
    exists l, r. split; [exact M1|]. intros rest log. destruct (H rest log) as (rest2 & log1 & E1 & -> & E2).
    assert (E3 : r ++ rest = r0 ++ rest2) by congruence. rewrite E3, T. cbn [fst snd]. exact E2. }
  destruct (h_type x).
  - exact (FIN unit (fun d => (d, tt)) (fun o => (o, tt)) (fun _ => reply_header v BOT 0 (h_id x)) rest0 (write_same [] true d 0)).
  - destruct rest0 as [|a rest1]; [apply STOP|].
    exact (FIN _ (fun d => dev_read D rd d a (N.to_nat (h_wc x)) true) (fun o => dev_read told told_rd o a (N.to_nat (h_wc x)) true) (fun l => reply_header v READ (h_wc x) (h_id x) ++ l) rest1 (read_same _ true d a)).
  - destruct rest0 as [|a rest1]; [apply STOP|]. destruct (Nat.ltb (length rest1) (N.to_nat (h_wc x))); [apply STOP|].
    exact (FIN unit (fun d => (dev_write D wr d a (firstn (N.to_nat (h_wc x)) rest1) true, tt)) (fun o => (dev_write told told_wr o a (firstn (N.to_nat (h_wc x)) rest1) true, tt))
      (fun _ => reply_header v WRITE (match v with V1 => 0 | V2 => h_wc x end) (h_id x)) (skipn (N.to_nat (h_wc x)) rest1) (write_same _ true d a)).
  - destruct rest0 as [|a [|m [|o rest1]]]; try apply STOP.
    exact (FIN _ (fun d => dev_rmw D rd wr v d a (fun old => rmw_bits_word old m o)) (fun q => told_rm v q a (fun old => rmw_bits_word old m o))
      (fun y => reply_header v RMW_BITS 1 (h_id x) ++ [y]) rest1 (rmw_same v _ d a)).
  - destruct rest0 as [|a [|m rest1]]; try apply STOP.
    exact (FIN _ (fun d => dev_rmw D rd wr v d a (fun old => add32 old m)) (fun q => told_rm v q a (fun old => add32 old m))
      (fun y => reply_header v RMW_SUM 1 (h_id x) ++ [y]) rest1 (rmw_same v _ d a)).
  - destruct rest0; apply STOP.
  - destruct rest0 as [|a rest1]; [apply STOP|].
    exact (FIN _ (fun d => dev_read D rd d a (N.to_nat (h_wc x)) false) (fun o => dev_read told told_rd o a (N.to_nat (h_wc x)) false) (fun l => reply_header v NI_READ (h_wc x) (h_id x) ++ l) rest1 (read_same _ false d a)).
  - destruct rest0 as [|a rest1]; [apply STOP|]. destruct (Nat.ltb (length rest1) (N.to_nat (h_wc x))); [apply STOP|].
    exact (FIN unit (fun d => (dev_write D wr d a (firstn (N.to_nat (h_wc x)) rest1) false, tt)) (fun o => (dev_write told told_wr o a (firstn (N.to_nat (h_wc x)) rest1) false, tt))
      (fun _ => reply_header v NI_WRITE (match v with V1 => 0 | V2 => h_wc x end) (h_id x)) (skipn (N.to_nat (h_wc x)) rest1) (write_same _ false d a)).
  - destruct rest0 as [|a rest1]; [apply STOP|].
    exact (FIN _ (fun d => dev_cfg_read D cf d a (N.to_nat (h_wc x))) (fun o => dev_cfg_read told told_cf o a (N.to_nat (h_wc x))) (fun l => reply_header v CONFIG_SPACE_READ (h_wc x) (h_id x) ++ l) rest1 (cfg_same _ d a)).
Qed.

(** A packet. *)
Lemma packet_ok g ws d : exists l r, let o := target_packet D rd wr cf g d ws in make_all d l = (fst (fst o), r) /\
  forall rest log, packet_rm told told_rd told_wr told_cf told_rm g (r ++ rest, log) ws = ((rest, log ++ l), snd (fst o), snd o).
Proof.
  assert (STOP : forall reply (b : bool), exists l r, make_all d l = (d, r) /\ forall rest log, ((r ++ rest, log), reply, b) = ((rest, log ++ l), reply, b) :> told * list N * bool).
  { intros reply b. exists [], []. split; [reflexivity|]. intros. rewrite app_nil_r. reflexivity. }
  assert (IPB : forall v us, exists l r, let o := target_ipbus D rd wr cf v d us in make_all d l = (fst (fst o), r) /\
    forall rest log, ipbus_rm told told_rd told_wr told_cf told_rm v (r ++ rest, log) us = ((rest, log ++ l), snd (fst o), snd o)).
  { intros v us. unfold target_ipbus, ipbus_rm. destruct v; [apply loop_ok|]. destruct us as [|p us]; [apply STOP|]. destruct (_ && _); [|apply STOP].
    destruct (loop_ok (length us) V2 us d) as (l & r & M & H). exists l, r. destruct (d_loop (length us) V2 d us) as ((d1, rp), ok). cbn [fst snd] in *. split; [exact M|]. intros. rewrite H. reflexivity. }
  unfold target_packet, packet_rm. destruct (g_hub g) as [[ip port]|]; [|apply IPB]. destruct ws as [|ip' [|w1 us]]; try apply STOP.
  destruct (IPB (g_ver g) us) as (l & r & M & H). exists l, r. destruct (target_ipbus D rd wr cf (g_ver g) d us) as ((d1, rp), ok). cbn [fst snd] in *. split; [exact M|]. intros. rewrite H. reflexivity.
Qed.

(** A step. *)
Definition as_told (y : sys D) (o : told) : sys told := mkSys told (y_c D y) (y_rep D y) o (y_wait D y) (y_bad D y).
Lemma step_ok g y l y' : step D rd wr cf g y l = Some y' -> exists a r, make_all (y_dev D y) a = (y_dev D y', r) /\
  forall rest log, step_rm told told_rd told_wr told_cf told_rm g (as_told y (r ++ rest, log)) l = Some (as_told y' (rest, log ++ a)).
Proof.
  assert (STOP : forall y', y_dev D y' = y_dev D y -> (forall o, step_rm told told_rd told_wr told_cf told_rm g (as_told y o) l = Some (as_told y' o)) -> exists a r, make_all (y_dev D y) a = (y_dev D y', r) /\
    forall rest log, step_rm told told_rd told_wr told_cf told_rm g (as_told y (r ++ rest, log)) l = Some (as_told y' (rest, log ++ a))).
  { intros z E H. exists [], []. rewrite E. split; [reflexivity|]. intros. rewrite app_nil_r. apply H. }
  intros S. destruct l as [o| | | |]; cbn [step] in S.
  - destruct (y_wait D y) eqn:W; [discriminate|].  destruct (run_op g (y_c D y) o) eqn:E; injection S as <-; apply STOP; try reflexivity; intros; unfold as_told; cbn [step_rm y_wait y_c y_rep y_dev y_bad]; rewrite W, ?E; reflexivity.
  - destruct (y_wait D y) eqn:W; [discriminate|].  destruct (s_cur (y_c D y)) eqn:C; [destruct (dispatch_send g (y_c D y)) eqn:E|]; injection S as <-; apply STOP; try reflexivity; intros; unfold as_told; cbn [step_rm y_wait y_c y_rep y_dev y_bad]; rewrite ?W, ?C, ?E; try reflexivity.
  - destruct (y_wait D y) eqn:W; [|discriminate].  destruct (s_out (y_c D y)) eqn:O; [|discriminate]. destruct (y_rep D y) eqn:R; [|discriminate]. injection S as <-. apply STOP; [reflexivity|]. intros. unfold as_told. cbn [step_rm y_wait y_c y_rep y_dev y_bad]. rewrite W, O, R. reflexivity.
  - destruct (s_out (y_c D y)) as [|b q] eqn:O; [discriminate|]. destruct (packet_ok g (b_send b) (y_dev D y)) as (a & r & M & H).
    destruct (target_packet D rd wr cf g (y_dev D y) (b_send b)) as ((d1, rp), ok). cbn [fst snd] in *. injection S as <-. exists a, r. split; [exact M|].
    intros. unfold as_told. cbn [step_rm y_wait y_c y_rep y_dev y_bad]. rewrite O, H. reflexivity.
  - destruct (y_rep D y) as [|[b r] q] eqn:R; [discriminate|]. destruct (receive_packet g (s_heap (y_c D y)) b r) as (h, v) eqn:E.
    assert (X : exists bad, y' = mkSys D (set_heap (y_c D y) h) q (y_dev D y) (y_wait D y) bad /\ forall o, step_rm told told_rd told_wr told_cf told_rm g (as_told y o) LReply = Some (mkSys told (set_heap (y_c D y) h) q o (y_wait D y) bad)).
    { destruct v; injection S as <-; eexists; (split; [reflexivity|]); intros; unfold as_told; cbn [step_rm y_wait y_c y_rep y_dev y_bad]; rewrite R, E; reflexivity. }
    destruct X as (bad & -> & X). apply STOP; [reflexivity|]. exact X.
Qed.

(** An execution. *)
Lemma lived_app q a h : forall d, lived D rd wr cf d (map (pair q) a ++ h) =
  let (d1, r) := make_all d a in let (d2, rs) := lived D rd wr cf d1 h in (d2, map (pair q) r ++ rs).
Proof.
  induction a as [|x a IH]; intros d; cbn [map app lived make_all]; [destruct (lived D rd wr cf d h); reflexivity|].
  destruct (make D rd wr cf d x) as (d1, r1). rewrite IH. destruct (make_all d1 a) as (d2, r2). destruct (lived D rd wr cf d2 h) as (d3, rs). rewrite map_app, app_assoc. reflexivity.
Qed.
Lemma of_client_app {A} p q (l : list A) h : of_client p (map (pair q) l ++ h) = (if Nat.eqb q p then l else []) ++ of_client p h.
Proof.
  unfold of_client. rewrite filter_app, map_app. f_equal. destruct (Nat.eqb q p) eqn:E; induction l as [|x l IH]; cbn [map filter fst]; rewrite ?E; cbn [map snd]; congruence.
Qed.

Variable g : nat -> cfg.
Lemma run_ok ls : forall s s', sh_run D rd wr cf g s ls = Some s' -> exists h, let o := lived D rd wr cf (sh_dev D s) h in
  fst o = sh_dev D s' /\
  forall p rest log, run_rm told told_rd told_wr told_cf told_rm (g p) (as_told (sh_y D s p) (of_client p (snd o) ++ rest, log)) (steps_of p ls) = Some (as_told (sh_y D s' p) (rest, log ++ of_client p h)).
Proof.
  induction ls as [|(q, l) ls IH]; intros s s' R; cbn [sh_run] in R.
  - injection R as <-. exists []. split; [reflexivity|]. intros. cbn. rewrite app_nil_r. reflexivity.
  - unfold sh_step in R. cbn [fst snd] in R. destruct (step D rd wr cf (g q) (with_dev D (sh_y D s q) (sh_dev D s)) l) as [y|] eqn:S; [|discriminate].
    destruct (step_ok _ _ _ _ S) as (a & r & M & H). destruct (IH _ _ R) as (h & E & K). cbn [sh_dev sh_y] in *.
    exists (map (pair q) a ++ h). cbn zeta. cbn [y_dev with_dev] in M. rewrite lived_app, M. destruct (lived D rd wr cf (y_dev D y) h) as (d2, rs). cbn [fst snd] in *. split; [exact E|].
    intros p rest log. specialize (K p). rewrite !of_client_app. unfold steps_of in *. cbn [filter fst snd map]. rewrite (Nat.eqb_sym p q) in K. destruct (Nat.eqb_spec q p) as [->|NE].
    + cbn [map run_rm]. rewrite <- app_assoc. change (as_told (sh_y D s p)) with (as_told (with_dev D (sh_y D s p) (sh_dev D s))). rewrite H, K, <- app_assoc. reflexivity.
    + cbn [app]. apply K.
Qed.
End S.

(** The accesses of packets not yet processed come after those of the others. *)
Definition grows (o o' : told) : Prop := exists l, snd o' = snd o ++ l.
Lemma grows_refl o : grows o o. Proof. exists []. rewrite app_nil_r. reflexivity. Qed.
Lemma grows_trans a b c : grows a b -> grows b c -> grows a c.
Proof. intros (l & E) (m & F). exists (l ++ m). rewrite F, E, app_assoc. reflexivity. Qed.
Notation t_exec := (exec_txs told told_rd told_wr told_cf told_rm).
Lemma exec_grows v xs : forall o, grows o (fst (t_exec v o xs)).
Proof.
  assert (RD : forall n inc o a, grows o (fst (dev_read told told_rd o a n inc))).
  { induction n as [|n IH]; intros inc o a; cbn [dev_read]; [apply grows_refl|]. unfold told_rd at 1. destruct (dev_read told told_rd _ _ n inc) as (o2, ws) eqn:E. cbn [fst].
    eapply grows_trans; [|specialize (IH inc (tl (fst o), snd o ++ [URead a]) (if inc then add32 a 1 else a)); rewrite E in IH; exact IH]. eexists; reflexivity. }
  assert (WR : forall ws inc o a, grows o (dev_write told told_wr o a ws inc)).
  { induction ws as [|w ws IH]; intros inc o a; cbn [dev_write]; [apply grows_refl|]. eapply grows_trans; [|apply IH]. eexists; reflexivity. }
  assert (RM : forall o a f, grows o (fst (told_rm v o a f))) by (intros; eexists; reflexivity).
  assert (TX : forall o x, grows o (fst (exec_tx told told_rd told_wr told_cf told_rm v o x))).
  { intros o x. destruct x; cbn [exec_tx fst]; try apply grows_refl; try apply RD; try apply WR; try apply RM. eexists; reflexivity. }
  induction xs as [|x xs IH]; intros o; cbn [exec_txs]; [apply grows_refl|]. specialize (TX o x). destruct (exec_tx told told_rd told_wr told_cf told_rm v o x) as (o1, ws). cbn [fst] in TX.
  specialize (IH o1). destruct (t_exec v o1 xs) as (o2, r). cbn [fst] in *. exact (grows_trans _ _ _ TX IH).
Qed.
Lemma alpha_grows g h o gr go gc : grows o (fst (alpha told told_rd told_wr told_cf told_rm g h o gr go gc)).
Proof.
  unfold alpha. generalize (fold_left (fun h e => snd (run_pk told told_rd told_wr told_cf told_rm g (snd e, h) (fst e))) gr h). clear h.
  assert (F : forall go o h, grows o (fst (fold_left (run_pk told told_rd told_wr told_cf told_rm g) go (o, h)))).
  { clear. induction go as [|p go IH]; intros o h; cbn [fold_left]; [apply grows_refl|]. unfold run_pk at 2. cbn [fst snd]. eapply grows_trans; [|apply IH]. apply exec_grows. }
  intros h. specialize (F go o h). destruct gc as [p|]; [|exact F]. eapply grows_trans; [exact F|]. destruct (fold_left _ go (o, h)) as (o1, h1). apply exec_grows.
Qed.

Lemma told_ext : rm_ext told told_rm.
Proof. intros v d a f f' E. unfold told_rm. rewrite E. reflexivity. Qed.

Lemma run_rm_app D rd wr cf rm g ls ms : forall y, run_rm D rd wr cf rm g y (ls ++ ms) =
  match run_rm D rd wr cf rm g y ls with Some y' => run_rm D rd wr cf rm g y' ms | None => None end.
Proof. induction ls as [|l t IH]; intros y; [reflexivity|]. cbn [app run_rm]. destruct (step_rm _ _ _ _ _ _ _ _); [apply IH|reflexivity]. Qed.

(** C91: several clients of one target. *)
Theorem C91_shared : forall D rd wr cf g d0 ls s,
  (forall p, cfg_ok (g p)) -> (forall p, Forall op_ok (calls (steps_of p ls))) ->
  sh_run D rd wr cf g (init_shared D d0) ls = Some s ->
  exists h, let (d, ws) := lived D rd wr cf d0 h in
    d = sh_dev D s /\
    forall p, let y := sh_y D s p in
      let o := atomic told told_rd told_wr told_cf told_rm (g_ver (g p)) (of_client p ws, []) (calls (steps_of p ls)) in
      y_bad D y = false /\
      (exists more, snd (fst o) = of_client p h ++ more) /\
      (forall ms, steps_of p ls = ms ++ [LReturn] -> o = (([], of_client p h), s_heap (y_c D y))).
Proof.
  intros D rd wr cf g d0 ls s G F R. destruct (run_ok D rd wr cf g ls _ _ R) as (h & E & K). exists h. cbn [sh_dev init_shared] in *.
  destruct (lived D rd wr cf d0 h) as (d, ws). cbn [fst snd] in *. split; [exact E|]. intros p. cbn zeta. specialize (K p [] []). rewrite app_nil_r in K. cbn [app] in K.
  change (as_told D (sh_y D (init_shared D d0) p) (of_client p ws, [])) with (start told [] (of_client p ws, [])) in K.
  specialize (F p). specialize (G p).
  assert (I := run_inv_rm told told_rd told_wr told_cf told_rm told_ext (g p) G false [] (of_client p ws, []) (steps_of p ls) [] _ _ (init_inv told told_rd told_wr told_cf told_rm (g p) false [] _) F ltac:(discriminate) K).
  destruct I as (dr & gr & go & gc & I & B & AL & BD). cbn [as_told y_bad y_c y_rep y_dev y_wait] in *. cbn [app] in AL.
  assert (AL' : alpha told told_rd told_wr told_cf told_rm (g p) (s_heap (y_c D (sh_y D s p))) ([], of_client p h) gr go gc =
    atomic told told_rd told_wr told_cf told_rm (g_ver (g p)) (of_client p ws, []) (calls (steps_of p ls))).
  { rewrite AL. unfold above. cbn [app]. destruct (atomic _ _ _ _ _ _ _ _); reflexivity. }
  split; [exact B|]. split.
  - rewrite <- AL'. destruct (alpha_grows (g p) (s_heap (y_c D (sh_y D s p))) ([], of_client p h) gr go gc) as (l & X). exists l. exact X.
  - intros ms L. clear AL' AL BD I B dr gr go gc. rewrite L, run_rm_app in K. rewrite L, calls_app in F |- *. cbn [calls] in *. rewrite app_nil_r in *.
    destruct (run_rm _ _ _ _ _ _ _ ms) as [y1|] eqn:R1; [|discriminate].
    assert (I := run_inv_rm told told_rd told_wr told_cf told_rm told_ext (g p) G false [] (of_client p ws, []) ms [] _ _ (init_inv told told_rd told_wr told_cf told_rm (g p) false [] _) F ltac:(discriminate) R1).
    destruct I as (dr & gr & go & gc & I & B & AL & BD). cbn [run_rm step_rm] in K.
    destruct (y_wait told y1); [|discriminate]. destruct (s_out (y_c told y1)) eqn:O; [|discriminate]. destruct (y_rep told y1) eqn:RP; [|discriminate]. injection K as K1 K2 K3 K4 K5.
    rewrite <- K1. cbn [app] in AL. unfold above in AL. cbn [app] in AL. rewrite <- surjective_pairing in AL. rewrite <- AL.
    subst gc. destruct I. rewrite O in i_out. inversion i_out. inversion i_rep. subst. unfold alpha. cbn [fold_left]. rewrite K3. reflexivity.
Qed.

(** A waiting client returns, whatever the others do not do. *)
Lemma step_work D rd wr cf g s p : y_wait D (sh_y D s p) = true ->
  (s_out (y_c D (sh_y D s p)) = [] /\ y_rep D (sh_y D s p) = []) \/
  exists l s', (l = LTarget \/ l = LReply) /\ sh_step D rd wr cf g s (p, l) = Some s' /\ y_wait D (sh_y D s' p) = true /\
    (2 * length (s_out (y_c D (sh_y D s' p))) + length (y_rep D (sh_y D s' p)) < 2 * length (s_out (y_c D (sh_y D s p))) + length (y_rep D (sh_y D s p)))%nat.
Proof.
  intros W. destruct (s_out (y_c D (sh_y D s p))) as [|b q] eqn:O.
  - destruct (y_rep D (sh_y D s p)) as [|(b, r) q] eqn:R; [left; auto|right]. exists LReply. unfold sh_step. cbn [fst snd step with_dev y_rep y_c y_wait y_bad y_dev]. rewrite R.
    destruct (receive_packet (g p) (s_heap (y_c D (sh_y D s p))) b r) as (h, [ | |]); eexists; (split; [auto|]); (split; [reflexivity|]); cbn [sh_y]; rewrite Nat.eqb_refl; cbn [y_wait y_c y_rep set_heap s_out]; rewrite O; split; auto; cbn; lia.
  - right. exists LTarget. unfold sh_step. cbn [fst snd step with_dev y_rep y_c y_wait y_bad y_dev]. rewrite O.
    destruct (target_packet D rd wr cf (g p) (sh_dev D s) (b_send b)) as ((d, r), ok). eexists. split; [auto|]. split; [reflexivity|]. cbn [sh_y]. rewrite Nat.eqb_refl. cbn [y_wait y_c y_rep set_out s_out].
    split; [exact W|]. rewrite app_length. cbn. lia.
Qed.

(** C91: whatever has happened, a client that waits in dispatch() returns if only
    its own packets are processed; the theorem above then holds of it. *)
Theorem C91_progress : forall D rd wr cf g s p, y_wait D (sh_y D s p) = true ->
  exists ms s', Forall (fun l => l = LTarget \/ l = LReply) ms /\
    sh_run D rd wr cf g s (map (pair p) (ms ++ [LReturn])) = Some s' /\ y_wait D (sh_y D s' p) = false.
Proof.
  intros D rd wr cf g s p. remember (2 * length (s_out (y_c D (sh_y D s p))) + length (y_rep D (sh_y D s p)))%nat as n eqn:N0. revert s N0.
  induction n as [n IH] using (well_founded_induction Nat.lt_wf_0). intros s -> W. destruct (step_work D rd wr cf g s p W) as [(O & R)|(l & s1 & L & S & W1 & LT)].
  - exists []. eexists. split; [constructor|]. cbn [app map sh_run]. unfold sh_step. cbn [fst snd step with_dev y_rep y_c y_wait y_bad y_dev]. rewrite W, O, R. split; [reflexivity|]. cbn [sh_y]. rewrite Nat.eqb_refl. reflexivity.
  - destruct (IH _ LT s1 eq_refl W1) as (ms & s' & F & X & Y). exists (l :: ms), s'. split; [constructor; assumption|]. split; [|exact Y]. cbn [app map sh_run]. rewrite S. exact X.
Qed.

(** ** No update is lost *)
Section L.
Variable a : N.
Notation W := (2 ^ 32).

Definition eqm (x y : N) : Prop := x mod W = y mod W.

(** What an access adds to the register, [w] being the word read. *)
Definition gain1 (u : use) (w : N) : N := match u with URmw b x => if b =? a then x + (W - w mod W) else 0 | _ => 0 end.
Definition reads (u : use) : bool := match u with UWrite _ _ => false | _ => true end.
Fixpoint gains (l : list use) (ws : list N) : N :=
  match l with
  | [] => 0
  | u :: t => gain1 u (hd 0 ws) + gains t (if reads u then tl ws else ws)
  end.
Definition harmless (u : use) : Prop := match u with UWrite b _ => b <> a | _ => True end.
Definition effect (o o' : told) (k : N) : Prop :=
  exists l, snd o' = snd o ++ l /\ Forall harmless l /\ fst o' = skipn (length (filter reads l)) (fst o) /\ eqm (gains l (fst o)) k.

Lemma gains_app l m : forall ws, gains (l ++ m) ws = gains l ws + gains m (skipn (length (filter reads l)) ws).
Proof.
  induction l as [|u l IH]; intros ws; [reflexivity|]. cbn [app gains filter]. rewrite IH. destruct (reads u); cbn [length]; [|lia].
  destruct ws; cbn [tl skipn]; [rewrite skipn_nil|]; lia.
Qed.
Lemma eqm_add x x' y y' : eqm x x' -> eqm y y' -> eqm (x + y) (x' + y').
Proof. unfold eqm. intros A B. rewrite (N.add_mod x y), (N.add_mod x' y') by discriminate. congruence. Qed.
Lemma effect_refl o : effect o o 0.
Proof. exists []. rewrite app_nil_r. repeat split; auto. Qed.
Lemma skipn_plus {A} n m : forall l : list A, skipn n (skipn m l) = skipn (m + n) l.
Proof. induction m; intros l; [reflexivity|]. destruct l; cbn; [apply skipn_nil|apply IHm]. Qed.
Lemma effect_trans o1 o2 o3 j k : effect o1 o2 j -> effect o2 o3 k -> effect o1 o3 (j + k).
Proof.
  intros (l & A & B & C & E) (m & A' & B' & C' & E'). exists (l ++ m). split; [rewrite A', A, app_assoc; reflexivity|]. split; [apply Forall_app; auto|].
  split; [rewrite C', C, skipn_plus, filter_app, app_length; reflexivity|]. rewrite gains_app, <- C. apply eqm_add; assumption.
Qed.
Lemma effect_read o b : effect o (fst (told_rd o b)) 0.
Proof. exists [URead b]. split; [reflexivity|]. split; [repeat constructor|]. split; [|reflexivity]. destruct o as ([|w ws], l); reflexivity. Qed.
Lemma effect_cfg o b : effect o (fst (told_cf o b)) 0.
Proof. exists [UCfg b]. split; [reflexivity|]. split; [repeat constructor|]. split; [|reflexivity]. destruct o as ([|w ws], l); reflexivity. Qed.
Lemma effect_write o b x : b <> a -> effect o (told_wr o b x) 0.
Proof. intros H. exists [UWrite b x]. split; [reflexivity|]. split; [repeat constructor; exact H|]. split; reflexivity. Qed.
Lemma effect_rmw v o b f : effect o (fst (told_rm v o b f)) (if b =? a then f (hd 0 (fst o)) + (W - hd 0 (fst o) mod W) else 0).
Proof.
  exists [URmw b (f (hd 0 (fst o)))]. split; [reflexivity|]. split; [repeat constructor|]. split; [destruct o as ([|w ws], l); reflexivity|].
  cbn [gains gain1]. rewrite N.add_0_r. reflexivity.
Qed.
Lemma effect_eqm o o' j k : effect o o' j -> eqm j k -> effect o o' k.
Proof. intros (l & A & B & C & E) H. exists l. unfold eqm in *. repeat split; auto. congruence. Qed.

Lemma op_effect v o c : only_adds a c -> effect o (fst (atomic_op told told_rd told_wr told_cf told_rm v o c)) (adds a [c]).
Proof.
  assert (WRS : forall l o, (forall x, In x l -> fst x <> a) -> effect o (write_all told told_wr o l) 0).
  { induction l as [|(b, x) l IH]; intros o1 H; cbn [write_all]; [apply effect_refl|]. change 0 with (0 + 0). eapply effect_trans; [apply effect_write, (H (b, x)); left; reflexivity|]. apply IH. intros y Y. apply H. right. exact Y. }
  assert (RDS : forall l o, effect o (fst (read_all told told_rd o l)) 0).
  { induction l as [|b l IH]; intros o1; cbn [read_all]; [apply effect_refl|]. assert (E := effect_read o1 b). destruct (told_rd o1 b) as (o2, w). specialize (IH o2). destruct (read_all told told_rd o2 l) as (o3, xs). cbn [fst] in *. change 0 with (0 + 0). eapply effect_trans; [exact E|exact IH]. }
  intros H. destruct c as [b x|b x m|b l inc|b m|b n inc|b x y|b x|b m]; cbn [atomic_op only_adds adds fold_right] in *.
  - apply effect_write. exact H.
  - destruct (mask_fits x m); [|apply effect_refl]. assert (E := effect_rmw v o b (fun old => masked_update old x m)). apply N.eqb_neq in H. rewrite H in E.
    destruct (told_rm v o b _). exact E.
  - cbn [fst]. apply WRS. intros (b1, x1) I. cbn [fst]. intros ->. apply H. apply in_combine_l in I. exact I.
  - apply (effect_read o b).
  - assert (E := RDS (block_addrs b (N.to_nat n) inc) o). destruct (read_all told told_rd o _). exact E.
  - assert (E := effect_rmw v o b (fun old => N.lor (N.land old x) y)). apply N.eqb_neq in H. rewrite H in E.
    destruct (told_rm v o b _). exact E.
  - assert (E := effect_rmw v o b (fun old => (old + x) mod W)). destruct (told_rm v o b _). cbn [fst] in *. eapply effect_eqm; [exact E|].
    rewrite N.add_0_r. destruct (b =? a); [|reflexivity]. unfold eqm. set (w := hd 0 (fst o)). clear. assert (w mod W < W) by (apply N.mod_lt; discriminate).
    rewrite <- (N.add_mod_idemp_r ((w + x) mod W)), N.add_mod_idemp_l, N.add_mod_idemp_r by discriminate.
    replace (w + x + (W - w mod W)) with (x + (w / W + 1) * W).
    + apply N.mod_add. discriminate.
    + rewrite (N.div_mod w W) at 2 by discriminate. lia.
  - destruct v; [apply effect_refl|]. apply (effect_cfg o b).
Qed.
Lemma ops_effect v cs : forall o, Forall (only_adds a) cs -> effect o (fst (atomic told told_rd told_wr told_cf told_rm v o cs)) (adds a cs).
Proof.
  induction cs as [|c cs IH]; intros o F; cbn [atomic]; [apply effect_refl|]. inversion F as [|? ? F1 F2]; subst. assert (E := op_effect v o c F1).
  destruct (atomic_op _ _ _ _ _ v o c) as (o1, r). specialize (IH o1 F2). destruct (atomic _ _ _ _ _ v o1 cs) as (o2, rs). cbn [fst] in *.
  assert (X := effect_trans _ _ _ _ _ E IH). replace (adds a (c :: cs)) with (adds a [c] + adds a cs); [exact X|]. destruct c; cbn [adds fold_right]; try reflexivity. fold (adds a cs). lia.
Qed.

(** One history. *)
Definition total (ps : list nat) (f : nat -> N) : N := fold_right (fun p n => f p + n) 0 ps.
Lemma total_at ps p f f' k : NoDup ps -> In p ps -> (forall q, q <> p -> f' q = f q) -> f' p = k + f p -> total ps f' = k + total ps f.
Proof.
  intros ND I E X. induction ps as [|q ps IH]; [destruct I|]. inversion ND; subst. cbn [total fold_right]. fold (total ps f') (total ps f). destruct I as [->|I].
  - rewrite X. replace (total ps f') with (total ps f); [lia|]. clear - H1 E. induction ps as [|q ps IH]; [reflexivity|]. cbn [total fold_right]. fold (total ps f') (total ps f). rewrite IH; [rewrite (E q); [reflexivity|]|].
    + intros ->. apply H1. left. reflexivity.
    + intros J. apply H1. right. exact J.
  - rewrite IH by assumption. rewrite (E q); [lia|]. intros ->. contradiction.
Qed.
Lemma total_eqm ps f f' : (forall p, In p ps -> eqm (f p) (f' p)) -> eqm (total ps f) (total ps f').
Proof. induction ps as [|p ps IH]; intros H; [reflexivity|]. cbn [total fold_right]. apply eqm_add; [apply H; left; reflexivity|]. apply IH. intros q Q. apply H. right. exact Q. Qed.

Notation m_lived := (lived mem mem_rd mem_wr mem_cf).
Lemma lived_total ps h : NoDup ps -> forall d, (forall x, In x h -> In (fst x) ps /\ harmless (snd x)) -> d a < W ->
  fst (m_lived d h) a < W /\
  eqm (fst (m_lived d h) a) (d a + total ps (fun p => gains (of_client p h) (of_client p (snd (m_lived d h))))).
Proof.
  intros ND. induction h as [|(p, u) h IH]; intros d H V.
  - split; [exact V|]. cbn [lived fst snd]. assert (Z : forall f : nat -> N, (forall p, f p = 0) -> total ps f = 0). { intros f F. clear - F. induction ps as [|p ps IH]; [reflexivity|]. cbn [total fold_right]. fold (total ps f). rewrite F, IH. reflexivity. }
    rewrite Z by reflexivity. rewrite N.add_0_r. reflexivity.
  - assert (HH : In p ps /\ harmless u) by (apply (H (p, u)); left; reflexivity). destruct HH as (IP & HU). assert (H2 : forall x, In x h -> In (fst x) ps /\ harmless (snd x)) by (intros x X; apply H; right; exact X). clear H.
    assert (ST : exists r, let d1 := fst (make mem mem_rd mem_wr mem_cf d u) in snd (make mem mem_rd mem_wr mem_cf d u) = r /\ d1 a < W /\ length r = (if reads u then 1 else 0)%nat /\ eqm (d1 a) (d a + gain1 u (hd 0 r))).
    { assert (WW : forall b x, b <> a -> mem_wr d b x a = d a). { intros b x NE. unfold mem_wr. destruct (N.eqb_spec a b); congruence. }
      destruct u as [b|b x|b|b x]; cbn [make mem_rd mem_cf fst snd reads gain1 harmless] in *; eexists; (split; [reflexivity|]); rewrite ?N.add_0_r.
      - split; [exact V|]. split; reflexivity.
      - rewrite WW by assumption. split; [exact V|]. split; reflexivity.
      - split; [exact V|]. split; reflexivity.
      - split; [|split; [reflexivity|]].
        + unfold mem_wr. destruct (a =? b); [apply N.mod_lt; discriminate|exact V].
        + cbn [hd]. destruct (N.eqb_spec b a) as [->|NE].
          * unfold mem_wr. rewrite N.eqb_refl. unfold eqm. rewrite N.mod_mod by discriminate. rewrite (N.mod_small (d a)) by exact V. replace (d a + (x + (W - d a))) with (x + 1 * W) by lia. rewrite N.mod_add by discriminate. reflexivity.
          * rewrite N.add_0_r, WW by exact NE. reflexivity. }
    destruct ST as (r & ER & V1 & LR & Q1). cbn [lived]. destruct (make mem mem_rd mem_wr mem_cf d u) as (d1, r1). cbn [fst snd] in *. subst r1.
    destruct (IH d1 H2 V1) as (V2 & Q2). destruct (m_lived d1 h) as (d2, rs). cbn [fst snd] in *. split; [exact V2|].
    unfold eqm in Q2 |- *. rewrite Q2. apply eqm_add with (x' := d a + gain1 u (hd 0 r)) (y := total ps (fun p0 => gains (of_client p0 h) (of_client p0 rs))) (y' := total ps (fun p0 => gains (of_client p0 h) (of_client p0 rs))) in Q1; [|reflexivity].
    unfold eqm in Q1. rewrite Q1. f_equal. rewrite <- N.add_assoc. f_equal. symmetry.
    apply (total_at ps p); trivial.
    + intros q NE. rewrite of_client_app. change ((p, u) :: h) with (map (pair p) [u] ++ h). rewrite of_client_app. apply Nat.eqb_neq in NE. rewrite Nat.eqb_sym in NE. rewrite NE. reflexivity.
    + rewrite of_client_app. change ((p, u) :: h) with (map (pair p) [u] ++ h). rewrite of_client_app, Nat.eqb_refl. cbn [app gains]. destruct (reads u) eqn:RU; destruct r as [|w [|w2 r]]; try discriminate LR; cbn [app hd tl]; [reflexivity|].
      destruct u; try discriminate RU; reflexivity.
Qed.

Lemma total_adds ps ls : NoDup ps -> (forall x, In x ls -> In (fst x) ps) ->
  total ps (fun p => adds a (calls (steps_of p ls))) = adds a (calls (map snd ls)).
Proof.
  intros ND. induction ls as [|(p, l) ls IH]; intros H.
  - cbn. clear. induction ps as [|p ps IH]; [reflexivity|]. exact IH.
  - assert (IP : In p ps) by (apply (H (p, l)); left; reflexivity).
    assert (X : adds a (calls (map snd ((p, l) :: ls))) = adds a (calls [l]) + adds a (calls (map snd ls))).
    { cbn [map snd]. destruct l as [o| | | |]; try reflexivity. cbn [calls adds fold_right]. destruct o; try reflexivity. rewrite N.add_0_r. reflexivity. }
    rewrite X, <- IH by (intros x I; apply H; right; exact I).
    apply (total_at ps p); trivial.
    + intros q NE. unfold steps_of. cbn [filter fst]. apply Nat.eqb_neq in NE. rewrite Nat.eqb_sym in NE. rewrite NE. reflexivity.
    + unfold steps_of. cbn [filter fst]. rewrite Nat.eqb_refl. cbn [map snd]. destruct l as [o| | | |]; try reflexivity. cbn [calls adds fold_right]. destruct o; try reflexivity. rewrite N.add_0_r. reflexivity.
Qed.
Lemma of_client_in {A} p (u : A) h : In (p, u) h -> In u (of_client p h).
Proof. intros H. unfold of_client. apply (in_map snd (filter _ h) (p, u)). apply filter_In. split; [exact H|]. cbn. apply Nat.eqb_refl. Qed.
End L.

(** C91: additions by several clients to a register of a memory. *)
Theorem C91_no_lost_update : forall g d0 ls s a,
  (forall p, cfg_ok (g p)) -> (forall p, Forall op_ok (calls (steps_of p ls))) ->
  sh_run mem mem_rd mem_wr mem_cf g (init_shared mem d0) ls = Some s ->
  (forall p, steps_of p ls = [] \/ exists ms, steps_of p ls = ms ++ [LReturn]) ->
  (forall p, Forall (only_adds a) (calls (steps_of p ls))) -> d0 a < 2 ^ 32 ->
  sh_dev mem s a = (d0 a + adds a (calls (map snd ls))) mod 2 ^ 32.
Proof.
  intros g d0 ls s a G F R E OA V. destruct (C91_shared mem mem_rd mem_wr mem_cf g d0 ls s G F R) as (h & H).
  set (ps := nodup Nat.eq_dec (map fst ls)).
  assert (ND : NoDup ps) by apply NoDup_nodup. assert (IL : forall x, In x ls -> In (fst x) ps) by (intros x X; apply nodup_In, in_map; exact X). clearbody ps.
  assert (NI : forall p, ~ In p ps -> steps_of p ls = []).
  { intros p NP. unfold steps_of. replace (filter (fun x => Nat.eqb (fst x) p) ls) with (@nil (nat * label)); [reflexivity|]. symmetry. clear - NP IL. induction ls as [|(q, l) ls IH]; [reflexivity|]. cbn [filter fst].
    destruct (Nat.eqb_spec q p) as [->|NE]; [destruct NP; apply (IL (p, l)); left; reflexivity|]. apply IH. intros x X. apply IL. right. exact X. }
  assert (LT := lived_total a ps h ND d0). destruct (lived mem mem_rd mem_wr mem_cf d0 h) as (d, ws). cbn [fst snd] in LT. destruct H as (-> & H).
  assert (Q : forall p, of_client p h = [] /\ calls (steps_of p ls) = [] \/ Forall (harmless a) (of_client p h) /\ eqm (gains a (of_client p h) (of_client p ws)) (adds a (calls (steps_of p ls)))).
  { intros p. destruct (H p) as (_ & (more & M) & K). destruct (E p) as [Z|(ms & Z)].
    - left. rewrite Z in M. cbn in M. split; [|rewrite Z; reflexivity]. destruct (of_client p h); [reflexivity|discriminate].
    - right. specialize (K ms Z). destruct (ops_effect a (g_ver (g p)) _ (of_client p ws, []) (OA p)) as (l & A & B & C & J). rewrite K in A. cbn [fst snd app] in *. subst l. auto. }
  destruct LT as (V2 & LT); [|exact V|].
  - intros (p, u) I. apply of_client_in in I as J. cbn [fst snd]. destruct (Q p) as [(Z & _)|(HF & _)]; [rewrite Z in J; destruct J|]. split; [|rewrite Forall_forall in HF; apply HF; exact J].
    destruct (in_dec Nat.eq_dec p ps) as [|NP]; [assumption|]. exfalso. destruct (H p) as (_ & (more & M) & _). rewrite (NI p NP) in M. cbn in M. destruct (of_client p h); [destruct J|discriminate].
  - rewrite <- (N.mod_small _ _ V2). unfold eqm in LT. rewrite LT. apply eqm_add; [reflexivity|]. rewrite <- (total_adds a ps ls ND IL).
    apply total_eqm. intros p _. destruct (Q p) as [(Z & Z2)|(_ & J)]; [rewrite Z, Z2; reflexivity|exact J].
Qed.

(** Two clients, one of IPbus 1.3 with small packets and one of IPbus 2.0 over a
    ControlHub, add to one register; their packets are processed in turn. *)
Definition two (p : nat) : cfg := match p with O => mkCfg V1 64 64 None | _ => mkCfg V2 368 368 (Some (0x0100A8C0, 0x51C3)) end.
Definition two_ls : list (nat * label) :=
  [(0%nat, LOp (ORmwSum 7 5)); (1%nat, LOp (ORmwSum 7 100)); (0%nat, LOp (OWriteBlock 100 (repeat 9 20) false)); (1%nat, LOp (OReadBlock 5 3 true));
   (1%nat, LDispatch); (0%nat, LOp (ORmwSum 7 0xFFFFFFFF)); (0%nat, LTarget); (1%nat, LTarget); (0%nat, LDispatch); (0%nat, LTarget); (1%nat, LReply); (1%nat, LReturn);
   (0%nat, LReply); (0%nat, LReply); (0%nat, LReturn)].

Example C91_case_hyps : (forall p, cfg_ok (two p)) /\ (forall p, Forall op_ok (calls (steps_of p two_ls))) /\ (forall p, Forall (only_adds 7) (calls (steps_of p two_ls))) /\
  (forall p, steps_of p two_ls = [] \/ exists ms, steps_of p two_ls = ms ++ [LReturn]).
Proof.
  split; [intros [|p]; unfold cfg_ok; cbn; repeat split; try lia; discriminate|].
  split; [intros [|[|p]]; repeat constructor; cbn; lia|]. split; [intros [|[|p]]; repeat constructor; vm_compute; intuition discriminate|].
  intros [|[|p]]; [right|right|left; reflexivity].
  - exists (removelast (steps_of 0 two_ls)). reflexivity.
  - exists (removelast (steps_of 1 two_ls)). reflexivity.
Qed.
Example C91_case :
  option_map (fun s => (sh_dev _ s 7, s_heap (y_c _ (sh_y _ s 0%nat)), s_heap (y_c _ (sh_y _ s 1%nat))))
    (sh_run mem mem_rd mem_wr mem_cf two (init_shared mem (fun a => 1000 + a)) two_ls) =
  Some (1111, [CWord true 1012 0xFFFFFFFF; CHdr true; CWord true 1111 0xFFFFFFFF], [CWord true 1012 0xFFFFFFFF; CVec true [1005; 1006; 1112]]) /\
  (1007 + adds 7 (calls (map snd two_ls))) mod 2 ^ 32 = 1111.
Proof. vm_compute. split; reflexivity. Qed.
(** In the middle of it client 0 waits. *)
Example C91_progress_case :
  option_map (fun s => (y_wait _ (sh_y _ s 0%nat), length (s_out (y_c _ (sh_y _ s 0%nat))), length (y_rep _ (sh_y _ s 0%nat))))
    (sh_run mem mem_rd mem_wr mem_cf two (init_shared mem (fun a => 1000 + a)) (firstn 9 two_ls)) = Some (true, 1%nat, 1%nat).
Proof. vm_compute. reflexivity. Qed.

Print Assumptions C91_shared.
Print Assumptions C91_progress.
Print Assumptions C91_no_lost_update.
