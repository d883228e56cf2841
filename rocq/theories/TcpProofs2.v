(** Invariant of the TCP transport in executions with clean handlers. *)
From Coq Require Import NArith ZArith List Bool Lia PeanoNat ZifyBool ZifyNat ZifyN.
From Verif Require Import Word Udp Tcp TcpProofs.
Import ListNotations.
Open Scope N_scope.
Ltac Zify.zify_post_hook ::= Z.div_mod_to_equations.

Definition ne {A} (c : list A) : list (list A) := match c with [] => [] | _ => [c] end.
Definition got (i : tiopc) : nat := match i with TCheck _ | TEnd => 1 | _ => 0 end.
Definition busy (i : tiopc) : nat := match i with TIdle => 0 | _ => 1 end.
Definition flushing (u : upc) : bool := match u with UWait | UWake => true | _ => false end.

Lemma mult_step n a b : a < b -> (n | a) -> (n | b) -> a + n <= b.
Proof.
  intros L (x & ->) (y & ->). assert (x < y) by (apply N.nle_gt; intros Z; apply (N.mul_le_mono_r _ _ n) in Z; lia).
  replace (x * n + n) with (N.succ x * n) by lia. apply N.mul_le_mono_r. lia.
Qed.
Lemma concat_ne {A} (c : list A) : concat (ne c) = c.
Proof. destruct c; cbn; [reflexivity|rewrite app_nil_r; reflexivity]. Qed.

Section Inv.
Variable bytes : pkt -> list N.
Variable room : pkt -> N.
Variable nr : nat.
Variable max : N.
Variable zero : bool.
Hypothesis nr_pos : (1 <= nr)%nat.
Hypothesis max_pos : 1 <= max.
Hypothesis max_mult : (N.of_nat nr | max).
Hypothesis small : max + 2 * N.of_nat nr < W32.

Notation step := (kstep bytes room nr max zero).

(** Part of the chunk being answered that has been checked. *)
Definition io_part (s : tcp) (pre : list pkt) : Prop :=
  match k_io s with
  | TBody c => c = k_reply s /\ pre = []
  | TCheck c => c <> [] /\ k_reply s = pre ++ c
  | TEnd => pre = k_reply s
  | _ => pre = []
  end.

Record tlive0 (s : tcp) (e : list tobs) : Prop := {
  v_old : exists old pre, chunks e = old ++ ne (k_reply s) ++ k_rqueue s ++ ne (k_disp s) /\
            trecvd e = (List.length old + got (k_io s))%nat /\
            map fst (tchecks e) = concat old ++ pre /\ io_part s pre;
  v_infl : N.to_nat (k_infl s) = (List.length (k_reply s) + List.length (concat (k_rqueue s)) + List.length (k_disp s))%nat;
  v_s : (k_acts s + kS (k_rdy s))%nat = List.length (ne (k_disp s));
  v_r : (k_actr s + kR (k_rdy s) + busy (k_io s))%nat = List.length (ne (k_reply s));
  v_rq : k_reply s = [] -> k_rqueue s = [];
  v_rqne : Forall (fun c => c <> []) (k_rqueue s);
  v_ok : Forall (fun c => snd c = true) (tchecks e);
  v_nofail : ~ In TFail e
}.

(** Before Flush every chunk sent and not yet dealt with is full. *)
Definition full (s : tcp) : Prop := Forall (fun c => List.length c = nr) (ne (k_reply s) ++ k_rqueue s ++ ne (k_disp s)).
Definition bound (s : tcp) : Prop :=
  if flushing (k_user s) then k_infl s <= max + N.of_nat nr else k_infl s <= max /\ full s.

Record tlive (s : tcp) (e : list tobs) : Prop := {
  v_live0 : tlive0 s e;
  v_bound : bound s;
  v_q : k_disp s = [] -> k_queue s = [] \/ max <= k_infl s \/ k_flush s = false /\ (List.length (k_queue s) < nr)%nat;
  v_done : k_done s = true <-> k_disp s = [] /\ k_reply s = [];
  v_wake : k_user s = UWake -> k_done s = true;
  v_flush : k_flush s = if flushing (k_user s) then true else k_flush s;
  v_drained : k_flush s = true -> flushing (k_user s) = true \/ k_disp s = [] /\ k_reply s = [] /\ k_queue s = []
}.

Definition tmode (s : tcp) (e : list tobs) : Prop :=
  match k_user s with
  | UH3 => k_exc s = false /\ tquiet s /\ k_done s = true /\ k_rqueue s = []
  | UH4 => k_exc s = false /\ tquiet s /\ k_done s = true /\ k_rqueue s = [] /\ k_queue s = [] /\ k_infl s = 0
  | _ => if k_exc s then In TFail e /\ k_io s = TIdle /\ (k_done s = true \/ (1 <= k_acts s + kS (k_rdy s))%nat)
         else tlive s e
  end.

(** Facts about the history alone. *)
Record common (s : tcp) (e : list tobs) : Prop := {
  w_checked : tprefix (map fst (tchecks e)) (concat (firstn (trecvd e) (chunks e)));
  w_before : tprefix (concat (firstn (trecvd e - 1) (chunks e))) (map fst (tchecks e));
  w_bound : (List.length (unanswered e) <= N.to_nat max + match k_user s with UIdle => 0 | _ => nr end)%nat;
  w_r : (trecvd e <= List.length (chunks e))%nat
}.

Record tinv (s : tcp) (e : list tobs) : Prop := { w_common : common s e; w_mode : tmode s e }.

Lemma len_full : forall l : list (list pkt), Forall (fun c => List.length c = nr) l -> List.length (concat l) = (nr * List.length l)%nat.
Proof.
  induction l as [|c l IH]; intros F; [cbn; lia|]. inversion F; subst. cbn [concat List.length]. rewrite app_length, IH by assumption. lia.
Qed.
Lemma full_div s e : tlive0 s e -> full s -> (N.of_nat nr | k_infl s).
Proof.
  intros L F. apply len_full in F. rewrite !concat_app, !app_length, !concat_ne in F. assert (I := v_infl _ _ L).
  exists (N.of_nat (List.length (ne (k_reply s)) + (List.length (k_rqueue s) + List.length (ne (k_disp s))))). nia.
Qed.

Lemma len_ne (c : list pkt) : List.length (ne c) = match c with [] => 0%nat | _ => 1%nat end.
Proof. destruct c; reflexivity. Qed.

Lemma live_common s e : tlive s e -> common s e.
Proof.
  intros L. destruct L as [L B _ _ _ _ _]. destruct L. destruct v_old0 as (old & pre & C & R & K & P).
  assert (G : got (k_io s) = 1%nat -> k_reply s <> []).
  { intros G E. rewrite E in v_r0. destruct (k_io s); try discriminate G; cbn [busy ne List.length] in v_r0; lia. }
  assert (NP : got (k_io s) = 0%nat -> pre = []) by (unfold io_part in P; destruct (k_io s); cbn [got]; intros; try discriminate; tauto).
  assert (PP : exists r, k_reply s = pre ++ r).
  { unfold io_part in P. destruct (k_io s).
    - subst pre. exists (k_reply s). reflexivity.
    - subst pre. exists (k_reply s). reflexivity.
    - destruct P as (_ & ->). exists (k_reply s). reflexivity.
    - destruct P as (_ & P). exists c. exact P.
    - exists []. rewrite app_nil_r. congruence. }
  assert (GC : got (k_io s) = 0%nat \/ got (k_io s) = 1%nat) by (destruct (k_io s); auto).
  constructor.
  - rewrite K, C, R. destruct GC as [G0|G1].
    + rewrite G0, Nat.add_0_r, firstn_app, Nat.sub_diag, firstn_all, (NP G0). cbn [firstn]. rewrite !app_nil_r. exists []. rewrite app_nil_r. reflexivity.
    + rewrite G1. destruct PP as (r & PP). specialize (G G1). destruct (k_reply s) as [|a b] eqn:RE; [congruence|].
      rewrite firstn_app. replace (firstn (List.length old + 1) old) with old by (rewrite firstn_all2; [reflexivity|lia]).
      replace (List.length old + 1 - List.length old)%nat with 1%nat by lia. cbn [ne app firstn]. rewrite concat_app. cbn [concat]. rewrite app_nil_r.
      exists r. rewrite PP, app_assoc. reflexivity.
  - rewrite K, C, R. destruct GC as [G0|G1].
    + rewrite G0, Nat.add_0_r. rewrite firstn_app. replace (List.length old - 1 - List.length old)%nat with 0%nat by lia. cbn [firstn]. rewrite app_nil_r.
      exists (concat (skipn (List.length old - 1) old) ++ pre). rewrite app_assoc, <- concat_app, firstn_skipn. reflexivity.
    + rewrite G1. replace (List.length old + 1 - 1)%nat with (List.length old) by lia. rewrite firstn_app, Nat.sub_diag, firstn_all. cbn [firstn]. rewrite app_nil_r. eexists. reflexivity.
  - unfold unanswered. rewrite C, R. rewrite skipn_app.
    assert (S1 : skipn (List.length old + got (k_io s)) old = []) by (apply skipn_all2; lia). rewrite S1. cbn [app].
    replace (List.length old + got (k_io s) - List.length old)%nat with (got (k_io s)) by lia.
    assert (LE : (List.length (concat (skipn (got (k_io s)) (ne (k_reply s) ++ k_rqueue s ++ ne (k_disp s)))) <= N.to_nat (k_infl s))%nat).
    { rewrite v_infl0. destruct GC as [G0|G1].
      - rewrite G0. cbn [skipn]. rewrite !concat_app, !app_length, !concat_ne. lia.
      - rewrite G1. specialize (G G1). destruct (k_reply s) as [|a b] eqn:RE; [congruence|]. cbn [ne app skipn]. rewrite concat_app, app_length, concat_ne. lia. }
    unfold bound in B. destruct (k_user s); cbn [flushing] in B; lia.
  - rewrite C, R, !app_length, len_ne. destruct GC as [G0|G1]; [lia|]. specialize (G G1). destruct (k_reply s); [congruence|]. lia.
Qed.

Lemma live_tinv s e : tlive s e -> k_exc s = false -> k_user s <> UH3 -> k_user s <> UH4 -> tinv s e.
Proof. intros L X A B. split; [apply live_common; exact L|]. unfold tmode. destruct (k_user s); try congruence; rewrite X; exact L. Qed.

Definition outside (u : upc) : Prop := u <> UH3 /\ u <> UH4.
Lemma mode_outside s e : outside (k_user s) -> tmode s e ->
  if k_exc s then In TFail e /\ k_io s = TIdle /\ (k_done s = true \/ (1 <= k_acts s + kS (k_rdy s))%nat) else tlive s e.
Proof. intros (A & B) M. unfold tmode in M. destruct (k_user s); try congruence; exact M. Qed.
Lemma mode_in s e : outside (k_user s) ->
  (if k_exc s then In TFail e /\ k_io s = TIdle /\ (k_done s = true \/ (1 <= k_acts s + kS (k_rdy s))%nat) else tlive s e) -> tmode s e.
Proof. intros (A & B) M. unfold tmode. destruct (k_user s); try congruence; exact M. Qed.

(** write in a live state. *)
Lemma write_live0 s e : tlive0 s e -> k_disp s = [] -> k_queue s <> [] -> k_infl s <= max + N.of_nat nr ->
  tlive0 (twrite bytes nr zero s) (e ++ [TSent (chunk_of nr s) (frame_of bytes (chunk_of nr s))]) /\
  k_infl (twrite bytes nr zero s) = k_infl s + N.of_nat (List.length (chunk_of nr s)).
Proof.
  intros L D Q IB. assert (NE := chunk_ne nr nr_pos s Q). assert (CL := chunk_len nr s). rewrite twrite_eq, D. cbn [app].
  assert (I2 : add32 (k_infl s) (N.of_nat (List.length (chunk_of nr s))) = k_infl s + N.of_nat (List.length (chunk_of nr s))) by (unfold add32, W32 in *; lia).
  split; [|krecs; exact I2]. destruct L. destruct v_old0 as (old & pre & C & R & K & P). rewrite D in *. cbn [ne List.length] in *. constructor; krecs.
  - exists old, pre. thist. rewrite C. unfold io_part in *. krecs. destruct (chunk_of nr s) as [|a b]; [congruence|]. cbn [ne].
    rewrite ?app_nil_r, <- !app_assoc, Nat.add_0_r. auto.
  - rewrite I2. lia.
  - destruct (chunk_of nr s); [congruence|]. cbn [ne List.length]. lia.
  - exact v_r0.
  - exact v_rq0.
  - exact v_rqne0.
  - thist. exact v_ok0.
  - intros I. apply in_app_iff in I. destruct I as [I|[I|[]]]; [auto|discriminate].
Qed.

Lemma write_live s e : tlive0 s e -> k_disp s = [] -> k_queue s <> [] -> k_user s <> UWake ->
  (if flushing (k_user s) then k_infl s <= max
   else k_flush s = false /\ k_infl s < max /\ full s /\ (nr <= List.length (k_queue s))%nat) ->
  (if flushing (k_user s) then k_flush s = true else True) ->
  tlive (twrite bytes nr zero s) (e ++ [TSent (chunk_of nr s) (frame_of bytes (chunk_of nr s))]).
Proof.
  intros L D Q NW B FL. destruct (write_live0 s e L D Q) as (L1 & I1); [destruct (flushing (k_user s)); lia|].
  assert (NE := chunk_ne nr nr_pos s Q). assert (CL := chunk_len nr s).
  assert (DE : k_disp (twrite bytes nr zero s) = chunk_of nr s) by (rewrite twrite_eq, D; reflexivity).
  assert (UE : k_user (twrite bytes nr zero s) = k_user s) by reflexivity.
  assert (FE : k_flush (twrite bytes nr zero s) = k_flush s) by reflexivity.
  constructor.
  - exact L1.
  - unfold bound. rewrite UE, I1. destruct (flushing (k_user s)); [lia|]. destruct B as (_ & B1 & B2 & B3).
    assert (LC : List.length (chunk_of nr s) = nr) by lia. rewrite LC. split.
    + apply mult_step; auto. eapply full_div; eassumption.
    + unfold full in *. rewrite DE. change (k_reply (twrite bytes nr zero s)) with (k_reply s). change (k_rqueue (twrite bytes nr zero s)) with (k_rqueue s).
      rewrite D in B2. cbn [ne] in B2. rewrite app_nil_r in B2. rewrite app_assoc. apply Forall_app. split; [exact B2|].
      destruct (chunk_of nr s); [constructor|]. constructor; [exact LC|constructor].
  - rewrite DE. contradiction.
  - rewrite DE. change (k_done (twrite bytes nr zero s)) with false. split; [discriminate|intros (X & _); contradiction].
  - rewrite UE. contradiction.
  - rewrite UE, FE. destruct (flushing (k_user s)); [exact FL|reflexivity].
  - rewrite UE, FE. intros F. destruct (flushing (k_user s)); [auto|]. destruct B; congruence.
Qed.

(** A step that changes nothing the invariant depends on. *)
Lemma live0_same s s' e : tlive0 s e ->
  k_disp s' = k_disp s -> k_reply s' = k_reply s -> k_rqueue s' = k_rqueue s -> k_infl s' = k_infl s -> k_io s' = k_io s ->
  (k_acts s' + kS (k_rdy s') = k_acts s + kS (k_rdy s))%nat -> (k_actr s' + kR (k_rdy s') = k_actr s + kR (k_rdy s))%nat -> tlive0 s' e.
Proof.
  intros L A B C D E F G. destruct L. constructor; unfold io_part in *; rewrite ?A, ?B, ?C, ?D, ?E, ?F, ?G in *; try assumption.
Qed.
Lemma live_same s s' e : tlive s e ->
  k_disp s' = k_disp s -> k_queue s' = k_queue s -> k_reply s' = k_reply s -> k_rqueue s' = k_rqueue s -> k_infl s' = k_infl s -> k_io s' = k_io s ->
  k_done s' = k_done s -> k_flush s' = k_flush s -> flushing (k_user s') = flushing (k_user s) -> (k_user s' = UWake -> k_user s = UWake \/ k_done s = true) ->
  (k_acts s' + kS (k_rdy s') = k_acts s + kS (k_rdy s))%nat -> (k_actr s' + kR (k_rdy s') = k_actr s + kR (k_rdy s))%nat -> tlive s' e.
Proof.
  intros [L B Q DN WK FL DR] A A' B' C D E F G H U J K. constructor; [eapply live0_same; eassumption|..]; unfold bound, full in *; rewrite ?A, ?A', ?B', ?C, ?D, ?F, ?G, ?H in *; try assumption.
  intros X. destruct (U X); auto.
Qed.
Lemma common_same s s' e : common s e -> (k_user s' = UIdle -> k_user s = UIdle) -> common s' e.
Proof. intros [A B C D] U. constructor; try assumption. destruct (k_user s'), (k_user s); try lia; specialize (U eq_refl); discriminate. Qed.
Lemma tinv_same s s' e : tinv s e -> outside (k_user s) -> outside (k_user s') -> k_exc s' = k_exc s ->
  k_disp s' = k_disp s -> k_queue s' = k_queue s -> k_reply s' = k_reply s -> k_rqueue s' = k_rqueue s -> k_infl s' = k_infl s -> k_io s' = k_io s ->
  k_done s' = k_done s -> k_flush s' = k_flush s -> (k_exc s = false -> flushing (k_user s') = flushing (k_user s)) -> (k_user s' = UWake -> k_user s = UWake \/ k_done s = true) ->
  (k_user s' = UIdle -> k_user s = UIdle) ->
  (k_acts s' + kS (k_rdy s') = k_acts s + kS (k_rdy s))%nat -> (k_actr s' + kR (k_rdy s') = k_actr s + kR (k_rdy s))%nat -> tinv s' e.
Proof.
  intros [W M] O O' X A A' B' C D E F G H U UI J K. apply (mode_outside _ _ O) in M. split; [eapply common_same; eassumption|].
  apply mode_in; [exact O'|]. rewrite X. destruct (k_exc s); [rewrite E, F, J; exact M|]. eapply live_same; try eassumption. auto.
Qed.

Lemma tclose_counts s : (k_acts (tclose s) + kS (k_rdy (tclose s)) = k_acts s + kS (k_rdy s))%nat /\
  (k_actr (tclose s) + kR (k_rdy (tclose s)) = k_actr s + kR (k_rdy s))%nat.
Proof. krecs. destruct (tclosed_ops (k_acts s) (k_actr s)) as (A & B). rewrite kS_app, kR_app, A, B. lia. Qed.

(** Adding an event that is not counted. *)
Lemma common_snoc s e o : common s e -> match o with TFail | TReturn | THanded _ => True | _ => False end -> common s (e ++ [o]).
Proof. intros [A B C D] O. destruct o; try contradiction; constructor; unfold unanswered in *; thist; rewrite ?Nat.add_0_r; assumption. Qed.

(** A failure stored. *)
Lemma store_tinv s f e : tinv s e -> outside (k_user s) -> (f = s \/ f = tclose s) -> tinv (tput_io (tstore f) TIdle) (e ++ [TFail]).
Proof.
  intros [W M] O F. assert (UF : k_user f = k_user s) by (destruct F as [->| ->]; reflexivity). split.
  - apply common_snoc; [|exact I]. eapply common_same; [exact W|]. krecs. congruence.
  - apply mode_in; krecs; [rewrite UF; exact O|]. split; [apply in_or_app; right; left; reflexivity|auto].
Qed.

Lemma tquiet_kept s l s' : tquiet s -> k_user s = UH3 \/ k_user s = UH4 -> step s l = Some s' -> l <> KHandler ->
  l = KDeadline /\ s' = tcheck_deadline s.
Proof.
  intros (A & B & C & D) U ST NL. destruct l; cbn [kstep] in ST;
    try (destruct U as [U|U]; rewrite U in ST; discriminate); rewrite ?A, ?B, ?C, ?D in ST; try discriminate; try congruence.
  - destruct (k_fin s); [|discriminate]. injection ST as <-. auto.
  - destruct i; discriminate.
Qed.

Lemma common_sent s s' e c b : common s e -> k_user s' <> UIdle -> (List.length (unanswered e) <= N.to_nat max)%nat -> (List.length c <= nr)%nat ->
  common s' (e ++ [TSent c b]).
Proof.
  intros [A B C D] U L1 L2. assert (F : forall n, (n <= List.length (chunks e))%nat -> firstn n (chunks e ++ [c]) = firstn n (chunks e)).
  { intros n Hn. rewrite firstn_app. replace (n - List.length (chunks e))%nat with 0%nat by lia. apply app_nil_r. }
  unfold unanswered in *. constructor; unfold unanswered; thist; rewrite ?Nat.add_0_r.
  - rewrite F by exact D. exact A.
  - rewrite F by lia. exact B.
  - rewrite skipn_app, concat_app, app_length. replace (trecvd e - List.length (chunks e))%nat with 0%nat by lia. cbn [skipn concat]. rewrite app_nil_r.
    destruct (k_user s'); try congruence; lia.
  - rewrite app_length. lia.
Qed.

Lemma since_sent s c b : tsince (k_tr s ++ [TSent c b]) = tsince (k_tr s) ++ [TSent c b].
Proof. apply tsince_snoc. Qed.

Lemma write_tr s : tsince (k_tr (twrite bytes nr zero s)) = tsince (k_tr s) ++ [TSent (chunk_of nr s) (frame_of bytes (chunk_of nr s))].
Proof. rewrite twrite_eq. krecs. apply since_sent. Qed.

Lemma want_spec s : want_write nr max s = true <-> ((if k_flush s then 1 else nr) <= List.length (k_queue s))%nat /\ k_infl s < max.
Proof. unfold want_write. rewrite andb_true_iff, Nat.leb_le, N.ltb_lt. tauto. Qed.

Lemma step_tinv s l s' : tinv s (tsince (k_tr s)) -> step s l = Some s' -> (l = KHandler -> k_user s = UH2 -> tclean s) ->
  tinv s' (tsince (k_tr s')).
Proof.
  intros W ST CL.
  assert (HQ : (k_user s = UH3 \/ k_user s = UH4) -> tquiet s).
  { intros [U|U]; destruct W as [_ M]; unfold tmode in M; rewrite U in M; tauto. }
  assert (OC : outside (k_user s) \/ (k_user s = UH3 \/ k_user s = UH4)) by (unfold outside; destruct (k_user s); auto; left; split; discriminate).
  destruct OC as [O|U34].
  2:{ assert (LC : l = KHandler \/ l <> KHandler) by (destruct l; auto; right; discriminate). destruct LC as [->|NL].
    - clear CL. destruct U34 as [U|U]; cbn [kstep] in ST; rewrite U in ST; injection ST as <-; unfold thandler; rewrite U; destruct W as [W M]; unfold tmode in M; rewrite U in M.
      + destruct M as (X & Q & D & RQ). split; [eapply common_same; [exact W|krecs; discriminate]|]. unfold tmode. krecs. unfold tquiet in *. krecs. rewrite RQ. cbn [map]. auto 10.
      + destruct M as (X & (Q1 & Q2 & Q3 & Q4) & D & RQ & QU & IN). krecs. rewrite tsince_snoc. apply live_tinv; krecs; try discriminate; [|exact X].
        constructor; unfold bound; krecs; cbn [flushing]; auto.
        * constructor; krecs; rewrite ?RQ, ?QU, ?IN, ?Q1, ?Q2, ?Q3, ?Q4; cbn; auto.
          exists [], []. unfold io_part. krecs. rewrite Q4. auto.
        * rewrite IN. unfold full. krecs. rewrite RQ. split; [lia|constructor].
        * tauto.
    - destruct (tquiet_kept s l s' (HQ U34) U34 ST NL) as (-> & ->). clear CL. destruct W as [W M]. unfold tcheck_deadline.
      split; [eapply common_same; [exact W|krecs; auto]|]. unfold tmode in *. unfold tquiet in *. krecs.
      destruct U34 as [U|U]; rewrite U in *; destruct M as (X & (Q1 & Q2 & Q3 & Q4) & M); rewrite Q1, Q2, Q3, Q4; cbn [app repeat]; tauto. }
  assert (MO := mode_outside _ _ O (w_mode _ _ W)). assert (CO := w_common _ _ W).
  destruct l; cbn [kstep] in ST.
  - (* implementDispatch *)
    destruct (k_user s) eqn:U; try discriminate. destruct (k_exc s) eqn:X; injection ST as <-.
    { eapply tinv_same; [exact W|..]; krecs; rewrite ?U; try reflexivity; try (unfold outside; split; discriminate); auto; discriminate. }
    unfold timplement_dispatch. set (s1 := if k_open s then s else _).
    assert (W1 : tlive s1 (tsince (k_tr s)) /\ k_tr s1 = k_tr s /\ k_user s1 = UIdle /\ k_exc s1 = false).
    { unfold s1. destruct (k_open s); [auto|]. split; [|krecs; auto]. eapply live_same; [exact MO|..]; krecs; auto. }
    destruct W1 as (L1 & T1 & U1 & X1). clearbody s1. set (s2 := tsee _ _).
    assert (T2 : tsince (k_tr s2) = tsince (k_tr s) ++ [THanded p]) by (unfold s2; krecs; rewrite T1, tsince_snoc; reflexivity).
    assert (L2 : tlive0 s2 (tsince (k_tr s2))).
    { destruct L1 as [L1 _ _ _ _ _ _]. destruct L1. rewrite T2. unfold s2. constructor; krecs; try assumption.
      - destruct v_old0 as (old & pre & E). exists old, pre. thist. rewrite Nat.add_0_r. exact E.
      - thist. exact v_ok0.
      - intros I. apply in_app_iff in I. destruct I as [I|[I|[]]]; [auto|discriminate]. }
    destruct L1 as [_ B Q DN WK FL DR]. unfold bound in B. rewrite U1 in *. cbn [flushing] in *.
    assert (E2 : k_disp s2 = k_disp s1 /\ k_queue s2 = k_queue s1 ++ [p] /\ k_infl s2 = k_infl s1 /\ k_user s2 = UIdle /\ k_exc s2 = false /\ k_flush s2 = false /\ k_done s2 = k_done s1 /\ k_reply s2 = k_reply s1) by (unfold s2; krecs; auto 10).
    assert (FS : full s2 = full s1) by reflexivity.
    destruct E2 as (E1 & E2 & E3 & E4 & E5 & E6 & E7 & E8). clearbody s2. rewrite E1, E2, E3.
    destruct (_ && _) eqn:CD.
    + apply andb_true_iff in CD. destruct CD as (CD & C3). apply andb_true_iff in CD. destruct CD as (C1 & C2).
      destruct (k_disp s1) eqn:D1; [|discriminate C1]. apply Nat.leb_le in C2. apply N.ltb_lt in C3.
      apply live_tinv; try (rewrite twrite_eq; krecs; congruence).
      rewrite write_tr.
      apply write_live; try assumption; rewrite ?E4; cbn [flushing]; try discriminate; try exact I.
      * rewrite E2. destruct (k_queue s1); discriminate.
      * rewrite E2, E3, FS. tauto.
    + apply live_tinv; try congruence. constructor; [exact L2|..]; unfold bound; rewrite ?E4, ?E1, ?E2, ?E3, ?E6, ?E7, ?E8, ?FS; cbn [flushing]; auto; try discriminate.
      intros D1. rewrite D1 in *. cbn [andb] in CD. apply andb_false_iff in CD. destruct CD as [CD|CD]; [apply Nat.leb_gt in CD; auto|apply N.ltb_ge in CD; auto].
  - (* connect fails *)
    destruct (k_user s) eqn:U; try discriminate. destruct (k_exc s) eqn:X; try discriminate. destruct (k_open s) eqn:OP; try discriminate. injection ST as <-.
    eapply tinv_same; [exact W|..]; krecs; rewrite ?U; try reflexivity; try (unfold outside; split; discriminate); auto; discriminate.
  - (* Flush *)
    destruct (k_user s) eqn:U; try discriminate. injection ST as <-. unfold tflush. krecs.
    assert (HB := w_bound _ _ CO). rewrite U in HB.
    destruct (k_exc s) eqn:X.
    { assert (G : tinv (tput_user (tput_flush s true) UWait) (tsince (k_tr s))).
      { split; [eapply common_same; [exact CO|krecs; discriminate]|]. apply mode_in; krecs; [split; discriminate|]. rewrite X. exact MO. }
      destruct (k_queue s) eqn:Q, (k_disp s) eqn:D; try exact G.
      set (s1 := tput_flush s true). krecs. rewrite write_tr. change (k_tr s1) with (k_tr s).
      split.
      - eapply common_sent; [exact CO|krecs; discriminate|lia|]. rewrite chunk_len. lia.
      - apply mode_in; [rewrite twrite_eq; krecs; split; discriminate|]. rewrite twrite_eq. unfold s1. krecs. rewrite X. destruct MO as (A & B & C).
        split; [apply in_or_app; auto|]. split; [exact B|]. right. lia. }
    destruct MO as [L0 B Q DN WK FL DR]. unfold bound in B. rewrite U in *. cbn [flushing] in *.
    set (s1 := tput_user (tput_flush s true) UWait).
    assert (L1 : tlive0 s1 (tsince (k_tr s))) by (eapply live0_same; [exact L0|..]; reflexivity).
    assert (G : k_disp s <> [] \/ k_queue s = [] -> tinv s1 (tsince (k_tr s))).
    { intros H. apply live_tinv; unfold s1; krecs; try discriminate; [|exact X]. constructor; [exact L1|..]; unfold bound; krecs; cbn [flushing]; auto; try discriminate; [lia|].
      intros D. destruct H; [contradiction|auto]. }
    destruct (k_queue s) as [|q0 qq] eqn:QU; [apply G; auto|]. destruct (k_disp s) eqn:D; [|apply G; left; discriminate].
    replace (tput_user (twrite bytes nr zero (tput_flush s true)) UWait) with (twrite bytes nr zero s1) by reflexivity.
    apply live_tinv; try (rewrite twrite_eq; unfold s1; krecs; try discriminate; exact X).
    rewrite write_tr. change (chunk_of nr (tput_flush s true)) with (chunk_of nr s1). change (k_tr (tput_flush s true)) with (k_tr s).
    apply write_live; unfold s1; krecs; cbn [flushing]; try assumption; try discriminate; try reflexivity; [|lia]. rewrite QU. discriminate.
  - (* end of the wait *)
    destruct (k_user s) eqn:U; try discriminate. destruct (k_done s) eqn:D; [|discriminate]. injection ST as <-.
    eapply tinv_same; [exact W|..]; krecs; rewrite ?U; try reflexivity; try (unfold outside; split; discriminate); auto; discriminate.
  - (* rest of Flush *)
    destruct (k_user s) eqn:U; try discriminate. injection ST as <-. destruct (k_exc s) eqn:X.
    { eapply tinv_same; [exact W|..]; krecs; rewrite ?U; try reflexivity; try (unfold outside; split; discriminate); auto; try discriminate. congruence. }
    apply live_tinv; krecs; try discriminate; [|exact X]. destruct MO as [L0 B Q DN WK FL DR]. rewrite U in *. cbn [flushing] in *.
    apply DN in WK; [|reflexivity]. destruct WK as (D & R). assert (RQ := v_rq _ _ L0 R). assert (IN := v_infl _ _ L0). rewrite D, R, RQ in IN. cbn in IN.
    rewrite tsince_snoc. constructor; unfold bound; krecs; cbn [flushing]; auto; try discriminate.
    + destruct L0. constructor; krecs; try assumption.
      * destruct v_old0 as (old & pre & E). exists old, pre. thist. rewrite Nat.add_0_r. exact E.
      * thist. exact v_ok0.
      * intros I. apply in_app_iff in I. destruct I as [I|[I|[]]]; [auto|discriminate].
    + unfold full. krecs. rewrite D, R, RQ. split; [lia|constructor].
    + intros _. right. destruct (Q D) as [Z|[Z|(Z & _)]]; [auto|lia|congruence].
  - (* exception handler *)
    destruct (k_user s) eqn:U; try discriminate; injection ST as <-; unfold thandler; rewrite U; try (destruct O; congruence).
    + assert (CC := tclose_counts s). destruct (k_open s); eapply tinv_same; try exact W; krecs; rewrite ?U; try reflexivity; try (unfold outside; split; discriminate); auto; try discriminate; tauto.
    + destruct (CL eq_refl eq_refl) as ((Q1 & Q2 & Q3 & Q4) & RQ). split; [eapply common_same; [exact CO|krecs; discriminate]|].
      unfold tmode, tquiet. krecs. auto 10.
  - (* a send completes *)
    destruct (k_acts s) as [|a] eqn:A; [discriminate|]. injection ST as <-.
    eapply tinv_same; [exact W|..]; krecs; try reflexivity; auto; rewrite ?A, ?kS_app, ?kR_app; cbn; lia.
  - (* a header arrives *)
    destruct (k_actr s) as [|a] eqn:A; [discriminate|]. injection ST as <-.
    eapply tinv_same; [exact W|..]; krecs; try reflexivity; auto; rewrite ?A, ?kS_app, ?kR_app; cbn; lia.
  - (* deadline *)
    destruct (k_io s) eqn:IO; try discriminate. destruct (k_fin s); [|discriminate]. injection ST as <-.
    assert (CC := tclose_counts s). unfold tcheck_deadline. eapply tinv_same; [exact W|..]; krecs; try reflexivity; auto; tauto.
  - (* body *)
    destruct (k_io s) as [| |c| |] eqn:IO; try discriminate. destruct (_ <=? _); [|discriminate]. injection ST as <-.
    assert (X : k_exc s = false) by (destruct (k_exc s); [destruct MO as (_ & Z & _); discriminate Z|reflexivity]). rewrite X in MO.
    unfold tread_body. destruct (_ || _).
    { replace (tsince _) with (tsince (k_tr s) ++ [TFail]) by (krecs; rewrite tsince_snoc; reflexivity). eapply store_tinv; eauto. }
    apply live_tinv; krecs; try (destruct O; congruence). destruct MO as [L0 B Q DN WK FL DR]. rewrite tsince_snoc.
    constructor; unfold bound in *; krecs; try assumption. destruct L0. destruct v_old0 as (old & pre & C & R & K & P). unfold io_part in P. rewrite IO in *. destruct P as (-> & ->).
    cbn [busy got] in *. assert (RN : k_reply s <> []) by (intros Z; rewrite Z in v_r0; cbn in v_r0; lia).
    destruct (k_reply s) as [|r0 rr] eqn:RE; [congruence|].
    constructor; krecs; rewrite ?RE; try assumption.
    + exists old, []. thist. unfold io_part. krecs. rewrite RE. cbn [got]. repeat split; auto; lia.
    + thist. exact v_ok0.
    + intros I. apply in_app_iff in I. destruct I as [I|[I|[]]]; [auto|discriminate].
  - (* callback *)
    destruct (k_io s) eqn:IO; try discriminate. destruct (nth_error (k_rdy s) i) as [c|] eqn:NT; [|discriminate].
    destruct (tdrop_counts _ _ _ NT) as (C1 & C2). injection ST as <-. set (s1 := tput_ops s (k_acts s) (k_actr s) (drop_nth (k_rdy s) i)).
    destruct (k_exc s) eqn:X.
    { assert (G : forall f, k_exc f = true -> k_user f = k_user s -> k_io f = TIdle -> k_tr f = k_tr s -> tinv (tnotify f true) (tsince (k_tr (tnotify f true)))).
      { intros f F1 F2 F3 F4. krecs. rewrite F4. split; [eapply common_same; [exact CO|krecs; congruence]|]. apply mode_in; krecs; [rewrite F2; exact O|]. rewrite F1, F3. tauto. }
      destruct c.
      - unfold twrite_callback. set (f := tput_cnt s1 _ _). replace (k_exc f) with true by (symmetry; exact X). apply G; auto.
      - unfold tread_callback. replace (k_exc s1) with true by (symmetry; exact X). apply G; auto. }
    assert (G : forall f, k_user f = k_user s -> k_tr f = k_tr s -> k_io f = TIdle -> tinv (tstore f) (tsince (k_tr (tstore f)))).
    { intros f F1 F2 F3. replace (tsince _) with (tsince (k_tr s) ++ [TFail]) by (krecs; rewrite tsince_snoc, F2; reflexivity).
      split; [apply common_snoc; [|exact I]; eapply common_same; [exact CO|krecs; congruence]|].
      apply mode_in; krecs; [rewrite F1; exact O|]. split; [apply in_or_app; right; left; reflexivity|auto]. }
    destruct MO as [L0 B Q DN WK FL DR]. assert (L0' := L0). destruct L0 as [VO VI VS VR VRQ VNE VOK VNF]. destruct VO as (old & pre & C & R & K & P). unfold io_part in P. rewrite IO in *. cbn [busy got] in *. subst pre. rewrite Nat.add_0_r in *.
    destruct c as [err n|err n].
    + (* write_callback *)
      unfold twrite_callback. set (s0 := tput_cnt s1 _ _). replace (k_exc s0) with false by (symmetry; exact X). replace (k_fin s0) with (k_fin s) by reflexivity.
      destruct (k_fin s); cbn [negb]; [|apply G; auto]. destruct (_ || _); [apply G; auto|].
      cbn [kS kR filter List.length] in C1, C2.
      assert (DNE : k_disp s <> []) by (intros Z; rewrite Z in VS; cbn in VS; lia).
      set (s2 := match k_reply s0 with [] => _ | _ => _ end).
      assert (E2 : k_queue s2 = k_queue s /\ k_infl s2 = k_infl s /\ k_tr s2 = k_tr s /\ k_user s2 = k_user s /\ k_exc s2 = false /\ k_done s2 = k_done s /\ k_reply s2 <> [] /\ k_flush s2 = k_flush s).
      { unfold s2. change (k_reply s0) with (k_reply s). destruct (k_reply s) eqn:RR; unfold s0, s1; krecs; repeat split; auto; congruence. }
      assert (L2 : tlive0 (tput_disp s2 [] (k_queue s2)) (tsince (k_tr s))).
      { unfold s2. change (k_reply s0) with (k_reply s). unfold s0, s1.
        destruct (k_disp s) as [|d0 dd] eqn:D; [congruence|]. cbn [ne List.length] in VS.
        destruct (k_reply s) as [|r0 rr] eqn:RE; krecs.
        - rewrite (VRQ eq_refl) in *. constructor; unfold io_part; krecs; rewrite ?IO, ?D, ?(VRQ eq_refl); cbn [ne List.length concat app busy got] in *; try assumption; try lia; try congruence; try auto.
          exists old, []. rewrite ?app_nil_r, ?Nat.add_0_r in *. auto.
        - constructor; unfold io_part; krecs; rewrite ?IO, ?D, ?RE; cbn [ne List.length concat app busy got] in *; try assumption; try lia; try congruence; try auto.
          + exists old, []. rewrite ?app_nil_r, ?Nat.add_0_r in *. auto.
          + rewrite concat_app, app_length. cbn [concat]. rewrite app_nil_r. cbn [List.length]. lia.
          + apply Forall_app. split; [assumption|]. constructor; [discriminate|constructor]. }
      assert (E10 : full s -> full (tput_disp s2 [] (k_queue s2))).
      { intros F. unfold full in *. krecs. replace (ne (k_reply s2) ++ k_rqueue s2 ++ ne []) with (ne (k_reply s) ++ k_rqueue s ++ ne (k_disp s)); [exact F|].
        cbn [ne]. rewrite app_nil_r. unfold s2. change (k_reply s0) with (k_reply s). destruct (k_reply s) eqn:RE; unfold s0, s1; krecs.
        - rewrite (VRQ eq_refl), !app_nil_r. reflexivity.
        - rewrite ?RE. destruct (k_disp s); [congruence|]. reflexivity. }
      destruct E2 as (E1 & E2 & E3 & E4 & E5 & E6 & E7 & E8). clearbody s2.
      assert (DF : k_done s = false) by (destruct (k_done s); [destruct DN as (Z & _); destruct (Z eq_refl); congruence|reflexivity]).
      assert (FF : flushing (k_user s) = false -> k_flush s = false).
      { intros Z. destruct (k_flush s); [|reflexivity]. destruct (DR eq_refl) as [Y|(Y & _)]; congruence. }
      set (s3 := tput_disp s2 [] (k_queue s2)) in *.
      assert (S3 : k_queue s3 = k_queue s /\ k_infl s3 = k_infl s /\ k_tr s3 = k_tr s /\ k_user s3 = k_user s /\ k_exc s3 = false /\ k_done s3 = k_done s /\ k_reply s3 <> [] /\ k_flush s3 = k_flush s /\ k_disp s3 = []) by (unfold s3; krecs; auto 10).
      clearbody s3. clear E1 E2 E3 E4 E5 E6 E7 E8 s2. destruct S3 as (E1 & E2 & E3 & E4 & E5 & E6 & E7 & E8 & E9).
      destruct O as (O1 & O2). destruct (want_write nr max s3) eqn:WW.
      * apply want_spec in WW. rewrite E1, E2, E8 in WW. destruct WW as (W1 & W2).
        apply live_tinv; try (rewrite twrite_eq; krecs; congruence).
        rewrite write_tr, E3.
        apply write_live; try assumption; rewrite ?E4, ?E1, ?E2, ?E8.
        -- destruct (k_queue s); [|discriminate]. destruct (k_flush s); cbn [List.length] in W1; lia.
        -- intros Z. rewrite (WK Z) in DF. discriminate.
        -- unfold bound in B. destruct (flushing (k_user s)); [lia|]. rewrite FF in * by reflexivity. tauto.
        -- destruct (flushing (k_user s)); [exact FL|exact I].
      * apply live_tinv; try congruence. rewrite E3. constructor; [exact L2|..]; unfold bound in *; rewrite ?E1, ?E2, ?E4, ?E6, ?E8, ?E9; auto.
        -- destruct (flushing (k_user s)); tauto.
        -- intros _. destruct (N.lt_ge_cases (k_infl s) max) as [Z|Z]; [|auto].
           destruct (k_flush s) eqn:FS.
           ++ left. destruct (k_queue s) as [|q0 qq] eqn:QU; [reflexivity|]. assert (Y : want_write nr max s3 = true) by (apply want_spec; rewrite E1, E2, E8; cbn [List.length]; lia). congruence.
           ++ right. right. split; [reflexivity|]. destruct (Nat.lt_ge_cases (List.length (k_queue s)) nr) as [Y|Y]; [exact Y|].
              assert (Y2 : want_write nr max s3 = true) by (apply want_spec; rewrite E1, E2, E8; auto). congruence.
        -- rewrite DF. split; [discriminate|intros (_ & Z); contradiction].
        -- intros F. destruct (DR F) as [Z|(Z & _)]; [auto|contradiction].
    + (* read_callback *)
      unfold tread_callback. replace (k_exc s1) with false by (symmetry; exact X). replace (k_fin s1) with (k_fin s) by reflexivity.
      destruct (k_fin s); cbn [negb]; [|apply G; auto].
      cbn [kS kR filter List.length] in C1, C2. destruct O as (O1 & O2).
      unfold s1. apply live_tinv; krecs; try congruence. constructor; krecs; try assumption.
      constructor; unfold io_part; krecs; cbn [busy got]; try assumption; try lia. exists old, []. rewrite Nat.add_0_r. auto.
  - (* header examined *)
    destruct (k_io s) as [|err n| | |] eqn:IO; try discriminate. injection ST as <-.
    assert (X : k_exc s = false) by (destruct (k_exc s); [destruct MO as (_ & Z & _); discriminate Z|reflexivity]). rewrite X in MO.
    unfold tread_header. destruct (_ || _).
    { replace (tsince _) with (tsince (k_tr s) ++ [TFail]) by (krecs; rewrite tsince_snoc; reflexivity). eapply store_tinv; eauto. }
    apply live_tinv; krecs; try (destruct O; congruence). destruct MO as [L0 B Q DN WK FL DR].
    constructor; unfold bound in *; krecs; try assumption. destruct L0. destruct v_old0 as (old & pre & C & R & K & P). unfold io_part in P. rewrite IO in *.
    constructor; unfold io_part; krecs; cbn [busy got] in *; try assumption. exists old, pre. auto.
  - (* a packet is checked *)
    destruct (k_io s) as [| | |[|p c]|] eqn:IO; try discriminate. injection ST as <-.
    assert (X : k_exc s = false) by (destruct (k_exc s); [destruct MO as (_ & Z & _); discriminate Z|reflexivity]). rewrite X in MO.
    unfold tcheck. set (s1 := tput_io (tsee s (TChecked p v)) (match c with [] => TEnd | _ => TCheck c end)).
    assert (T1 : tsince (k_tr s1) = tsince (k_tr s) ++ [TChecked p v]) by (unfold s1; krecs; apply tsince_snoc).
    assert (CO2 : common s1 (tsince (k_tr s) ++ [TChecked p v]) /\ (v = true -> tlive s1 (tsince (k_tr s) ++ [TChecked p v]))).
    { assert (H : forall V, let e2 := tsince (k_tr s) ++ [TChecked p V] in V = true -> tlive s1 e2).
      { intros V e2 ->. destruct MO as [L0 B Q DN WK FL DR]. constructor; unfold bound in *; unfold s1; krecs; try assumption.
        destruct L0. destruct v_old0 as (old & pre & C & R & K & P). unfold io_part in P. rewrite IO in *. destruct P as (_ & P).
        unfold e2. constructor; krecs; try assumption.
        - exists old, (pre ++ [p]). thist. rewrite map_app, K. cbn [map fst]. unfold io_part. krecs. rewrite Nat.add_0_r, <- app_assoc. cbn [got] in *.
          destruct c; cbn [got]; repeat split; auto; try discriminate; rewrite P, <- ?app_assoc; reflexivity.
        - destruct c; exact v_r0.
        - thist. apply Forall_app. split; [assumption|repeat constructor].
        - intros I. apply in_app_iff in I. destruct I as [I|[I|[]]]; [auto|discriminate]. }
      split; [|apply H]. assert (Y := live_common _ _ (H true eq_refl)). destruct Y as [Y1 Y2 Y3 Y4].
      constructor; unfold unanswered in *; thist; rewrite ?map_app in *; cbn [map fst] in *; assumption. }
    destruct CO2 as (CO2 & L2). destruct v.
    + rewrite T1. apply live_tinv; [apply L2; reflexivity|..]; unfold s1; krecs; try (destruct O; congruence).
    + replace (tsince _) with ((tsince (k_tr s) ++ [TChecked p false]) ++ [TFail]) by (krecs; rewrite !tsince_snoc; reflexivity).
      split; [apply common_snoc; [|exact I]; eapply common_same; [exact CO2|unfold s1; krecs; auto]|].
      apply mode_in; krecs; [exact O|]. split; [apply in_or_app; right; left; reflexivity|auto].
  - (* last section of read_callback *)
    destruct (k_io s) as [| | | |] eqn:IO; try discriminate. injection ST as <-.
    assert (X : k_exc s = false) by (destruct (k_exc s); [destruct MO as (_ & Z & _); discriminate Z|reflexivity]). rewrite X in MO.
    unfold tread_end. set (s1 := tput_infl _ _).
    destruct MO as [L0 B Q DN WK FL DR]. destruct L0 as [VO VI VS VR VRQ VNE VOK VNF]. destruct VO as (old & pre & C & R & K & P). unfold io_part in P. rewrite IO in *. cbn [busy got] in *. subst pre.
    assert (RN : k_reply s <> []) by (intros Z; rewrite Z in VR; cbn in VR; lia).
    assert (RL : List.length (ne (k_reply s)) = 1%nat /\ (1 <= List.length (k_reply s))%nat) by (destruct (k_reply s); [congruence|]; cbn; lia). destruct RL as (RL & RL1).
    assert (DF : k_done s = false) by (destruct (k_done s); [destruct DN as (Z & _); destruct (Z eq_refl); congruence|reflexivity]).
    assert (NW : k_user s <> UWake) by (intros Z; rewrite (WK Z) in DF; discriminate).
    assert (FF : flushing (k_user s) = false -> k_flush s = false).
    { intros Z. destruct (k_flush s); [|reflexivity]. destruct (DR eq_refl) as [Y|(_ & Y & _)]; congruence. }
    assert (IB : k_infl s <= max + N.of_nat nr) by (unfold bound in B; destruct (flushing (k_user s)); lia).
    assert (I1 : k_infl s1 = k_infl s - N.of_nat (List.length (k_reply s))) by (unfold s1; krecs; unfold sub32, W32 in *; lia).
    set (s2 := match k_rqueue s1 with [] => _ | _ => _ end).
    assert (E2 : k_queue s2 = k_queue s /\ k_infl s2 = k_infl s1 /\ k_tr s2 = k_tr s /\ k_user s2 = k_user s /\ k_exc s2 = false /\ k_done s2 = false /\ k_flush s2 = k_flush s /\ k_disp s2 = k_disp s).
    { unfold s2. change (k_rqueue s1) with (k_rqueue s). destruct (k_rqueue s); unfold s1; krecs; repeat split; auto. }
    assert (L2 : tlive0 s2 (tsince (k_tr s))).
    { unfold s2. change (k_rqueue s1) with (k_rqueue s). destruct (k_rqueue s) as [|c q] eqn:RQ.
      - constructor; unfold io_part; krecs; rewrite ?I1; unfold s1; krecs; rewrite ?IO; cbn [busy got ne app List.length concat] in *; try assumption; try lia; auto.
        exists (old ++ [k_reply s]), []. rewrite concat_app, app_length, ?app_nil_r. cbn [concat List.length]. rewrite !app_nil_r, Nat.add_0_r, <- app_assoc.
        destruct (k_reply s); [congruence|]. auto.
      - assert (CN : c <> []) by (inversion VNE; assumption). constructor; unfold io_part; krecs; rewrite ?I1; unfold s1; krecs; rewrite ?IO; cbn [busy got List.length concat] in *; rewrite ?app_length in *; try assumption; try lia; auto.
        + exists (old ++ [k_reply s]), []. rewrite concat_app, app_length, ?app_nil_r. cbn [concat List.length]. rewrite !app_nil_r, Nat.add_0_r, <- app_assoc.
          destruct (k_reply s); [congruence|]. destruct c; [congruence|]. auto.
        + destruct c; [congruence|]. cbn [ne List.length]. lia.
        + contradiction.
        + inversion VNE; assumption. }
    assert (E9 : ne (k_reply s2) ++ k_rqueue s2 = k_rqueue s).
    { unfold s2. change (k_rqueue s1) with (k_rqueue s). destruct (k_rqueue s) as [|c q]; krecs; [reflexivity|]. inversion VNE; subst. destruct c; [congruence|reflexivity]. }
    destruct E2 as (E1 & E2 & E3 & E4 & E5 & E6 & E7 & E8). rewrite I1 in E2. clearbody s2. clear s1 I1.
    assert (FU : flushing (k_user s) = false -> full s2).
    { intros Z. unfold bound in B. rewrite Z in B. destruct B as (_ & B). unfold full in *. rewrite app_assoc, E9, E8. apply Forall_app in B. tauto. }
    assert (B2 : bound s2).
    { unfold bound in *. rewrite E4, E2. destruct (flushing (k_user s)); [lia|]. split; [lia|auto]. }
    assert (FL2 : k_flush s2 = if flushing (k_user s2) then true else k_flush s2) by (rewrite E4, E7; exact FL).
    destruct O as (O1 & O2). destruct (k_disp s2) as [|d0 dd] eqn:D2.
    + destruct (want_write nr max s2) eqn:WW.
      * apply want_spec in WW. rewrite E1, E2, E7 in WW. destruct WW as (W1 & W2).
        assert (QN : k_queue s2 <> []) by (rewrite E1; destruct (k_queue s); [|discriminate]; destruct (k_flush s); cbn [List.length] in W1; lia).
        assert (CN := chunk_ne nr nr_pos s2 QN).
        assert (LW : tlive (twrite bytes nr zero s2) (tsince (k_tr s) ++ [TSent (chunk_of nr s2) (frame_of bytes (chunk_of nr s2))])).
        { apply write_live; try assumption; rewrite ?E4; try assumption.
          - unfold bound in B2. rewrite E4 in B2. destruct (flushing (k_user s)); [lia|]. rewrite FF in * by reflexivity. rewrite E7, E1, E2. auto.
          - destruct (flushing (k_user s)); [rewrite E7; exact FL|exact I]. }
        replace (k_disp (twrite bytes nr zero s2)) with (chunk_of nr s2) by (rewrite twrite_eq, D2; reflexivity).
        destruct (chunk_of nr s2) eqn:CC; [congruence|]. rewrite <- CC in *.
        apply live_tinv; try (rewrite twrite_eq; krecs; congruence).
        rewrite write_tr, E3.
        exact LW.
      * assert (Q2 : k_queue s2 = [] \/ max <= k_infl s2 \/ k_flush s2 = false /\ (List.length (k_queue s2) < nr)%nat).
        { destruct (N.lt_ge_cases (k_infl s2) max) as [Z|Z]; [|auto].
          destruct (k_flush s2) eqn:FS.
          - left. destruct (k_queue s2) as [|q0 qq] eqn:QU; [reflexivity|]. assert (Y : want_write nr max s2 = true) by (apply want_spec; rewrite FS, QU; cbn [List.length]; split; [lia|exact Z]). congruence.
          - right. right. split; [reflexivity|]. destruct (Nat.lt_ge_cases (List.length (k_queue s2)) nr) as [Y|Y]; [exact Y|].
            assert (Y2 : want_write nr max s2 = true) by (apply want_spec; rewrite FS; auto). congruence. }
        rewrite D2. destruct (k_reply s2) as [|r0 rr] eqn:R2.
        -- apply live_tinv; krecs; try congruence. rewrite E3. constructor; krecs; try assumption.
           ++ eapply live0_same; [exact L2|..]; reflexivity.
           ++ auto.
           ++ tauto.
           ++ auto.
           ++ rewrite E4, E7. intros F. destruct (flushing (k_user s)) eqn:FU2; [auto|]. rewrite FF in F by reflexivity. discriminate.
        -- apply live_tinv; try congruence. rewrite E3. constructor; try assumption.
           ++ auto.
           ++ rewrite E6, R2. split; [discriminate|intros (_ & Z); discriminate].
           ++ congruence.
           ++ rewrite E4, E7. intros F. destruct (flushing (k_user s)) eqn:FU2; [auto|]. rewrite FF in F by reflexivity. discriminate.
    + rewrite D2. apply live_tinv; try congruence. rewrite E3. constructor; try assumption.
      * rewrite D2. discriminate.
      * rewrite E6, D2. split; [discriminate|intros (Z & _); discriminate].
      * congruence.
      * rewrite E4, E7. intros F. destruct (flushing (k_user s)) eqn:FU2; [auto|]. rewrite FF in F by reflexivity. discriminate.
Qed.
End Inv.

Section Runs.
Variable bytes : pkt -> list N.
Variable room : pkt -> N.
Variable nr : nat.
Variable max : N.
Variable zero : bool.
Hypothesis nr_pos : (1 <= nr)%nat.
Hypothesis max_pos : 1 <= max.
Hypothesis max_mult : (N.of_nat nr | max).
Hypothesis small : max + 2 * N.of_nat nr < W32.

Lemma init_tinv : tinv nr max init_tcp (tsince (k_tr init_tcp)).
Proof.
  assert (L : tlive nr max init_tcp []).
  { constructor; unfold bound, full; cbn; auto; try (intros; discriminate).
    - constructor; cbn; auto. exists [], []. repeat split.
    - split; [lia|constructor].
    - tauto. }
  apply live_tinv; try assumption; try reflexivity; discriminate.
Qed.

Theorem tcp_inv : forall ls s s', krun bytes room nr max zero s ls = Some s' -> clean_handlers bytes room nr max zero s ls ->
  tinv nr max s (tsince (k_tr s)) -> tinv nr max s' (tsince (k_tr s')).
Proof.
  induction ls as [|l ls IH]; intros s s' R QH W; cbn [krun clean_handlers] in *; [injection R as <-; exact W|].
  destruct (kstep bytes room nr max zero s l) as [s1|] eqn:ST; [|discriminate]. destruct QH as (Q1 & Q2). eapply IH; [exact R|exact Q2|].
  eapply step_tinv; eassumption.
Qed.
End Runs.
