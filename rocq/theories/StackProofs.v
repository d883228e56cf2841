(** A client over a transport that keeps its packets in order behaves as a client
    over the abstract network of [Net.v]. *)
From Coq Require Import NArith ZArith List Lia Bool PeanoNat.
From Verif Require Import Word Bits Header ValMem Client Validate System Net Stack Prop_Frame.
Import ListNotations.

(** ** Discipline of a transport: it answers for the packets it was given in
    order, says nothing more after a failure until the exception is raised, and
    returns only when nothing is left. *)

(** Packets accepted and not yet answered, failure, Flush. *)
Record dst := mkD { d_pend : list nat; d_fail : bool; d_flush : bool }.

Definition dstep (d : dst) (v : tev) : option dst :=
  match v with
  | VHanded p => if d_fail d || d_flush d then None else Some (mkD (d_pend d ++ [p]) false false)
  | VFlush => if d_flush d then None else Some (mkD (d_pend d) (d_fail d) true)
  | VCheck p ok =>
      match d_fail d, d_pend d with
      | false, q :: t => if Nat.eqb p q then Some (if ok then mkD t false (d_flush d) else mkD (q :: t) true (d_flush d)) else None
      | _, _ => None
      end
  | VFail =>
      match d_fail d, d_pend d with
      | false, [] => None
      | _, _ => Some (mkD (d_pend d) true (d_flush d))
      end
  | VReturn =>
      match d_fail d, d_flush d, d_pend d with
      | false, true, [] => Some (mkD [] false false)
      | _, _, _ => None
      end
  | VThrow => if d_flush d && negb (d_fail d) then None else Some (mkD [] false false)
  end.
Fixpoint drun (d : dst) (vs : list tev) : option dst :=
  match vs with
  | [] => Some d
  | v :: t => match dstep d v with Some d' => drun d' t | None => None end
  end.
Definition init_d : dst := mkD [] false false.

Lemma drun_app d a b : drun d (a ++ b) = match drun d a with Some d' => drun d' b | None => None end.
Proof. revert d. induction a as [|v a IH]; intros d; cbn; [reflexivity|]. destruct (dstep d v); [apply IH|reflexivity]. Qed.

(** ** Simulation *)

(** Number of exceptions raised. *)
Definition throws (vs : list tev) : nat := length (filter (fun v => match v with VThrow => true | _ => false end) vs).
Lemma throws_app a b : throws (a ++ b) = (throws a + throws b)%nat.
Proof. unfold throws. rewrite filter_app, app_length. reflexivity. Qed.

Definition is_op (m : amode) : bool := match m with MOp => true | _ => false end.
Definition is_cut (m : amode) : bool := match m with MCut => true | _ => false end.
Definition is_flush (m : amode) : bool := match m with MFlush => true | _ => false end.

(** The packets with these numbers. *)
Definition are (bs : list buf) (ps : list nat) (q : list buf) : Prop := map (nth_error bs) ps = map Some q.

Definition same (a : half) (y : net) : Prop :=
  s_ctr (n_c y) = s_ctr (a_c a) /\ s_cur (n_c y) = s_cur (a_c a) /\ s_heap (n_c y) = s_heap (a_c a).

Record sim (a : half) (d : dst) (y : net) (k : nat) : Prop := {
  m_bad : n_bad y = a_bad a;
  m_flush : d_flush d = is_flush (a_mode a);
  m_todo : is_flush (a_mode a) = true -> a_todo a = [];
  m_main :
    same a y /\ are (a_bufs a) (d_pend d ++ a_todo a) (s_out (n_c y)) /\ n_fail y = d_fail d /\
    n_wait y = negb (is_op (a_mode a)) /\ n_doom y = is_cut (a_mode a) /\ n_exc y = k
    \/ a_mode a = MCut /\ d_fail d = true /\ n_c y = drop_all (a_c a) /\ n_fail y = false /\
       n_wait y = false /\ n_doom y = false /\ n_exc y = S k
}.

Lemma are_more bs e ps q : are bs ps q -> are (bs ++ e) (ps ++ seq (length bs) (length e)) (q ++ e).
Proof.
  unfold are. intros H. rewrite !map_app. f_equal.
  - rewrite <- H. apply map_ext_in. intros p I.
    assert (N : nth_error bs p <> None).
    { apply (in_map (nth_error bs)) in I. rewrite H in I. apply in_map_iff in I. destruct I as (b & <- & _). discriminate. }
    apply nth_error_app1. apply nth_error_Some. exact N.
  - clear. revert bs. induction e as [|x e IH]; intros bs; cbn [length seq map]; [reflexivity|].
    rewrite nth_error_app2 by lia. rewrite Nat.sub_diag. f_equal.
    specialize (IH (bs ++ [x])). rewrite app_length in IH. cbn [length] in IH. rewrite <- app_assoc in IH. cbn [app] in IH.
    rewrite Nat.add_1_r in IH. exact IH.
Qed.

Lemma nrun_app g y a b : nrun g y (a ++ b) = match nrun g y a with Some z => nrun g z b | None => None end.
Proof. revert y. induction a as [|l a IH]; intros y; cbn; [reflexivity|]. destruct (nstep g y l); [apply IH|reflexivity]. Qed.

(** The replies that reach the client in an execution of [Net.v], with the packets
    they are checked against. *)
Fixpoint nreplies (g : cfg) (y : net) (ls : list nlabel) : list (buf * list N) :=
  match ls with
  | [] => []
  | l :: t =>
      match l, s_out (n_c y) with NReply ws, b :: _ => [(b, ws)] | _, _ => [] end
      ++ match nstep g y l with Some y' => nreplies g y' t | None => [] end
  end.
Lemma nreplies_app g : forall a y b, nreplies g y (a ++ b) =
  nreplies g y a ++ match nrun g y a with Some z => nreplies g z b | None => [] end.
Proof.
  induction a as [|l a IH]; intros y b; cbn; [reflexivity|]. destruct (nstep g y l); [|rewrite !app_nil_r; reflexivity].
  rewrite IH, app_assoc. reflexivity.
Qed.

(** The same for the events of a step. *)
Definition echecks (bs : list buf) (vs : list tev) (ws : list N) : list (buf * list N) :=
  flat_map (fun v => match v with VCheck p _ => match nth_error bs p with Some b => [(b, ws)] | None => [] end | _ => [] end) vs.

Lemma aevent_bufs g a v ws a' : aevent g a v ws = Some a' -> a_bufs a' = a_bufs a.
Proof.
  intros A. destruct v; cbn [aevent] in A.
  - destruct (a_mode a), (a_todo a); try discriminate; destruct (Nat.eqb p n); try discriminate; injection A as <-; reflexivity.
  - destruct (a_mode a), (a_todo a); try discriminate; injection A as <-; reflexivity.
  - destruct (nth_error (a_bufs a) p); [|discriminate]. destruct (receive_packet g (s_heap (a_c a)) b ws). destruct (Bool.eqb v (accepts v0)); [|discriminate].
    injection A as <-. reflexivity.
  - injection A as <-. reflexivity.
  - destruct (a_mode a); try discriminate. injection A as <-. reflexivity.
  - destruct (a_mode a), (a_todo a); try discriminate; injection A as <-; reflexivity.
Qed.

(** One event. *)
Lemma sim_event g a d y k v ws a' d' : sim a d y k -> aevent g a v ws = Some a' -> dstep d v = Some d' ->
  exists ls y', nrun g y ls = Some y' /\ ncalls ls = [] /\ nreplies g y ls = echecks (a_bufs a) [v] ws /\ sim a' d' y' (k + throws [v]).
Proof.
  intros [B F TD M] A D. destruct v as [p| |p v| | |]; cbn [aevent dstep] in A, D.
  - (* handed *)
    exists [], y. split; [reflexivity|]. split; [reflexivity|]. split; [reflexivity|].
    destruct (d_fail d || d_flush d) eqn:DF; [discriminate|]. injection D as <-. apply orb_false_iff in DF. destruct DF as (DF1 & DF2).
    assert (E : exists t, a_todo a = p :: t /\ a' = mkHalf (a_c a) (a_bufs a) t (a_mode a) (a_bad a)).
    { destruct (a_mode a); try discriminate; destruct (a_todo a) as [|q t]; try discriminate;
        (destruct (Nat.eqb p q) eqn:PQ; [|discriminate]); apply Nat.eqb_eq in PQ; subst q; injection A as <-; exists t; auto. }
    destruct E as (t & E & ->). cbn [a_c a_bufs a_todo a_mode a_bad].
    destruct M as [(S0 & R & NF & W & DM & X)|(MC & DT & _)]; [|congruence].
    constructor; cbn [a_c a_bufs a_todo a_mode a_bad d_pend d_fail d_flush]; [exact B|congruence|intros Z; congruence|].
    left. split; [exact S0|]. split; [rewrite <- app_assoc; cbn [app]; rewrite <- E; exact R|].
    split; [congruence|]. split; [exact W|]. split; [exact DM|]. cbn. lia.
  - (* flush *)
    exists [], y. split; [reflexivity|]. split; [reflexivity|]. split; [reflexivity|].
    destruct (d_flush d) eqn:DF; [discriminate|]. injection D as <-.
    destruct (a_mode a) eqn:AM; try discriminate. destruct (a_todo a) eqn:AT; try discriminate. injection A as <-.
    destruct M as [(S0 & R & NF & W & DM & X)|(MC & _)]; [|discriminate].
    constructor; cbn [a_c a_bufs a_todo a_mode a_bad d_pend d_fail d_flush is_flush]; try reflexivity; [exact B|].
    left. split; [exact S0|]. split; [exact R|]. split; [exact NF|]. split; [exact W|]. split; [exact DM|]. cbn. lia.
  - (* check *)
    destruct (d_fail d) eqn:DF; [discriminate|]. destruct (d_pend d) as [|q t] eqn:DP; [discriminate|].
    destruct (Nat.eqb p q) eqn:PQ; [|discriminate]. apply Nat.eqb_eq in PQ. subst q.
    destruct M as [(S0 & R & NF & W & DM & X)|(MC & DT & _)]; [|congruence].
    unfold are in R. cbn [app map] in R. destruct (s_out (n_c y)) as [|b o] eqn:SO; [discriminate|]. cbn [map] in R. injection R as R1 R2.
    rewrite R1 in A. destruct S0 as (S1 & S2 & S3). destruct (receive_packet g (s_heap (a_c a)) b ws) as (h, r) eqn:RP.
    destruct (Bool.eqb v (accepts r)) eqn:V; [|discriminate]. apply eqb_prop in V. injection A as <-.
    exists [NReply ws]. destruct r as [|e|]; cbn [accepts] in V; subst v; injection D as <-.
    + eexists. split; [cbn [nrun nstep]; rewrite NF, SO, S3, RP; reflexivity|]. split; [reflexivity|]. split; [cbn; rewrite SO, R1, NF, S3, RP; reflexivity|].
      constructor; cbn; [rewrite orb_false_r; exact B|exact F|exact TD|].
      left. split; [split; [exact S1|split; [exact S2|reflexivity]]|]. split; [exact R2|]. repeat split; auto; lia.
    + eexists. split; [cbn [nrun nstep]; rewrite NF, SO, S3, RP; reflexivity|]. split; [reflexivity|]. split; [cbn; rewrite SO, R1, NF, S3, RP; reflexivity|].
      constructor; cbn; [rewrite orb_false_r; exact B|exact F|exact TD|].
      left. split; [split; [exact S1|split; [exact S2|reflexivity]]|]. split; [unfold are; rewrite SO; cbn [map]; rewrite R1, R2; reflexivity|]. repeat split; auto; lia.
    + eexists. split; [cbn [nrun nstep]; rewrite NF, SO, S3, RP; reflexivity|]. split; [reflexivity|]. split; [cbn; rewrite SO, R1, NF, S3, RP; reflexivity|].
      constructor; cbn; [rewrite orb_true_r; reflexivity|exact F|exact TD|].
      left. split; [split; [exact S1|split; [exact S2|reflexivity]]|]. split; [unfold are; rewrite SO; cbn [map]; rewrite R1, R2; reflexivity|]. repeat split; auto; lia.
  - (* failure *)
    injection A as <-. destruct (d_fail d) eqn:DF.
    + exists [], y. split; [reflexivity|]. split; [reflexivity|]. split; [reflexivity|]. injection D as <-.
      constructor; cbn [d_pend d_fail d_flush]; auto. cbn [throws filter length]. rewrite Nat.add_0_r.
      destruct M as [(S0 & R & NF & W & DM & X)|(MC & _ & M)]; [left|right]; tauto.
    + destruct (d_pend d) as [|p t] eqn:DP; [discriminate|]. injection D as <-.
      destruct M as [(S0 & R & NF & W & DM & X)|(MC & DT & _)]; [|congruence].
      exists [NLost]. assert (SO : s_out (n_c y) <> []) by (intros Z; unfold are in R; rewrite Z in R; discriminate).
      eexists. split; [cbn [nrun nstep]; destruct (s_out (n_c y)); [congruence|reflexivity]|]. split; [reflexivity|].
      split; [cbn; destruct (s_out (n_c y)); reflexivity|].
      constructor; cbn; auto. left. repeat split; try apply S0; auto; lia.
  - (* return *)
    destruct (d_fail d) eqn:DF; [discriminate|]. destruct (d_flush d) eqn:DL; [|discriminate]. destruct (d_pend d) eqn:DP; [|discriminate].
    injection D as <-. destruct (a_mode a) eqn:AM; try discriminate. injection A as <-.
    destruct M as [(S0 & R & NF & W & DM & X)|(MC & DT & _)]; [|discriminate].
    exists [NReturn]. assert (SO : s_out (n_c y) = []) by (unfold are in R; rewrite (TD eq_refl) in R; destruct (s_out (n_c y)); [reflexivity|discriminate]).
    eexists. split; [cbn [nrun nstep]; rewrite W, NF, DM, SO; reflexivity|]. split; [reflexivity|].
    split; [cbn; destruct (n_wait y && negb (n_fail y) && negb (n_doom y)); [destruct (s_out (n_c y))|]; reflexivity|].
    constructor; cbn; auto; try discriminate. left. repeat split; try apply S0; auto; try lia. unfold are. rewrite SO. reflexivity.
  - (* exception *)
    destruct (d_flush d && negb (d_fail d)) eqn:DF; [discriminate|]. injection D as <-.
    assert (E : a' = mkHalf (drop_all (a_c a)) (a_bufs a) [] MOp (a_bad a) /\ (a_mode a = MFlush \/ a_mode a = MCut)).
    { destruct (a_mode a); try discriminate; destruct (a_todo a); try discriminate; injection A as <-; auto. }
    destruct E as (-> & AM). destruct M as [(S0 & R & NF & W & DM & X)|(MC & DT & N1 & N2 & N3 & N4 & N5)].
    + exists [NThrow]. eexists. split.
      { cbn [nrun nstep]. rewrite W, NF, DM. destruct AM as [AM|AM]; rewrite AM in *; cbn [is_op is_cut is_flush negb andb orb] in *.
        - rewrite F in DF. cbn in DF. destruct (d_fail d); [reflexivity|discriminate].
        - rewrite orb_true_r. reflexivity. }
      split; [reflexivity|]. split; [cbn; destruct (n_wait y && (n_fail y || n_doom y)); reflexivity|]. constructor; cbn; auto; try discriminate. left.
      split; [unfold same; cbn; destruct S0 as (_ & _ & S3); auto|]. repeat split; auto; lia.
    + exists [], y. split; [reflexivity|]. split; [reflexivity|]. split; [reflexivity|]. constructor; cbn; auto; try discriminate. left.
      split; [unfold same; rewrite N1; cbn; auto|]. rewrite N1. repeat split; auto. lia.
Qed.

Lemma sim_events g ws : forall vs a d y k a' d', sim a d y k -> aevents g a vs ws = Some a' -> drun d vs = Some d' ->
  exists ls y', nrun g y ls = Some y' /\ ncalls ls = [] /\ nreplies g y ls = echecks (a_bufs a) vs ws /\ sim a' d' y' (k + throws vs).
Proof.
  induction vs as [|v vs IH]; intros a d y k a' d' S0 A D; cbn [aevents drun] in A, D.
  - injection A as <-. injection D as <-. exists [], y. split; [reflexivity|]. split; [reflexivity|]. split; [reflexivity|]. rewrite Nat.add_0_r. exact S0.
  - destruct (aevent g a v ws) as [a1|] eqn:A1; [|discriminate]. destruct (dstep d v) as [d1|] eqn:D1; [|discriminate].
    destruct (sim_event _ _ _ _ _ _ _ _ _ S0 A1 D1) as (l1 & y1 & R1 & C1 & P1 & S1).
    destruct (IH _ _ _ _ _ _ S1 A D) as (l2 & y2 & R2 & C2 & P2 & S2). exists (l1 ++ l2), y2.
    split; [rewrite nrun_app, R1; exact R2|]. split; [unfold ncalls in *; rewrite flat_map_app, C1, C2; reflexivity|].
    split; [rewrite nreplies_app, R1, P1, P2, (aevent_bufs _ _ _ _ _ A1); change (v :: vs) with ([v] ++ vs); unfold echecks; rewrite flat_map_app; reflexivity|].
    change (v :: vs) with ([v] ++ vs). rewrite throws_app, Nat.add_assoc. exact S2.
Qed.

(** A call. *)
Definition callop (o : option op) : list op := match o with Some o => [o] | None => [] end.

Lemma sim_call g f a d y k o cut a' : sim a d y k -> acall g f a o cut = Some a' -> f = d_fail d ->
  exists ls y', nrun g y ls = Some y' /\ ncalls ls = callop o /\ nreplies g y ls = [] /\ sim a' d y' k.
Proof.
  intros [B F TD M] A E. subst f. unfold acall in A. destruct (outside a) eqn:OUT; [|discriminate]. cbn [negb] in A.
  unfold outside in OUT. destruct (a_mode a) eqn:AM; try discriminate. destruct (a_todo a) eqn:AT; [|discriminate].
  destruct M as [(S0 & R & NF & W & DM & X)|(MC & _)]; [|discriminate].
  cbn [is_op is_cut is_flush negb] in *. rewrite app_nil_r in R. destruct S0 as (S1 & S2 & S3).
  destruct (d_fail d && match cut with Some (S _) => true | _ => false end) eqn:CUT; [discriminate|].
  set (b := if d_fail d then Some 0%nat else cut) in *.
  set (s0 := mkSt (s_ctr (a_c a)) (s_cur (a_c a)) (s_heap (a_c a)) [] b) in *.
  set (z0 := mkSt (s_ctr (n_c y)) (s_cur (n_c y)) (s_heap (n_c y)) (s_out (n_c y)) b).
  assert (RL : rel (s_heap (a_c a)) (s_heap (a_c a)) (s_out (n_c y)) [] z0 s0).
  { exists (s_ctr (a_c a)), (s_cur (a_c a)), [], [], b. unfold z0, s0. rewrite S1, S2, S3, !app_nil_r. auto. }
  assert (ZN : cut = None -> set_budget (n_c y) (n_fail y) = z0).
  { intros ->. unfold set_budget, z0, b. rewrite NF. destruct (d_fail d); reflexivity. }
  assert (ZF : d_fail d = true -> set_budget (n_c y) (n_fail y) = z0).
  { intros Z. unfold set_budget, z0, b. rewrite NF, Z. reflexivity. }
  assert (ZC : forall n, cut = Some n -> d_fail d = false -> cut_budget (n_c y) n = z0).
  { intros n -> Z. unfold cut_budget, z0, b. rewrite Z. reflexivity. }
  (* the state after an accepted call *)
  assert (OKQ : forall s s' m w, rel (s_heap (a_c a)) (s_heap (a_c a)) (s_out (n_c y)) [] s s' -> m <> MFlush -> m <> MCut -> w = negb (is_op m) ->
    sim (queue a s' m) d (mkNet s (n_fail y) w (n_bad y) (n_base y) (n_exc y) (n_doom y)) k).
  { intros s s' m w (ctr & cur & h & e & kk & -> & ->) N1 N2 ->. constructor; cbn; auto.
    - destruct m; cbn; congruence.
    - destruct m; cbn; congruence.
    - left. split; [repeat split|]. split; [apply are_more, R|]. repeat split; auto. rewrite DM. destruct m; cbn; congruence. }
  (* a call cut short, no failure stored before *)
  assert (CUTQ : forall s s', rel (s_heap (a_c a)) (s_heap (a_c a)) (s_out (n_c y)) [] s s' -> d_fail d = false ->
    sim (queue a s' MCut) d (mkNet s false true (n_bad y) (n_base y) (n_exc y) true) k).
  { intros s s' (ctr & cur & h & e & kk & -> & ->) DF. constructor; cbn; auto; try discriminate.
    left. split; [repeat split|]. split; [apply are_more, R|]. repeat split; auto. }
  (* a call refused at once *)
  assert (REFQ : forall s s', rel (s_heap (a_c a)) (s_heap (a_c a)) (s_out (n_c y)) [] s s' -> d_fail d = true ->
    sim (queue a s' MCut) d (mkNet (drop_all s) false false (n_bad y) (length (s_heap s)) (S (n_exc y)) false) k).
  { intros s s' (ctr & cur & h & e & kk & -> & ->) DF. constructor; cbn; auto; try discriminate.
    right. repeat split; auto. }
  assert (BRK : sim (broken a) d (mkNet (n_c y) (n_fail y) false true (n_base y) (n_exc y) (n_doom y)) k).
  { constructor; cbn; rewrite ?AM; auto. left. split; [repeat split; assumption|]. split; [rewrite AT, app_nil_r; exact R|].
    repeat split; auto. }
  assert (NR : forall l, match l with NReply _ => False | _ => True end -> nreplies g y [l] = []) by (intros [] L; try contradiction; cbn [nreplies]; match goal with |- context [nstep ?a ?b ?c] => destruct (nstep a b c) end; reflexivity).
  destruct o as [o|].
  - assert (RR := rres_op (s_heap (a_c a)) (s_heap (a_c a)) (s_out (n_c y)) [] eq_refl g z0 s0 o RL).
    destruct (run_op g s0 o) as [s' r'|s' e'|] eqn:RO; destruct (run_op g z0 o) as [s r|s e|] eqn:RZ; cbn [rres] in RR; try contradiction.
    + destruct RR as (RR & _). destruct cut as [n|]; [discriminate|]. injection A as <-.
      exists [NOp o]. eexists. split; [cbn [nrun nstep]; rewrite W, ZN, RZ by reflexivity; reflexivity|]. split; [reflexivity|]. split; [apply NR; exact I|].
      apply OKQ; [exact RR|discriminate|discriminate|reflexivity].
    + destruct RR as (RR & ->). destruct cut as [n|].
      * destruct e'; try discriminate. injection A as <-. destruct (d_fail d) eqn:DF.
        -- exists [NOp o]. eexists. split; [cbn [nrun nstep]; rewrite W, ZF, RZ by reflexivity; reflexivity|]. split; [reflexivity|]. split; [apply NR; exact I|].
           apply REFQ; [exact RR|reflexivity].
        -- exists [NCut (Some o) n]. eexists. split; [cbn [nrun nstep]; rewrite W, NF; cbn [orb]; rewrite (ZC n eq_refl eq_refl), RZ; reflexivity|]. split; [reflexivity|]. split; [apply NR; exact I|].
           apply CUTQ; [exact RR|reflexivity].
      * assert (E2 : a' = queue a s' MOp /\ e' <> ETransport) by (destruct e'; try discriminate; injection A as <-; split; congruence).
        destruct E2 as (-> & NE). exists [NOp o]. eexists. split; [cbn [nrun nstep]; rewrite W, ZN, RZ by reflexivity; destruct e'; try congruence; reflexivity|].
        split; [reflexivity|]. split; [apply NR; exact I|]. apply OKQ; [exact RR|discriminate|discriminate|reflexivity].
    + destruct cut as [n|]; [discriminate|]. injection A as <-.
      exists [NOp o]. eexists. split; [cbn [nrun nstep]; rewrite W, ZN, RZ by reflexivity; reflexivity|]. split; [reflexivity|]. split; [apply NR; exact I|]. exact BRK.
  - destruct (s_cur (a_c a)) as [cb|] eqn:CU.
    2:{ destruct cut; [discriminate|]. injection A as <-. exists [NDispatch], y. split; [cbn [nrun nstep]; rewrite W, S2; reflexivity|].
        split; [reflexivity|]. split; [apply NR; exact I|]. constructor; rewrite ?AM; auto. left. split; [repeat split; congruence|]. split; [rewrite AT, app_nil_r; exact R|]. auto. }
    assert (RR := rres_dispatch (s_heap (a_c a)) (s_heap (a_c a)) (s_out (n_c y)) [] g z0 s0 RL).
    destruct (dispatch_send g s0) as [s' r'|s' e'|] eqn:RO; destruct (dispatch_send g z0) as [s r|s e|] eqn:RZ; cbn [rres] in RR; try contradiction.
    + destruct RR as (RR & _). destruct cut as [n|]; [discriminate|]. injection A as <-.
      exists [NDispatch]. eexists. split; [cbn [nrun nstep]; rewrite W, S2, ZN, RZ by reflexivity; reflexivity|]. split; [reflexivity|]. split; [apply NR; exact I|].
      apply OKQ; [exact RR|discriminate|discriminate|reflexivity].
    + destruct RR as (RR & ->). destruct cut as [n|]; [|discriminate]. injection A as <-. destruct (d_fail d) eqn:DF.
      * exists [NDispatch]. eexists. split; [cbn [nrun nstep]; rewrite W, S2, ZF, RZ by reflexivity; reflexivity|]. split; [reflexivity|]. split; [apply NR; exact I|].
        apply REFQ; [exact RR|reflexivity].
      * assert (e' = ETransport) as -> by (unfold dispatch_send, send_current in RO; destruct (s_cur s0) as [b1|]; [|discriminate]; destruct (predispatch g b1); [|discriminate]; destruct (s_budget s0) as [[|]|]; try discriminate; congruence).
        exists [NCut None n]. eexists. split; [cbn [nrun nstep]; rewrite W, NF; cbn [orb]; rewrite (ZC n eq_refl eq_refl), RZ; reflexivity|]. split; [reflexivity|]. split; [apply NR; exact I|].
        apply CUTQ; [exact RR|reflexivity].
    + destruct cut as [n|]; [discriminate|]. injection A as <-.
      exists [NDispatch]. eexists. split; [cbn [nrun nstep]; rewrite W, S2, ZN, RZ by reflexivity; reflexivity|]. split; [reflexivity|]. split; [apply NR; exact I|]. exact BRK.
Qed.

Lemma sim_init : sim init_half init_d init_net 0.
Proof. constructor; cbn; auto; try discriminate. left. repeat split. Qed.
