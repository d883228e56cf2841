(** What a client has checked when dispatch() returns is what was sent, in order. *)
From Coq Require Import NArith ZArith List Bool Lia PeanoNat.
From Verif Require Import Word.
From Verif Require Client Validate System Net.
From Verif Require Import Udp UdpProofs Tcp TcpProofs TcpProofs2.
From Verif Require Stack StackProofs StackRun.
Import Stack StackProofs StackRun.
Import ListNotations.

Ltac grow1 := first [exists []; split; [symmetry; apply app_nil_r|] | eexists; split; [rewrite <- ?app_assoc; reflexivity|]].
Ltac grow := grow1; cbn [In app]; solve [intuition (try discriminate; auto)].

(** ** Histories only grow; an exception or a return is all that happens in its step *)
Lemma utr_grows max zero s l s' : ustep max zero s l = Some s' -> exists new, u_tr s' = u_tr s ++ new /\
  (In OThrow new -> new = [OThrow]) /\ (In OReturn new -> new = [OReturn] /\ l = LFlushed).
Proof.
  intros ST. unfold ustep in ST. destruct (u_ub s); [discriminate|].
  destruct l; repeat (match type of ST with
     | match ?x with _ => _ end = Some _ => destruct x eqn:?; try discriminate
     | (if ?x then _ else _) = Some _ => destruct x eqn:?; try discriminate end); injection ST as <-; try solve [recs; grow].
  all: try (unfold handler, implement_dispatch, write_callback, read_callback, read_middle, read_end, check_deadline; recs).
  all: repeat (match goal with |- context [match ?x with _ => _ end] => match x with context [match _ with _ => _ end] => fail 1 | _ => destruct x eqn:? end end; recs; try solve [grow]).
Qed.

Lemma ktr_grows bytes room nr max zero s l s' : kstep bytes room nr max zero s l = Some s' -> exists new, k_tr s' = k_tr s ++ new /\
  (In TThrow new -> new = [TThrow]) /\ (In TReturn new -> new = [TReturn] /\ l = KFlushed).
Proof.
  intros ST. unfold kstep in ST.
  destruct l; repeat (match type of ST with
     | match ?x with _ => _ end = Some _ => destruct x eqn:?; try discriminate
     | (if ?x then _ else _) = Some _ => destruct x eqn:?; try discriminate end); injection ST as <-; try solve [krecs; grow].
  all: try (unfold thandler, timplement_dispatch, want_write, twrite_callback, tread_callback, tread_header, tread_body, tcheck, tread_end, tcheck_deadline, tflush, twrite; krecs).
  all: repeat (match goal with |- context [match ?x with _ => _ end] => match x with context [match _ with _ => _ end] => fail 1 | _ => destruct x eqn:? end end; krecs; try solve [grow]).
Qed.

(** ** Checks *)
Definition pchecks (vs : list tev) : list nat := flat_map (fun v => match v with VCheck p _ => [p] | _ => [] end) vs.
Lemma pchecks_app a b : pchecks (a ++ b) = pchecks a ++ pchecks b.
Proof. apply flat_map_app. Qed.

Section Wire.
Variables (T L : Type).
Variable tstep : T -> L -> option T.
Variable passes : T -> L -> T -> list tev.
Variable away : T -> bool.
Variable failed : T -> bool.
Variable g : Client.cfg.
Notation sstep := (sstep T L tstep passes away failed g).
Notation srun := (srun T L tstep passes away failed g).
Notation passed := (passed T L tstep passes away failed g).
Notation schecks := (schecks T L tstep passes away failed g).

Lemma acall_bufs f a o cut a' : acall g f a o cut = Some a' -> exists r, a_bufs a' = a_bufs a ++ r.
Proof using.
  clear. intros A. unfold acall in A. destruct (negb (outside a)); [discriminate|]. destruct (f && _); [discriminate|].
  assert (Z : exists r, a_bufs a = a_bufs a ++ r) by (exists []; symmetry; apply app_nil_r).
  destruct o as [o|].
  - destruct (Client.run_op g _ o) as [s r|s []|], cut; try discriminate; injection A as <-; cbn; eauto.
  - destruct (Client.s_cur (a_c a)); [|destruct cut; [discriminate|]; injection A as <-; exact Z].
    destruct (Client.dispatch_send g _) as [s r|s e|], cut; try discriminate; injection A as <-; cbn; eauto.
Qed.
Lemma sstep_bufs k l k' : sstep k l = Some k' -> exists r, a_bufs (k_half k') = a_bufs (k_half k) ++ r.
Proof using.
  intros ST. destruct l as [o cut|l ws]; cbn [Stack.sstep] in ST.
  - destruct (away (k_trans k)); [|discriminate]. destruct (acall _ _ _ _ _) eqn:A; [|discriminate]. injection ST as <-. apply (acall_bufs _ _ _ _ _ A).
  - destruct (tstep _ _); [|discriminate]. destruct (aevents _ _ _ _) eqn:A; [|discriminate]. injection ST as <-. exists []. rewrite app_nil_r. apply (aevents_bufs _ _ _ _ _ A).
Qed.
Lemma srun_bufs : forall ls k k', srun k ls = Some k' -> exists r, a_bufs (k_half k') = a_bufs (k_half k) ++ r.
Proof using.
  induction ls as [|l ls IH]; intros k k' R; cbn [Stack.srun] in R; [injection R as <-; exists []; symmetry; apply app_nil_r|].
  destruct (sstep k l) as [z|] eqn:ST; [|discriminate]. destruct (sstep_bufs _ _ _ ST) as (r1 & E1). destruct (IH _ _ R) as (r2 & E2).
  exists (r1 ++ r2). rewrite E2, E1, app_assoc. reflexivity.
Qed.

Lemma events_checks ws : forall vs a a' r, aevents g a vs ws = Some a' ->
  map (fun c => Some (fst c)) (echecks (a_bufs a) vs ws) = map (nth_error (a_bufs a ++ r)) (pchecks vs).
Proof using.
  induction vs as [|v vs IH]; intros a a' r A; cbn [aevents] in A; [reflexivity|].
  destruct (aevent g a v ws) as [a1|] eqn:A1; [|discriminate]. assert (E := aevent_bufs _ _ _ _ _ A1).
  specialize (IH a1 a' r A). rewrite E in IH. unfold echecks, pchecks in *. cbn [flat_map]. rewrite !map_app, IH. f_equal.
  destruct v; try reflexivity. cbn [aevent] in A1. destruct (nth_error (a_bufs a) p) eqn:NT; [|discriminate].
  cbn. rewrite nth_error_app1 by (apply nth_error_Some; congruence). rewrite NT. reflexivity.
Qed.

Lemma run_checks : forall ls k k', srun k ls = Some k' ->
  map (fun c => Some (fst c)) (schecks k ls) = map (nth_error (a_bufs (k_half k'))) (pchecks (passed k ls)).
Proof using.
  induction ls as [|l ls IH]; intros k k' R; cbn [Stack.srun Stack.passed StackRun.schecks] in *; [reflexivity|].
  destruct (sstep k l) as [z|] eqn:ST; [|discriminate]. rewrite map_app, pchecks_app, map_app, (IH _ _ R). f_equal.
  destruct l as [o cut|l ws]; [reflexivity|]. cbn [Stack.sstep] in ST. destruct (tstep (k_trans k) l) as [t|]; [|discriminate].
  destruct (aevents _ _ _ _) as [a|] eqn:A; [|discriminate]. injection ST as <-. cbn [k_trans].
  destruct (srun_bufs _ _ _ R) as (r & E). rewrite E. cbn [k_half]. rewrite (aevents_bufs _ _ _ _ _ A). apply (events_checks _ _ _ _ _ A).
Qed.

(** The history of the transport. *)
Variable O : Type.
Variable tr : T -> list O.
Variable ev : O -> list tev.
Variable fl : L -> list tev.
Hypothesis PS : forall t l t', passes t l t' = fl l ++ flat_map ev (skipn (List.length (tr t)) (tr t')).
Hypothesis FL : forall l, fl l = [] \/ fl l = [VFlush].
Hypothesis GR : forall t l t', tstep t l = Some t' -> exists new, tr t' = tr t ++ new.

Lemma run_trace : forall ls k k', srun k ls = Some k' -> exists new, tr (k_trans k') = tr (k_trans k) ++ new /\
  pchecks (passed k ls) = pchecks (flat_map ev new) /\ throws (passed k ls) = throws (flat_map ev new).
Proof using PS FL GR.
  induction ls as [|l ls IH]; intros k k' R; cbn [Stack.srun Stack.passed] in *.
  { injection R as <-. exists []. split; [symmetry; apply app_nil_r|split; reflexivity]. }
  destruct (sstep k l) as [z|] eqn:ST; [|discriminate]. destruct (IH _ _ R) as (n2 & E2 & C2 & T2). clear IH.
  destruct l as [o cut|l ws]; cbn [Stack.sstep] in ST.
  - destruct (away (k_trans k)); [|discriminate]. destruct (acall _ _ _ _ _); [|discriminate]. injection ST as <-. exists n2. auto.
  - destruct (tstep (k_trans k) l) as [t|] eqn:TS; [|discriminate]. destruct (aevents _ _ _ _) as [a|] eqn:A; [|discriminate]. injection ST as <-. cbn [k_trans] in *.
    destruct (GR _ _ _ TS) as (n1 & E1). exists (n1 ++ n2). split; [rewrite E2, E1, app_assoc; reflexivity|].
    rewrite PS, E1, !pchecks_app, !throws_app, flat_map_app, pchecks_app, throws_app, C2, T2.
    replace (skipn (List.length (tr (k_trans k))) (tr (k_trans k) ++ n1)) with n1 by (symmetry; clear; induction (tr (k_trans k)); cbn; auto).
    destruct (FL l) as [-> | ->]; cbn; auto.
Qed.
End Wire.

(** ** UDP *)
Lemma udp_trans max zero g : forall ls k k',
  srun _ _ (ustep max zero) udp_passes udp_away u_exc g k ls = Some k' -> urun max zero (k_trans k) (trans_of ls) = Some (k_trans k').
Proof.
  induction ls as [|l ls IH]; intros k k' R; cbn [srun] in R; [injection R as <-; reflexivity|].
  destruct (sstep _ _ _ _ _ _ _ k l) as [z|] eqn:ST; [|discriminate]. specialize (IH _ _ R). destruct l as [o cut|l ws]; cbn [sstep] in ST.
  - destruct (udp_away (k_trans k)); [|discriminate]. destruct (acall _ _ _ _ _); [|discriminate]. injection ST as <-. exact IH.
  - destruct (ustep max zero (k_trans k) l) as [t|] eqn:TS; [|discriminate]. destruct (aevents _ _ _ _); [|discriminate]. injection ST as <-.
    cbn [trans_of flat_map app urun]. rewrite TS. exact IH.
Qed.
Definition calm (s : ust) (l : ulabel) : Prop := l = LHandler -> u_user s = UH2 -> quiet s.
Lemma udp_calm max zero g : forall ls k k',
  srun _ _ (ustep max zero) udp_passes udp_away u_exc g k ls = Some k' ->
  sgood _ _ (ustep max zero) udp_passes udp_away u_exc g calm k ls <-> quiet_handlers max zero (k_trans k) (trans_of ls).
Proof.
  induction ls as [|l ls IH]; intros k k' R; cbn [srun sgood] in *; [cbn; tauto|].
  destruct (sstep _ _ _ _ _ _ _ k l) as [z|] eqn:ST; [|discriminate]. specialize (IH _ _ R). destruct l as [o cut|l ws]; cbn [sstep] in ST.
  - destruct (udp_away (k_trans k)); [|discriminate]. destruct (acall _ _ _ _ _); [|discriminate]. injection ST as <-. cbn [k_trans] in IH. cbn [trans_of flat_map app]. unfold trans_of in IH. tauto.
  - destruct (ustep max zero (k_trans k) l) as [t|] eqn:TS; [|discriminate]. destruct (aevents _ _ _ _); [|discriminate]. injection ST as <-.
    cbn [trans_of flat_map app quiet_handlers]. rewrite TS. cbn [k_trans] in IH. unfold trans_of in IH. unfold calm. tauto.
Qed.

Lemma since_more : forall new tr, throws (flat_map udp_event new) = 0%nat -> since_throw (tr ++ new) = since_throw tr ++ new.
Proof.
  induction new as [|o new IH]; intros tr H; [rewrite !app_nil_r; reflexivity|].
  cbn [flat_map] in H. rewrite throws_app in H. change (o :: new) with ([o] ++ new). rewrite app_assoc, IH by lia. rewrite since_snoc.
  destruct o; cbn [udp_event] in H; try (rewrite <- app_assoc; reflexivity). cbn in H. lia.
Qed.
Lemma pchecks_udp e : pchecks (flat_map udp_event e) = map c_pkt (checks e).
Proof. induction e as [|o e IH]; [reflexivity|]. cbn [flat_map]. rewrite pchecks_app, IH. destruct o; reflexivity. Qed.

(** ** TCP *)
Lemma tcp_trans bytes room nr max zero g : forall ls k k',
  srun _ _ (kstep bytes room nr max zero) tcp_passes tcp_away k_exc g k ls = Some k' -> krun bytes room nr max zero (k_trans k) (trans_of ls) = Some (k_trans k').
Proof.
  induction ls as [|l ls IH]; intros k k' R; cbn [srun] in R; [injection R as <-; reflexivity|].
  destruct (sstep _ _ _ _ _ _ _ k l) as [z|] eqn:ST; [|discriminate]. specialize (IH _ _ R). destruct l as [o cut|l ws]; cbn [sstep] in ST.
  - destruct (tcp_away (k_trans k)); [|discriminate]. destruct (acall _ _ _ _ _); [|discriminate]. injection ST as <-. exact IH.
  - destruct (kstep bytes room nr max zero (k_trans k) l) as [t|] eqn:TS; [|discriminate]. destruct (aevents _ _ _ _); [|discriminate]. injection ST as <-.
    cbn [trans_of flat_map app krun]. rewrite TS. exact IH.
Qed.
Definition tcalm (s : tcp) (l : tlab) : Prop := l = KHandler -> k_user s = UH2 -> tclean s.
Lemma tcp_calm bytes room nr max zero g : forall ls k k',
  srun _ _ (kstep bytes room nr max zero) tcp_passes tcp_away k_exc g k ls = Some k' ->
  sgood _ _ (kstep bytes room nr max zero) tcp_passes tcp_away k_exc g tcalm k ls <-> clean_handlers bytes room nr max zero (k_trans k) (trans_of ls).
Proof.
  induction ls as [|l ls IH]; intros k k' R; cbn [srun sgood] in *; [cbn; tauto|].
  destruct (sstep _ _ _ _ _ _ _ k l) as [z|] eqn:ST; [|discriminate]. specialize (IH _ _ R). destruct l as [o cut|l ws]; cbn [sstep] in ST.
  - destruct (tcp_away (k_trans k)); [|discriminate]. destruct (acall _ _ _ _ _); [|discriminate]. injection ST as <-. cbn [k_trans] in IH. cbn [trans_of flat_map app]. unfold trans_of in IH. tauto.
  - destruct (kstep bytes room nr max zero (k_trans k) l) as [t|] eqn:TS; [|discriminate]. destruct (aevents _ _ _ _); [|discriminate]. injection ST as <-.
    cbn [trans_of flat_map app clean_handlers]. rewrite TS. cbn [k_trans] in IH. unfold trans_of in IH. unfold tcalm. tauto.
Qed.

Lemma tsince_more : forall new tr, throws (flat_map tcp_event new) = 0%nat -> tsince (tr ++ new) = tsince tr ++ new.
Proof.
  induction new as [|o new IH]; intros tr H; [rewrite !app_nil_r; reflexivity|].
  cbn [flat_map] in H. rewrite throws_app in H. change (o :: new) with ([o] ++ new). rewrite app_assoc, IH by lia. rewrite tsince_snoc.
  destruct o; cbn [tcp_event] in H; try (rewrite <- app_assoc; reflexivity). cbn in H. lia.
Qed.
Lemma pchecks_tcp e : pchecks (flat_map tcp_event e) = map fst (tchecks e).
Proof. induction e as [|o e IH]; [reflexivity|]. cbn [flat_map]. rewrite pchecks_app, IH. destruct o; reflexivity. Qed.
