(** Invariant of the UDP transport. *)
From Coq Require Import NArith ZArith List Bool Lia PeanoNat ZifyBool ZifyNat ZifyN.
From Verif Require Import Word Udp.
Import ListNotations.
Open Scope N_scope.
Ltac Zify.zify_post_hook ::= Z.div_mod_to_equations.

(** ** Specification: functions of the history *)

(** The events after the last exception. *)
Definition since_throw (tr : list obs) : list obs :=
  fold_left (fun acc o => match o with OThrow => [] | _ => acc ++ [o] end) tr [].

(** Packets handed over, packets sent, datagrams received, checks made. *)
Definition handed (e : list obs) : list pkt := flat_map (fun o => match o with OHanded p => [p] | _ => [] end) e.
Definition sents (e : list obs) : list pkt := flat_map (fun o => match o with OSent p => [p] | _ => [] end) e.
Definition recvd (e : list obs) : list dgram := flat_map (fun o => match o with ORecv d => [d] | _ => [] end) e.
Definition checks (e : list obs) : list (pkt * dgram * bool) :=
  flat_map (fun o => match o with OCheck p d v => [(p, d, v)] | _ => [] end) e.

Definition prefix {A} (l m : list A) : Prop := exists r, m = l ++ r.

(** An execution in which all callbacks outstanding when an exception is handled
    have run before the handler clears the stored exception (line 476). *)
Definition quiet (s : ust) : Prop := u_acts s = O /\ u_actr s = O /\ u_rdy s = [] /\ u_io s = IOIdle.
Fixpoint quiet_handlers (max : N) (zero : bool) (s : ust) (ls : list ulabel) : Prop :=
  match ls with
  | [] => True
  | l :: t => (l = LHandler -> u_user s = UH2 -> quiet s) /\
              match ustep max zero s l with Some s' => quiet_handlers max zero s' t | None => True end
  end.

(** ** Invariant *)

Definition c_pkt (c : pkt * dgram * bool) : pkt := fst (fst c).
Definition c_dg (c : pkt * dgram * bool) : dgram := snd (fst c).
Definition olist {A} (o : option A) : list A := match o with Some x => [x] | None => [] end.
Definition nS (l : list compl) : nat := List.length (filter (fun c => match c with CSend _ => true | _ => false end) l).
Definition nR (l : list compl) : nat := List.length (filter (fun c => match c with CRecv _ => true | _ => false end) l).
Definition nOk (l : list compl) : nat := List.length (filter (fun c => match c with CRecv false => true | _ => false end) l).
Definition io_busy (i : iopc) : nat := match i with IOIdle => 0 | _ => 1 end.
Definition io_ok (i : iopc) : nat := match i with IORead false => 1 | _ => 0 end.
Definition unread (s : ust) : list pkt := match u_io s with IOChecked => [] | _ => olist (u_reply s) end.

Record live0 (max : N) (s : ust) (e : list obs) : Prop := {
  v_handed : handed e = map c_pkt (checks e) ++ unread s ++ u_rqueue s ++ olist (u_disp s) ++ u_queue s;
  v_sents : sents e = map c_pkt (checks e) ++ unread s ++ u_rqueue s ++ olist (u_disp s);
  v_recvd : recvd e = map c_dg (checks e) ++ repeat (u_mem s) (nOk (u_rdy s) + io_ok (u_io s));
  v_infl : N.to_nat (u_infl s) = (List.length (olist (u_reply s)) + List.length (u_rqueue s) + List.length (olist (u_disp s)))%nat;
  v_max : u_infl s <= max;
  v_s : (u_acts s + nS (u_rdy s))%nat = List.length (olist (u_disp s));
  v_r : (u_actr s + nR (u_rdy s) + io_busy (u_io s))%nat = List.length (olist (u_reply s));
  v_rq : u_reply s = None -> u_rqueue s = [];
  v_ok : Forall (fun c => snd c = true) (checks e);
  v_nofail : ~ In OFail e
}.

Record live (max : N) (s : ust) (e : list obs) : Prop := {
  v_live0 : live0 max s e;
  v_q : u_disp s = None -> u_queue s = [] \/ u_infl s = max;
  v_done : u_done s = true <-> u_disp s = None /\ u_reply s = None;
  v_wake : u_user s = UWake -> u_done s = true
}.

Definition mode (max : N) (s : ust) (e : list obs) : Prop :=
  match u_user s with
  | UH3 => u_exc s = false /\ quiet s /\ u_done s = true
  | UH4 => u_exc s = false /\ quiet s /\ u_done s = true /\ u_queue s = [] /\ u_rqueue s = [] /\ u_infl s = 0
  | _ => if u_exc s then In OFail e /\ (u_io s = IOIdle /\ u_done s = true \/ u_io s = IOChecked) else live max s e
  end.

Record uinv (max : N) (s : ust) (e : list obs) : Prop := {
  w_ub : u_ub s = false;
  w_sent : prefix (sents e) (handed e);
  w_cp : prefix (map c_pkt (checks e)) (sents e);
  w_cd : prefix (map c_dg (checks e)) (recvd e);
  w_bound : (List.length (sents e) <= List.length (recvd e) + N.to_nat max)%nat;
  w_mode : mode max s e
}.

Lemma since_snoc tr o : since_throw (tr ++ [o]) = match o with OThrow => [] | _ => since_throw tr ++ [o] end.
Proof. unfold since_throw. rewrite fold_left_app. reflexivity. Qed.

Lemma prefix_app {A} (l m r : list A) : prefix l m -> prefix l (m ++ r).
Proof. intros (x & ->). exists (x ++ r). rewrite app_assoc. reflexivity. Qed.
Lemma prefix_refl {A} (l : list A) : prefix l l.
Proof. exists []. rewrite app_nil_r. reflexivity. Qed.

Lemma nS_app a b : nS (a ++ b) = (nS a + nS b)%nat.
Proof. unfold nS. rewrite filter_app, app_length. reflexivity. Qed.
Lemma nR_app a b : nR (a ++ b) = (nR a + nR b)%nat.
Proof. unfold nR. rewrite filter_app, app_length. reflexivity. Qed.
Lemma nOk_app a b : nOk (a ++ b) = (nOk a + nOk b)%nat.
Proof. unfold nOk. rewrite filter_app, app_length. reflexivity. Qed.
Lemma closed_ops a b : nS (repeat (CSend false) a ++ repeat (CRecv true) b) = a /\
  nR (repeat (CSend false) a ++ repeat (CRecv true) b) = b /\ nOk (repeat (CSend false) a ++ repeat (CRecv true) b) = O.
Proof.
  rewrite nS_app, nR_app, nOk_app. split; [|split].
  - assert (X : nS (repeat (CSend false) a) = a) by (induction a; cbn; auto).
    assert (Y : nS (repeat (CRecv true) b) = O) by (induction b; cbn; auto). lia.
  - assert (X : nR (repeat (CSend false) a) = O) by (induction a; cbn; auto).
    assert (Y : nR (repeat (CRecv true) b) = b) by (induction b; cbn; auto). lia.
  - assert (X : nOk (repeat (CSend false) a) = O) by (induction a; cbn; auto).
    assert (Y : nOk (repeat (CRecv true) b) = O) by (induction b; cbn; auto). lia.
Qed.

Lemma drop_counts : forall l i c, nth_error l i = Some c ->
  nS l = (nS (drop_nth l i) + nS [c])%nat /\ nR l = (nR (drop_nth l i) + nR [c])%nat /\ nOk l = (nOk (drop_nth l i) + nOk [c])%nat.
Proof.
  induction l as [|x l IH]; intros [|i] c E; cbn in E; try discriminate.
  - injection E as ->. cbn [drop_nth]. change (c :: l) with ([c] ++ l). rewrite nS_app, nR_app, nOk_app. lia.
  - cbn [drop_nth]. destruct (IH i c E) as (A & B & C). change (x :: l) with ([x] ++ l). change (x :: drop_nth l i) with ([x] ++ drop_nth l i).
    rewrite !nS_app, !nR_app, !nOk_app. lia.
Qed.

Lemma nOk_le l : (nOk l <= nR l)%nat.
Proof. unfold nOk, nR. induction l as [|[k|[]] l IH]; cbn [filter List.length]; lia. Qed.

Lemma handed_app a b : handed (a ++ b) = handed a ++ handed b. Proof. apply flat_map_app. Qed.
Lemma sents_app a b : sents (a ++ b) = sents a ++ sents b. Proof. apply flat_map_app. Qed.
Lemma recvd_app a b : recvd (a ++ b) = recvd a ++ recvd b. Proof. apply flat_map_app. Qed.
Lemma checks_app a b : checks (a ++ b) = checks a ++ checks b. Proof. apply flat_map_app. Qed.

(** In a live state the common facts follow. *)
Lemma live_common max s e : live max s e -> u_ub s = false -> 1 <= max ->
  prefix (sents e) (handed e) /\ prefix (map c_pkt (checks e)) (sents e) /\ prefix (map c_dg (checks e)) (recvd e) /\
  (List.length (sents e) <= List.length (recvd e) + N.to_nat max)%nat.
Proof.
  intros [L _ _ _] UB M. destruct L. split; [|split; [|split]].
  - exists (u_queue s). rewrite v_handed0, v_sents0, <- !app_assoc. reflexivity.
  - eexists. exact v_sents0.
  - eexists. exact v_recvd0.
  - rewrite v_sents0, v_recvd0, !app_length, !map_length. unfold unread. destruct (u_io s), (u_reply s); cbn [olist List.length] in *; lia.
Qed.

Lemma live_uinv max s e : live max s e -> u_ub s = false -> 1 <= max -> u_exc s = false -> u_user s <> UH3 -> u_user s <> UH4 -> uinv max s e.
Proof.
  intros L UB M X N3 N4. destruct (live_common max s e L UB M) as (A & B & C & D). constructor; try assumption.
  unfold mode. destruct (u_user s); try congruence; rewrite X; exact L.
Qed.

Ltac recs := cbn [u_exc u_disp u_queue u_reply u_rqueue u_infl u_done u_fin u_open u_mem u_acts u_actr u_rdy u_io u_user u_ub u_tr
  put_exc put_disp put_reply put_infl put_fin put_open put_ops put_mem put_io put_user put_ub see notify close store write read
  implement_dispatch write_callback read_callback read_middle read_end check_deadline handler negb] in *.
Ltac hist := rewrite ?since_snoc in *; rewrite ?handed_app, ?sents_app, ?recvd_app, ?checks_app in *; cbn [handed sents recvd checks flat_map app] in *;
  rewrite ?app_nil_r in *.

(** A stored failure: only the common facts are needed. *)
Lemma failed_uinv max s e : u_ub s = false ->
  prefix (sents e) (handed e) -> prefix (map c_pkt (checks e)) (sents e) -> prefix (map c_dg (checks e)) (recvd e) ->
  (List.length (sents e) <= List.length (recvd e) + N.to_nat max)%nat ->
  u_exc s = true -> u_user s <> UH3 -> u_user s <> UH4 -> In OFail e ->
  (u_io s = IOIdle /\ u_done s = true \/ u_io s = IOChecked) -> uinv max s e.
Proof.
  intros UB A B C D X N3 N4 F G. constructor; try assumption. unfold mode. destruct (u_user s); try congruence; rewrite X; auto.
Qed.

(** The user's thread outside of lines 476-492. *)
Definition outside (u : upc) : Prop := u <> UH3 /\ u <> UH4.

Lemma mode_outside max s e : outside (u_user s) -> mode max s e ->
  if u_exc s then In OFail e /\ (u_io s = IOIdle /\ u_done s = true \/ u_io s = IOChecked) else live max s e.
Proof. intros (A & B) M. unfold mode in M. destruct (u_user s); try congruence; exact M. Qed.

Lemma live_write max zero s p q e : 1 <= max -> max < W32 -> live0 max s e -> u_disp s = None -> u_user s <> UWake ->
  u_infl s <> max -> u_queue s = p :: q -> live max (write zero s p q) (e ++ [OSent p]).
Proof.
  intros M1 M2 L D NW NF Q. destruct L. destruct s. recs. subst. hist. constructor; recs; [constructor; recs; hist; unfold unread in *; recs; cbn [olist List.length app] in *; rewrite ?app_nil_r in *|..].
  - exact v_handed0.
  - rewrite v_sents0, <- !app_assoc. reflexivity.
  - exact v_recvd0.
  - unfold add32, W32 in *. lia.
  - unfold add32, W32 in *. lia.
  - lia.
  - exact v_r0.
  - exact v_rq0.
  - exact v_ok0.
  - intros X. apply in_app_iff in X. destruct X as [X|[X|[]]]; [auto|discriminate].
  - discriminate.
  - split; [discriminate|intros (X & _); discriminate].
  - congruence.
Qed.

(** A step that changes nothing the invariant depends on. *)
Lemma live0_same max s s' e : live0 max s e ->
  u_disp s' = u_disp s -> u_queue s' = u_queue s -> u_reply s' = u_reply s -> u_rqueue s' = u_rqueue s -> u_infl s' = u_infl s ->
  u_mem s' = u_mem s -> u_io s' = u_io s ->
  (u_acts s' + nS (u_rdy s') = u_acts s + nS (u_rdy s))%nat -> (u_actr s' + nR (u_rdy s') = u_actr s + nR (u_rdy s))%nat ->
  nOk (u_rdy s') = nOk (u_rdy s) -> live0 max s' e.
Proof.
  intros L A B C D E F G H I J. destruct L. constructor; unfold unread in *; rewrite ?A, ?B, ?C, ?D, ?E, ?F, ?G, ?J in *; try assumption; lia.
Qed.

Lemma live_same max s s' e : live max s e ->
  u_disp s' = u_disp s -> u_queue s' = u_queue s -> u_reply s' = u_reply s -> u_rqueue s' = u_rqueue s -> u_infl s' = u_infl s ->
  u_mem s' = u_mem s -> u_io s' = u_io s -> u_done s' = u_done s -> (u_user s' = UWake -> u_user s = UWake \/ u_done s = true) ->
  (u_acts s' + nS (u_rdy s') = u_acts s + nS (u_rdy s))%nat -> (u_actr s' + nR (u_rdy s') = u_actr s + nR (u_rdy s))%nat ->
  nOk (u_rdy s') = nOk (u_rdy s) -> live max s' e.
Proof.
  intros [L Q DN W] A B C D E F G DD WW H I J. constructor; [eapply live0_same; eassumption|..]; rewrite ?A, ?B, ?C, ?E, ?DD; try assumption. intros X. destruct (WW X); auto.
Qed.

(** The same for the whole invariant. *)
Lemma uinv_same max s s' e : uinv max s e -> outside (u_user s) -> outside (u_user s') -> u_exc s' = u_exc s -> u_ub s' = u_ub s ->
  u_disp s' = u_disp s -> u_queue s' = u_queue s -> u_reply s' = u_reply s -> u_rqueue s' = u_rqueue s -> u_infl s' = u_infl s ->
  u_mem s' = u_mem s -> u_io s' = u_io s -> u_done s' = u_done s -> (u_user s' = UWake -> u_user s = UWake \/ u_done s = true) ->
  (u_acts s' + nS (u_rdy s') = u_acts s + nS (u_rdy s))%nat -> (u_actr s' + nR (u_rdy s') = u_actr s + nR (u_rdy s))%nat ->
  nOk (u_rdy s') = nOk (u_rdy s) -> uinv max s' e.
Proof.
  intros W O O' X UB A B C D E F G DD WW H I J. destruct W. apply (mode_outside _ _ _ O) in w_mode0. destruct O' as (O1 & O2). constructor; try assumption; [congruence|].
  assert (Y : if u_exc s' then In OFail e /\ (u_io s' = IOIdle /\ u_done s' = true \/ u_io s' = IOChecked) else live max s' e).
  { rewrite X. destruct (u_exc s); [rewrite G, DD; exact w_mode0|]. eapply live_same; eassumption. }
  unfold mode. destruct (u_user s'); try congruence; exact Y.
Qed.

(** In a live state, closing the socket. *)
Lemma close_counts s : (u_acts (close s) + nS (u_rdy (close s)) = u_acts s + nS (u_rdy s))%nat /\
  (u_actr (close s) + nR (u_rdy (close s)) = u_actr s + nR (u_rdy s))%nat /\ nOk (u_rdy (close s)) = nOk (u_rdy s).
Proof.
  recs. destruct (closed_ops (u_acts s) (u_actr s)) as (A & B & C). rewrite nS_app, nR_app, nOk_app, A, B, C. lia.
Qed.

(** A failure stored in a live state. *)
Lemma store_uinv max s e f : uinv max s e -> u_exc s = false -> outside (u_user s) -> (f = s \/ f = close s) -> u_io s <> IOChecked ->
  uinv max (put_io (store f) IOIdle) (e ++ [OFail]).
Proof.
  intros W X O F NC. destruct W. destruct O as (O1 & O2).
  assert (UF : u_ub f = u_ub s /\ u_user f = u_user s) by (destruct F as [->| ->]; split; reflexivity). destruct UF as (U1 & U2).
  apply failed_uinv; destruct f; recs; hist; try assumption; try congruence; try (apply in_or_app; right; left; reflexivity); auto.
Qed.

Lemma quiet_kept max s l s' zero : quiet s -> u_user s = UH3 \/ u_user s = UH4 -> ustep max zero s l = Some s' -> l <> LHandler ->
  l = LDeadline /\ s' = check_deadline s.
Proof.
  intros (A & B & C & D) U ST NL. unfold ustep in ST. destruct (u_ub s); [discriminate|].
  destruct l; try (destruct U as [U|U]; rewrite U in ST; discriminate); rewrite ?A, ?B, ?C, ?D in ST; try discriminate; try congruence.
  - destruct (u_fin s); [|discriminate]. injection ST as <-. auto.
  - destruct i; discriminate.
Qed.

(** ** The invariant is kept *)

Lemma step_inv max zero s l s' : 1 <= max -> max < W32 -> uinv max s (since_throw (u_tr s)) -> ustep max zero s l = Some s' ->
  (l = LHandler -> u_user s = UH2 -> quiet s) -> uinv max s' (since_throw (u_tr s')).
Proof.
  intros M1 M2 W ST QH.
  assert (OU : (u_user s = UH3 \/ u_user s = UH4) \/ outside (u_user s)) by (unfold outside; destruct (u_user s); auto; right; split; discriminate).
  destruct OU as [U34|O].
  { (* the user's thread is in the last part of the handler *)
    assert (W' := W). destruct W'.
    assert (QT : quiet s /\ u_exc s = false /\ u_done s = true) by (unfold mode in w_mode0; destruct U34 as [U|U]; rewrite U in w_mode0; tauto).
    destruct QT as (QT & EX & DN).
    destruct l; try (destruct (quiet_kept _ _ _ _ _ QT U34 ST ltac:(discriminate)) as (LL & SS); try discriminate LL).
    - (* handler *)
      unfold ustep in ST. rewrite w_ub0 in ST. unfold mode in w_mode0. destruct U34 as [U|U]; rewrite U in ST, w_mode0; injection ST as <-; unfold handler; rewrite U.
      + destruct s. recs. constructor; recs; try assumption. unfold mode. recs. unfold quiet in *. recs. tauto.
      + destruct s. recs. hist. destruct w_mode0 as (_ & _ & _ & Q & RQ & I). destruct QT as (Q1 & Q2 & Q3 & Q4). recs. subst.
        apply live_uinv; recs; try reflexivity; try assumption; try discriminate.
        constructor; recs; [constructor; recs; try reflexivity; try lia; auto|..]; try discriminate; auto; [constructor|split; auto].
    - (* deadline *)
      subst s'. destruct QT as (Q1 & Q2 & Q3 & Q4). destruct s. recs. subst. cbn [repeat app]. constructor; recs; try reflexivity; try assumption.
      unfold mode in *. recs. unfold quiet in *. recs. destruct U34 as [U|U]; subst; recs; tauto. }
  assert (MO := mode_outside _ _ _ O (w_mode _ _ _ W)).
  assert (UB := w_ub _ _ _ W). unfold ustep in ST. rewrite UB in ST.
  destruct l.
  - (* implementDispatch *)
    destruct (u_user s) eqn:U; try discriminate. injection ST as <-. destruct (u_exc s) eqn:X.
    + eapply uinv_same; [exact W|..]; recs; try reflexivity; try (rewrite U); auto; try (split; discriminate). all: discriminate.
    + set (e := since_throw (u_tr s)) in *.
      assert (L1 : live0 max (put_disp (see (put_open s true) (OHanded p)) (u_disp s) (u_queue s ++ [p])) (e ++ [OHanded p])).
      { destruct MO as [L0 Q DNE WK]. destruct L0. destruct s. recs. constructor; recs; hist; unfold unread in *; recs; try assumption.
        - rewrite v_handed0, <- !app_assoc. reflexivity.
        - intros I. apply in_app_iff in I. destruct I as [I|[I|[]]]; [auto|discriminate]. }
      destruct MO as [L0 Q DNE WK]. unfold implement_dispatch. destruct (u_disp s) as [d|] eqn:D.
      * replace (u_disp (see (put_open s true) (OHanded p))) with (Some d) by (destruct s; recs; congruence).
        replace (since_throw _) with (e ++ [OHanded p]) by (destruct s; recs; hist; reflexivity).
        apply live_uinv; try (destruct s; recs; congruence). constructor; [destruct s; recs; exact L1|..]; destruct s; recs; subst; [discriminate|exact DNE|exact WK].
      * replace (u_disp (see (put_open s true) (OHanded p))) with (@None pkt) by (destruct s; recs; congruence).
        replace (u_infl (see (put_open s true) (OHanded p))) with (u_infl s) by reflexivity.
        destruct (N.eqb_spec (u_infl s) max) as [F|F].
        -- replace (since_throw _) with (e ++ [OHanded p]) by (destruct s; recs; hist; reflexivity).
           apply live_uinv; try (destruct s; recs; congruence). constructor; [destruct s; recs; exact L1|..]; destruct s; recs; subst; [auto|exact DNE|exact WK].
        -- destruct (Q eq_refl) as [Q0|Q0]; [|contradiction].
           assert (L2 := live_write max zero _ p [] _ M1 M2 L1).
           replace (since_throw _) with ((e ++ [OHanded p]) ++ [OSent p]) by (destruct s; recs; hist; reflexivity).
           replace (write zero (see (put_open s true) (OHanded p)) p (u_queue (see (put_open s true) (OHanded p))))
             with (write zero (put_disp (see (put_open s true) (OHanded p)) None (u_queue s ++ [p])) p []) by (destruct s; recs; subst; reflexivity).
           apply live_uinv; try (destruct s; recs; congruence). apply L2; destruct s; recs; subst; try reflexivity; try assumption; congruence.
  - (* connect() failed *)
    destruct (u_user s) eqn:U; try discriminate. destruct (u_exc s) eqn:X; try discriminate. destruct (u_open s); try discriminate. injection ST as <-.
    eapply uinv_same; [exact W|..]; recs; try reflexivity; try (rewrite U); auto; try (split; discriminate). all: discriminate.
  - (* Flush *)
    destruct (u_user s) eqn:U; try discriminate. injection ST as <-.
    eapply uinv_same; [exact W|..]; recs; try reflexivity; try (rewrite U); auto; try (split; discriminate). all: discriminate.
  - (* waited *)
    destruct (u_user s) eqn:U; try discriminate. destruct (u_done s) eqn:DN; try discriminate. injection ST as <-.
    eapply uinv_same; [exact W|..]; recs; try reflexivity; try (rewrite U); auto; try (split; discriminate).
  - (* flushed *)
    destruct (u_user s) eqn:U; try discriminate. injection ST as <-. destruct (u_exc s) eqn:X.
    + eapply uinv_same; [exact W|..]; recs; try reflexivity; try (rewrite U); auto; try (split; discriminate). all: discriminate.
    + apply live_uinv; try (destruct s; recs; congruence). destruct MO as [L0 Q DNE WK]. destruct L0. destruct s. recs. subst. hist.
      constructor; recs; [constructor; recs; hist; try assumption|assumption|assumption|discriminate].
      intros I. apply in_app_iff in I. destruct I as [I|[I|[]]]; [auto|discriminate].
  - (* handler *)
    destruct (u_user s) eqn:U; try discriminate; injection ST as <-; unfold handler; rewrite U.
    + destruct (u_open s).
      * destruct (close_counts s) as (C1 & C2 & C3). eapply uinv_same; [exact W|..]; try reflexivity; try (rewrite U); try (split; discriminate); try assumption. all: discriminate.
      * eapply uinv_same; [exact W|..]; recs; try reflexivity; try (rewrite U); try (split; discriminate). all: discriminate.
    + specialize (QH eq_refl eq_refl). destruct W. constructor; try assumption. unfold mode. recs. unfold quiet in *. recs. auto.
    + destruct O. congruence.
    + destruct O. congruence.
  - (* send completed *)
    destruct (u_acts s) as [|n] eqn:A; [discriminate|]. injection ST as <-.
    eapply uinv_same; [exact W|..]; recs; try reflexivity; auto; rewrite ?A, ?nS_app, ?nR_app, ?nOk_app; cbn; try lia.
  - (* datagram *)
    destruct (u_actr s) as [|n] eqn:A; [discriminate|]. destruct (u_open s) eqn:OP; [|discriminate]. injection ST as <-.
    destruct (u_exc s) eqn:X.
    + destruct W. destruct O. apply failed_uinv; destruct s; recs; hist; try assumption; try congruence.
      * apply prefix_app. assumption.
      * rewrite app_length. lia.
      * apply in_or_app. left. tauto.
      * tauto.
    + apply live_uinv; try (destruct s, O; recs; congruence). destruct MO as [L0 Q DNE WK]. destruct L0. assert (NO := nOk_le (u_rdy s)).
      assert (Z : nOk (u_rdy s) = 0%nat /\ io_ok (u_io s) = 0%nat /\ u_io s = IOIdle).
      { rewrite A in v_r0. destruct (u_reply s), (u_io s) as [|[]|]; cbn [olist List.length io_busy io_ok] in *; try lia; repeat split; lia. }
      destruct Z as (Z1 & Z2 & Z3). destruct s. recs. subst. rewrite Z1 in v_recvd0. cbn [io_ok plus repeat] in v_recvd0. hist.
      constructor; recs; [constructor; recs; hist; unfold unread in *; recs; try assumption|assumption|assumption|assumption].
      * rewrite v_recvd0, nOk_app, Z1. reflexivity.
      * rewrite nS_app. cbn [nS filter List.length]. lia.
      * rewrite nR_app. cbn [nR filter List.length]. lia.
      * intros I. apply in_app_iff in I. destruct I as [I|[I|[]]]; [auto|discriminate].
  - (* receive error *)
    destruct (u_actr s) as [|n] eqn:A; [discriminate|]. injection ST as <-.
    eapply uinv_same; [exact W|..]; recs; try reflexivity; auto; rewrite ?A, ?nS_app, ?nR_app, ?nOk_app; cbn; lia.
  - (* deadline *)
    destruct (u_io s) eqn:IO; try discriminate. destruct (u_fin s); [|discriminate]. injection ST as <-.
    destruct (close_counts s) as (C1 & C2 & C3). eapply uinv_same; [exact W|..]; try reflexivity; try assumption; auto.
  - (* callback *)
    destruct (u_io s) eqn:IO; try discriminate. destruct (nth_error (u_rdy s) i) as [c|] eqn:NT; [|discriminate].
    destruct (drop_counts _ _ _ NT) as (C1 & C2 & C3). injection ST as <-. set (s1 := put_ops s (u_acts s) (u_actr s) (drop_nth (u_rdy s) i)).
    destruct (u_exc s) eqn:X.
    { (* an exception is already stored *)
      assert (G : uinv max (notify s1 true) (since_throw (u_tr s))).
      { destruct W. destruct O. apply failed_uinv; try assumption; tauto. }
      destruct c; [unfold write_callback|unfold read_callback]; replace (u_exc s1) with true by (symmetry; exact X); exact G. }
    assert (G : forall f, (f = s1 \/ f = close s1) -> uinv max (store f) (since_throw (u_tr (store f)))).
    { intros f F. assert (Y : u_tr f = u_tr s /\ u_io f = IOIdle /\ u_ub f = false /\ u_user f = u_user s) by (destruct F as [->| ->]; repeat split; assumption).
      destruct Y as (Y1 & Y2 & Y3 & Y4). replace (since_throw (u_tr (store f))) with (since_throw (u_tr s) ++ [OFail]) by (recs; rewrite since_snoc, Y1; reflexivity).
      destruct W. destruct O. apply failed_uinv; recs; hist; try assumption; try congruence; [apply in_or_app; right; left; reflexivity|auto]. }
    destruct MO as [L0 Q DNE WK]. destruct L0. rewrite IO in *. cbn [io_busy io_ok] in *. rewrite Nat.add_0_r in *.
    destruct c as [ok|err].
    + (* write_callback *)
      unfold write_callback. replace (u_exc s1) with false by (symmetry; exact X). replace (u_fin s1) with (u_fin s) by reflexivity.
      destruct (u_fin s); cbn [negb]; [|apply G; auto]. replace (u_disp s1) with (u_disp s) by reflexivity.
      cbn [nS nR nOk filter List.length] in C1, C2, C3. unfold unread in *. rewrite IO in *.
      destruct (u_disp s) as [p|] eqn:D; [|cbn [olist List.length] in v_s0; lia].
      cbn [olist List.length] in *. destruct ok; cbn [negb]; [|apply G; auto].
      set (s2 := match u_reply s1 with Some _ => put_reply s1 (u_reply s1) (u_rqueue s1 ++ [p]) | None => read zero s1 p (u_rqueue s1) end).
      assert (L2 : live0 max (put_disp s2 None (u_queue s)) (since_throw (u_tr s))).
      { unfold s2, s1. destruct s. recs. subst. destruct u_reply as [r|]; constructor; recs; unfold unread; recs; cbn [olist List.length app io_busy io_ok] in *; rewrite ?app_length; cbn [List.length]; try assumption; try lia.
        - rewrite v_handed0, <- !app_assoc. reflexivity.
        - rewrite v_sents0, <- !app_assoc. reflexivity.
        - rewrite v_recvd0. f_equal. f_equal. lia.
        - discriminate.
        - rewrite (v_rq0 eq_refl) in *. rewrite v_handed0. reflexivity.
        - rewrite (v_rq0 eq_refl) in *. rewrite v_sents0. reflexivity.
        - rewrite v_recvd0. f_equal. f_equal. lia.
        - discriminate. }
      assert (E2 : u_queue s2 = u_queue s /\ u_infl s2 = u_infl s /\ u_tr s2 = u_tr s /\ u_user s2 = u_user s /\ u_ub s2 = u_ub s /\ u_exc s2 = u_exc s /\ u_done s2 = u_done s /\ u_reply s2 <> None).
      { unfold s2. destruct (u_reply s1) eqn:RR; repeat split; recs; congruence. }
      destruct E2 as (E1 & E2 & E3 & E4 & E5 & E6 & E7 & E8). rewrite E1, E2.
      assert (DF : u_done s = false) by (destruct (u_done s); [destruct DNE as (Z & _); destruct (Z eq_refl); discriminate|reflexivity]).
      destruct O as (O1 & O2).
      destruct (u_queue s) as [|p' q] eqn:QU; [|destruct (N.eqb_spec (u_infl s) max) as [F|F]].
      * apply live_uinv; recs; try congruence. rewrite E3. constructor; [exact L2|..]; recs; auto; [|intros Z; rewrite E4 in Z; rewrite (WK Z) in DF; discriminate].
        rewrite E7, DF. split; [discriminate|intros (_ & Z); contradiction].
      * apply live_uinv; recs; try congruence. rewrite E3. constructor; [exact L2|..]; recs; [intros _; right; congruence| |intros Z; rewrite E4 in Z; rewrite (WK Z) in DF; discriminate].
        rewrite E7, DF. split; [discriminate|intros (_ & Z); contradiction].
      * replace (write zero s2 p' q) with (write zero (put_disp s2 None (p' :: q)) p' q) by reflexivity.
        apply live_uinv; recs; try congruence. rewrite since_snoc, E3. apply live_write; recs; try reflexivity; try assumption; [|congruence].
        intros Z. rewrite E4 in Z. rewrite (WK Z) in DF. discriminate.
    + (* read_callback *)
      unfold read_callback. replace (u_exc s1) with false by (symmetry; exact X). replace (u_fin s1) with (u_fin s) by reflexivity.
      destruct (u_fin s); cbn [negb]; [|apply G; auto].
      cbn [nS nR filter List.length] in C1, C2. destruct O as (O1 & O2).
      unfold s1. apply live_uinv; recs; try congruence. constructor; recs; try assumption. unfold unread in *. rewrite IO in *.
      constructor; recs; unfold unread; recs; cbn [io_busy]; try assumption; try lia.
      rewrite v_recvd0. f_equal. f_equal. rewrite C3. destruct err; reflexivity.
  - (* middle *)
    destruct (u_io s) as [|err|] eqn:IO; try discriminate. injection ST as <-.
    assert (X : u_exc s = false) by (destruct (u_exc s); [|reflexivity]; destruct MO as (_ & [(Z & _)|Z]); discriminate Z).
    rewrite X in MO. unfold read_middle.
    destruct (u_reply s) as [p|] eqn:R.
    2:{ destruct MO as [L0 Q DNE WK]. destruct L0. rewrite R, IO in v_r0. cbn in v_r0. lia. }
    destruct err.
    + replace (since_throw _) with (since_throw (u_tr s) ++ [OFail]) by (recs; rewrite since_snoc; reflexivity).
      apply (store_uinv max s); auto. congruence.
    + destruct MO as [L0 Q DNE WK]. destruct L0. destruct O as (O1 & O2). unfold unread in *. rewrite IO, R in *. cbn [io_ok io_busy olist List.length app] in *.
      assert (NO := nOk_le (u_rdy s)).
      assert (Z : nOk (u_rdy s) = 0%nat) by lia. rewrite Z in v_recvd0. cbn [plus repeat] in v_recvd0.
      destruct v.
      * apply live_uinv; recs; try congruence. hist. constructor; recs; rewrite ?R; try assumption. constructor; recs; hist; unfold unread; recs; rewrite ?map_app, ?R; cbn [map olist app List.length io_busy io_ok]; try assumption.
        -- rewrite v_handed0, <- !app_assoc. reflexivity.
        -- rewrite v_sents0, <- !app_assoc. reflexivity.
        -- rewrite v_recvd0, Z. cbn [plus repeat]. rewrite app_nil_r. reflexivity.
        -- apply Forall_app. split; [assumption|]. constructor; [reflexivity|constructor].
        -- intros I. apply in_app_iff in I. destruct I as [I|[I|[]]]; [auto|discriminate].
      * apply failed_uinv; recs; try congruence; hist; rewrite ?since_snoc; hist.
        -- destruct W. assumption.
        -- rewrite map_app, v_sents0. cbn [map]. eexists. rewrite <- !app_assoc. reflexivity.
        -- rewrite map_app, v_recvd0. cbn [map]. apply prefix_refl.
        -- destruct W. assumption.
        -- apply in_or_app. right. left. reflexivity.
        -- auto.
  - (* end *)
    destruct (u_io s) as [|err|] eqn:IO; try discriminate. injection ST as <-. unfold read_end.
    replace (u_exc (put_io s IOIdle)) with (u_exc s) by reflexivity. destruct (u_exc s) eqn:X.
    + destruct W. destruct O. apply failed_uinv; recs; try assumption; try tauto.
    + destruct MO as [L0 Q DNE WK]. destruct L0. destruct O as (O1 & O2). unfold unread in *. rewrite IO in *. cbn [io_ok io_busy app] in *.
      destruct (u_reply s) as [r|] eqn:R; [|cbn [olist List.length] in v_r0; lia]. cbn [olist List.length] in *.
      assert (NO := nOk_le (u_rdy s)).
      assert (DF : u_done s = false) by (destruct (u_done s); [destruct DNE as (Z & _); destruct (Z eq_refl); discriminate|reflexivity]).
      assert (NW : u_user s <> UWake) by (intros Z; rewrite (WK Z) in DF; discriminate).
      set (s2 := match u_rqueue (put_io s IOIdle) with p :: q => read zero (put_io s IOIdle) p q | [] => put_reply (put_io s IOIdle) None [] end).
      set (s3 := put_infl s2 (sub32 (u_infl s2) 1)).
      assert (EQ : u_queue s3 = u_queue s /\ u_disp s3 = u_disp s /\ u_tr s3 = u_tr s /\ u_user s3 = u_user s /\ u_ub s3 = u_ub s /\ u_exc s3 = u_exc s /\ u_done s3 = u_done s /\ u_infl s3 = sub32 (u_infl s) 1).
      { unfold s3, s2. replace (u_rqueue (put_io s IOIdle)) with (u_rqueue s) by reflexivity. destruct (u_rqueue s); repeat split. }
      destruct EQ as (E1 & E2 & E3 & E4 & E5 & E6 & E7 & E8).
      assert (IN : u_infl s3 = u_infl s - 1 /\ 1 <= u_infl s) by (rewrite E8; unfold sub32, W32 in *; lia).
      assert (L3 : live0 max s3 (since_throw (u_tr s))).
      { unfold s3, s2. clear E1 E2 E3 E4 E5 E6 E7 E8 IN s3 s2. destruct s. recs. subst. destruct u_rqueue as [|p q]; constructor; recs; unfold unread; recs; cbn [olist List.length app io_busy io_ok] in *; try assumption; try lia; try (unfold sub32, W32 in *; lia).
        - auto.
        - discriminate. }
      rewrite E2, E1.
      destruct (u_disp s) as [d|] eqn:D.
      * rewrite E2. apply live_uinv; recs; try congruence. rewrite E3. constructor; [exact L3|..].
        -- rewrite E2. discriminate.
        -- rewrite E7, DF, E2. split; [discriminate|intros (Z & _); discriminate].
        -- congruence.
      * destruct (u_queue s) as [|p q] eqn:QU.
        -- rewrite E2. destruct (u_reply s3) as [r3|] eqn:R3.
           ++ apply live_uinv; try congruence. rewrite E3. constructor; [exact L3|..]; [auto| |congruence].
              rewrite E7, DF, R3. split; [discriminate|intros (_ & Z); discriminate].
           ++ apply live_uinv; recs; try congruence. rewrite E3. constructor; recs; [|auto| |auto].
              ** eapply live0_same; [exact L3|..]; reflexivity.
              ** split; auto.
        -- destruct (N.eqb_spec (u_infl s3) max) as [F|F]; [lia|].
           replace (u_disp (write zero s3 p q)) with (Some p) by reflexivity.
           apply live_uinv; recs; try congruence. rewrite since_snoc, E3.
           apply live_write; try assumption; congruence.
Qed.

Lemma init_inv max : 1 <= max -> uinv max init_udp (since_throw (u_tr init_udp)).
Proof.
  intros M. apply live_uinv; try reflexivity; try assumption; try discriminate. constructor; [constructor|..]; cbn; auto; try lia. all: split; auto.
Qed.

Theorem udp_inv max zero : 1 <= max -> max < W32 -> forall ls s s', urun max zero s ls = Some s' -> quiet_handlers max zero s ls ->
  uinv max s (since_throw (u_tr s)) -> uinv max s' (since_throw (u_tr s')).
Proof.
  intros M1 M2. induction ls as [|l ls IH]; intros s s' R QH W; cbn [urun quiet_handlers] in *; [injection R as <-; exact W|].
  destruct (ustep max zero s l) as [s1|] eqn:ST; [|discriminate]. destruct QH as (Q1 & Q2). eapply IH; [exact R|exact Q2|]. eapply step_inv; eassumption.
Qed.
