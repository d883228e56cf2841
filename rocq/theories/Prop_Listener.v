(** C105 and C106: the ControlHub's listener and its statistics about clients. *)
From Coq Require Import NArith ZArith List Bool PeanoNat Permutation Lia ZifyBool ZifyNat ZifyN.
From Verif Require Import Hub Manager Listener ListenerSpec ListenerProofs.
Import ListNotations.
Open Scope nat_scope.

(** Whether a chunk is well formed can be decided. *)
Definition wf_chunk (p : bytes) : bool := negb (cut_short (S (length p)) p).
Lemma wf_chunk_ok p : wf_chunk p = true <-> well_formed p.
Proof. unfold wf_chunk. rewrite negb_true_iff. apply cut_short_ok. lia. Qed.

Lemma reach_inv allow wf ls v tr : (forall p, wf p = true <-> well_formed p) -> srun allow start ls = Some (v, tr) -> inv wf v tr.
Proof. intros W R. exact (inv_run allow wf W ls start [] v tr (inv_start wf) R). Qed.

Lemma srun_app allow a : forall v b, srun allow v (a ++ b) =
  match srun allow v a with Some (v', e) => match srun allow v' b with Some (v'', e') => Some (v'', e ++ e') | None => None end | None => None end.
Proof.
  induction a as [|l a IH]; intros v b; cbn [app srun].
  - destruct (srun allow v b) as [[v'' e']|]; reflexivity.
  - destruct (sstep allow v l) as [[v1 e1]|]; [|reflexivity]. rewrite IH. destruct (srun allow v1 a) as [[v2 e2]|]; [|reflexivity].
    destruct (srun allow v2 b) as [[v3 e3]|]; [|reflexivity]. rewrite app_assoc. reflexivity.
Qed.

(** ** C105 *)

(** At most one process is waiting for a client; and from every state, whatever has
    happened to other clients, the ControlHub by itself, in at most two steps, comes to
    the point where one is, which then takes the client that connects next. *)
Theorem C105_accepts : forall allow ls v tr, srun allow start ls = Some (v, tr) ->
  (forall i j, at_place v i = Some PAccept -> at_place v j = Some PAccept -> i = j) /\
  exists ls' v' i, length ls' <= 2 /\ Forall (fun l => l = LSpawn \/ exists j, l = LTell j) ls' /\
    srun allow v ls' = Some (v', []) /\ at_place v' i = Some PAccept /\
    exists v'', srun allow v' [LAccept i true; LTell i; LTell i; LPeer i true] = Some (v'', [EAccepted i]) /\ in_loop v'' i.
Proof.
  intros allow ls v tr R. assert (I := reach_inv _ _ _ _ _ wf_chunk_ok R). assert (A := i_acc _ _ _ I). split.
  - intros i j. unfold at_place. destruct (nth_error (v_cl v) i) as [c|] eqn:E; [|discriminate]. destruct (nth_error (v_cl v) j) as [d|] eqn:F; [|discriminate].
    intros X Y. injection X as X. injection Y as Y. destruct (Nat.eq_dec i j) as [|N]; [assumption|]. exfalso.
    assert (T := sumf_two f_acc _ _ _ _ _ E F N). unfold f_acc in T at 1 2. rewrite X, Y in T. lia.
  - assert (G : forall u i o t, nth_error (v_cl u) i = Some (mkCl PAccept o t) -> at_place u i = Some PAccept /\
      exists v'', srun allow u [LAccept i true; LTell i; LTell i; LPeer i true] = Some (v'', [EAccepted i]) /\ in_loop v'' i).
    { intros u i o t E. unfold at_place. split; [rewrite E; reflexivity|]. cbn [srun sstep]. rewrite E. cbn [srun sstep v_cl].
      assert (P := nth_put (mkCl PGot o t) _ _ _ E i). rewrite Nat.eqb_refl in P. rewrite P. cbn [srun sstep v_cl].
      assert (P2 := nth_put (mkCl PTold o t) _ _ _ P i). rewrite Nat.eqb_refl in P2. rewrite P2. cbn [srun sstep v_cl].
      assert (P3 := nth_put (mkCl PCounted o t) _ _ _ P2 i). rewrite Nat.eqb_refl in P3. rewrite P3. cbn [srun sstep v_cl].
      eexists. split; [reflexivity|]. unfold in_loop, at_place. cbn [v_cl]. rewrite (nth_put _ _ _ _ P3 i), Nat.eqb_refl. cbn. eauto. }
    assert (SP : forall u, v_lbox u = 1 -> exists u' i o t, sstep allow u LSpawn = Some (u', []) /\ nth_error (v_cl u') i = Some (mkCl PAccept o t)).
    { intros u L. cbn [sstep]. rewrite L. do 4 eexists. split; [reflexivity|]. cbn [v_cl]. rewrite nth_error_app2 by apply Nat.le_refl. rewrite Nat.sub_diag. reflexivity. }
    destruct (v_lbox v) as [|n] eqn:L.
    + destruct (sumf_pos f_acc (v_cl v) ltac:(lia)) as (i & [p o t] & E & F).
      destruct p; unfold f_acc in F; cbn in F; try lia.
      * destruct (G v i o t E) as (G1 & G2). exists [], v, i. split; [cbn; lia|]. split; [constructor|]. split; [reflexivity|]. split; [exact G1|exact G2].
      * destruct (SP (mkSrv (put_client (v_cl v) i (mkCl PTold o t)) (S (v_lbox v)) (v_sbox v) (v_st v)) ltac:(cbn; lia)) as (u & j & o' & t' & S1 & S2).
        destruct (G u j o' t' S2) as (G1 & G2). exists [LTell i; LSpawn], u, j. split; [cbn; lia|]. split; [constructor; [right; eauto|constructor; [left; reflexivity|constructor]]|].
        split; [|split; [exact G1|exact G2]]. cbn [srun].
        replace (sstep allow v (LTell i)) with (Some (mkSrv (put_client (v_cl v) i (mkCl PTold o t)) (S (v_lbox v)) (v_sbox v) (v_st v), @nil sev)) by (cbn [sstep]; rewrite E; reflexivity). rewrite S1. reflexivity.
      * destruct (SP (mkSrv (put_client (v_cl v) i (mkCl PEnd o t)) (S (v_lbox v)) (v_sbox v) (v_st v)) ltac:(cbn; lia)) as (u & j & o' & t' & S1 & S2).
        destruct (G u j o' t' S2) as (G1 & G2). exists [LTell i; LSpawn], u, j. split; [cbn; lia|]. split; [constructor; [right; eauto|constructor; [left; reflexivity|constructor]]|].
        split; [|split; [exact G1|exact G2]]. cbn [srun].
        replace (sstep allow v (LTell i)) with (Some (mkSrv (put_client (v_cl v) i (mkCl PEnd o t)) (S (v_lbox v)) (v_sbox v) (v_st v), @nil sev)) by (cbn [sstep]; rewrite E; reflexivity). rewrite S1. reflexivity.
    + destruct (SP v ltac:(lia)) as (u & j & o' & t' & S1 & S2). destruct (G u j o' t' S2) as (G1 & G2).
      exists [LSpawn], u, j. split; [cbn; lia|]. split; [repeat constructor; eauto|]. split; [|split; [exact G1|exact G2]]. cbn [srun]. rewrite S1. reflexivity.
Qed.

(** What a step is about. *)
Definition client_of (l : slabel) : option nat :=
  match l with
  | LAccept i _ | LTell i | LPeer i _ | LEvent i _ | LLookupFails i | LClosed i | LOwnerFails i | LKilled i | LOwnerEnds i => Some i
  | LSpawn | LStats => None
  end.
Definition processes (v : srv) (i : nat) : option (place * owner) := option_map (fun c => (cl_place c, cl_owner c)) (nth_error (v_cl v) i).
Definition event_of (e : sev) : nat :=
  match e with EAccepted i | EAcceptError i | ENoPeer i | EChunk i _ _ _ | EReply i _ | EClosed i | ECrashed i => i end.

Lemma on_stats_processes cl s m cl' s' : on_stats cl s m = Some (cl', s') ->
  forall i, option_map (fun c => (cl_place c, cl_owner c)) (nth_error cl' i) = option_map (fun c => (cl_place c, cl_owner c)) (nth_error cl i).
Proof.
  destruct m as [| |j|j]; cbn [on_stats]; intros H i; try (injection H as <- <-; reflexivity).
  destruct (nth_error cl j) as [[p o [k|]]|] eqn:E; try discriminate. injection H as <- <-. rewrite (nth_put _ _ _ _ E).
  destruct (Nat.eqb_spec i j) as [->|N]; [|reflexivity]. rewrite E. reflexivity.
Qed.

(** A step about one client, also its crash, does nothing to the processes of another. *)
Theorem C105_others : forall allow ls v tr l v' es j, srun allow start ls = Some (v, tr) -> sstep allow v l = Some (v', es) ->
  client_of l <> Some j -> j < length (v_cl v) ->
  processes v' j = processes v j /\ Forall (fun e => event_of e <> j) es.
Proof.
  intros allow ls v tr l v' es j R S N L. assert (I := reach_inv _ _ _ _ _ wf_chunk_ok R).
  assert (X : forall i, client_of l = Some i -> Forall (fun e => event_of e = i) es).
  { intros i Ci. destruct l as [i' ok|i'|i' ok|i' e|i'|i'|i'|i'|i'| |]; cbn [client_of] in Ci; try discriminate; injection Ci as ->; cbn [sstep] in S.
    all: destruct (nth_error (v_cl v) i) as [[p o t]|]; [|discriminate].
    - destruct p; try discriminate. injection S as <- <-. constructor; [destruct ok; reflexivity|constructor].
    - destruct p; try discriminate; injection S as <- <-; constructor.
    - destruct p; try discriminate. destruct ok; injection S as <- <-; repeat constructor.
    - destruct p; try discriminate. destruct t; [|discriminate]. destruct (man_step allow m e) as [[m' cs] out].
      destruct (m_dead m'); injection S as <- <-; destruct e; repeat constructor.
    - destruct p; try discriminate. injection S as <- <-; repeat constructor.
    - destruct p; try discriminate. injection S as <- <-; repeat constructor.
    - destruct o; try discriminate. injection S as <- <-; repeat constructor.
    - destruct p; try discriminate. destruct o; try discriminate. injection S as <- <-; repeat constructor.
    - destruct p; try discriminate; destruct o; try discriminate; injection S as <- <-; repeat constructor. }
  assert (Y : forall i c, client_of l = Some i -> nth_error (v_cl v) i = Some c -> (exists c', v_cl v' = put_client (v_cl v) i c') -> processes v' j = processes v j).
  { intros i c Ci E (c' & V). unfold processes. rewrite V, (nth_put c' _ _ _ E). destruct (Nat.eqb_spec j i) as [->|]; [congruence|reflexivity]. }
  split.
  - destruct l as [i ok|i|i ok|i e|i|i|i|i|i| |]; cbn [sstep] in S.
    all: try (destruct (nth_error (v_cl v) i) as [[p o t]|] eqn:E; [|discriminate]).
    1-9: eapply (Y i); [reflexivity|exact E|].
    + destruct p; try discriminate. injection S as <- <-. eexists; reflexivity.
    + destruct p; try discriminate; injection S as <- <-; eexists; reflexivity.
    + destruct p; try discriminate. destruct ok; injection S as <- <-; eexists; reflexivity.
    + destruct p; try discriminate. destruct t; [|discriminate]. destruct (man_step allow m e) as [[m' cs] out].
      destruct (m_dead m'); injection S as <- <-; eexists; reflexivity.
    + destruct p; try discriminate. injection S as <- <-; eexists; reflexivity.
    + destruct p; try discriminate. injection S as <- <-; eexists; reflexivity.
    + destruct o; try discriminate. injection S as <- <-; eexists; reflexivity.
    + destruct p; try discriminate. destruct o; try discriminate. injection S as <- <-; eexists; reflexivity.
    + destruct p; try discriminate; destruct o; try discriminate; injection S as <- <-; eexists; reflexivity.
    + destruct (v_lbox v); [discriminate|]. injection S as <- <-. unfold processes. cbn [v_cl]. rewrite nth_error_app1 by exact L. reflexivity.
    + destruct (v_sbox v) as [|m r]; [discriminate|]. destruct (on_stats (v_cl v) (v_st v) m) as [[cl s]|] eqn:O; [|discriminate]. injection S as <- <-.
      exact (on_stats_processes _ _ _ _ _ O j).
  - destruct (client_of l) as [i|] eqn:Ci.
    + eapply Forall_impl; [|apply (X i eq_refl)]. cbn. intros e -> ->. apply N. reflexivity.
    + destruct l; try discriminate; cbn [sstep] in S.
      * destruct (v_lbox v); [discriminate|]. injection S as <- <-. constructor.
      * destruct (v_sbox v) as [|m r]; [discriminate|]. destruct (on_stats (v_cl v) (v_st v) m) as [[cl s]|]; [|discriminate]. injection S as <- <-. constructor.
Qed.

(** Managers that have ended (or are ending) without their socket process. *)
Definition leftovers (v : srv) : nat := length (filter leftover (v_cl v)).
Definition ending (v : srv) : nat := length (filter (fun c => match cl_place c with PErr => true | _ => false end) (v_cl v)).

(** The process that owns the socket ends after its manager, unless accepting had failed:
    those are left, one for each failure. *)
Theorem C105_left : forall allow ls v tr, srun allow start ls = Some (v, tr) ->
  (forall i p o, processes v i = Some (p, o) -> p = PEnd \/ p = PCrash -> o = ORun ->
     exists v', sstep allow v (LOwnerEnds i) = Some (v', []) /\ processes v' i = Some (p, OEnd)) /\
  (Z.of_nat (leftovers v + ending v) = number is_failed tr)%Z.
Proof.
  intros allow ls v tr R. assert (I := reach_inv _ _ _ _ _ wf_chunk_ok R). split.
  - intros i p o. unfold processes. destruct (nth_error (v_cl v) i) as [[p' o' t]|] eqn:E; [|discriminate]. cbn [option_map cl_place cl_owner].
    intros X P ->. injection X as -> ->. cbn [sstep]. rewrite E. destruct P as [-> | ->]; eexists; (split; [reflexivity|]); cbn [v_cl];
      rewrite (nth_put _ _ _ _ E), Nat.eqb_refl; reflexivity.
  - rewrite <- (i_left _ _ _ I). f_equal. unfold leftovers, ending. generalize (v_cl v). induction l as [|[p o t] l IH]; [reflexivity|].
    cbn [filter sumf]. rewrite <- IH. unfold f_left, leftover. cbn [cl_place cl_owner]. destruct p; destruct o; cbn [length]; lia.
Qed.

Lemma filter_put_ge (f : client -> bool) c' : forall cl i c, nth_error cl i = Some c -> (f c = true -> f c' = true) ->
  length (filter f cl) <= length (filter f (put_client cl i c')).
Proof.
  induction cl as [|x cl IH]; intros [|i] c E H; try discriminate.
  - injection E as ->. unfold put_client. cbn. destruct (f c); [rewrite (H eq_refl); reflexivity|]. destruct (f c'); cbn; lia.
  - rewrite put_cons. cbn [filter]. specialize (IH i c E H). destruct (f x); cbn [length]; lia.
Qed.

Lemma leftovers_step allow wf v tr l v' es : inv wf v tr -> (forall p, wf p = true <-> well_formed p) -> sstep allow v l = Some (v', es) -> leftovers v <= leftovers v'.
Proof.
  intros I W S. unfold leftovers. destruct (sstep_move allow wf W v l v' es (inv_alive _ _ _ I) S) as [(_ & n & _ & -> & _)|[(_ & m & r & cl & s & B & O & -> & _)|(i & c & c' & k & ms & E & M & ->)]]; cbn [v_cl].
  - rewrite filter_app, app_length. lia.
  - destruct m as [| |j|j]; cbn [on_stats] in O; try (injection O as <- <-; reflexivity).
    destruct (nth_error (v_cl v) j) as [[p o [k|]]|] eqn:E; try discriminate. injection O as <- <-. apply (filter_put_ge _ _ _ _ _ E). intros H. exact H.
  - apply (filter_put_ge _ _ _ _ _ E). destruct M; cbn; intros H'; try exact H'; try discriminate; try (destruct o; discriminate); destruct H as [->| ->]; discriminate.
Qed.

(** False of the code: when accept fails, which it does as long as the error lasts (as
    "too many open files"), the manager ends with reason normal; its socket process,
    which traps exits, waits for its socket for ever.  The listener starts two further
    processes at once, so n failures leave n processes which nothing ends. *)
Theorem C105_leak_refuted : forall allow n, exists ls v tr,
  srun allow start ls = Some (v, tr) /\ length ls = 3 * n /\ number is_accepted tr = 0%Z /\ leftovers v = n /\
  forall ls' v' tr', srun allow v ls' = Some (v', tr') -> n <= leftovers v'.
Proof.
  intros allow n.
  assert (K : exists ls tr v d, srun allow start ls = Some (v, tr) /\ v = mkSrv (d ++ [mkCl PAccept OWait None]) 0 [] (v_st start) /\ length ls = 3 * n /\
     number is_accepted tr = 0%Z /\ length (filter leftover d) = n).
  { induction n as [|n (ls & tr & v & d & R & V & L & A & F)].
    - exists [], [], start, []. repeat split.
    - exists (ls ++ [LAccept (length d) false; LTell (length d); LSpawn]). do 2 eexists. exists (d ++ [mkCl PEnd OWait None]). rewrite srun_app, R, V.
      assert (P : forall x y, nth_error (d ++ [x]) (length d) = Some x /\ put_client (d ++ [x]) (length d) y = d ++ [y]).
      { intros x y. split; [rewrite nth_error_app2, Nat.sub_diag by lia; reflexivity|]. unfold put_client.
        rewrite firstn_app, Nat.sub_diag, firstn_all, app_nil_r. rewrite skipn_app, skipn_all2 by lia.
        replace (S (length d) - length d) with 1 by lia. reflexivity. }
      split; [|split; [reflexivity|split; [|split]]].
      + cbn [srun sstep v_cl v_lbox v_sbox v_st]. rewrite (proj1 (P _ (mkCl PErr OWait None))). cbn [v_cl v_lbox v_sbox v_st].
        rewrite (proj2 (P _ (mkCl PErr OWait None))). rewrite (proj1 (P _ (mkCl PErr OWait None))). cbn [v_cl v_lbox v_sbox v_st].
        rewrite (proj2 (P _ (mkCl PEnd OWait None))). rewrite <- app_assoc. reflexivity.
      + rewrite app_length, L. cbn [length]. lia.
      + cbn [app]. rewrite number_app, A. reflexivity.
      + rewrite filter_app, app_length, F. cbn. lia. }
  destruct K as (ls & tr & v & d & R & V & L & A & F). exists ls, v, tr. split; [exact R|]. split; [exact L|]. split; [exact A|].
  assert (LV : leftovers v = n) by (rewrite V; unfold leftovers; cbn [v_cl]; rewrite filter_app, app_length, F; cbn; lia). split; [exact LV|].
  assert (I := reach_inv _ _ _ _ _ wf_chunk_ok R). rewrite <- LV. clear R V L A F LV.
  intros ls'. revert v tr I. induction ls' as [|l ls' IH]; intros v tr I v' tr' R'; cbn [srun] in R'.
  - injection R' as <- <-. lia.
  - destruct (sstep allow v l) as [[v1 e1]|] eqn:S1; [|discriminate]. destruct (srun allow v1 ls') as [[v2 e2]|] eqn:S2; [|discriminate]. injection R' as <- <-.
    assert (I1 := inv_step allow _ wf_chunk_ok _ _ _ _ _ I S1). assert (M := leftovers_step _ _ _ _ _ _ _ I wf_chunk_ok S1). specialize (IH _ _ I1 _ _ S2). lia.
Qed.

(** ** C106 *)

Lemma settled_early wf v tr : inv wf v tr -> settled v -> sumf f_early (v_cl v) = 0.
Proof.
  intros I (B & P). destruct (sumf f_early (v_cl v)) eqn:E; [reflexivity|]. destruct (sumf_pos f_early (v_cl v) ltac:(lia)) as (i & c & E1 & E2).
  exfalso. destruct (P i (cl_place c)) as (P1 & P2 & P3); [unfold at_place; rewrite E1; reflexivity|].
  unfold f_early in E2. destruct (cl_place c); try lia; congruence.
Qed.

(** Once the messages have been handled: all clients ever accepted, and those connected,
    but a client whose processes failed counts as connected for ever. *)
Theorem C106_clients : forall allow ls v tr, srun allow start ls = Some (v, tr) -> settled v ->
  rp_all (report_of v) = accepted tr /\
  rp_active (report_of v) = (connected tr + number is_crashed tr)%Z.
Proof.
  intros allow ls v tr R S. assert (I := reach_inv _ _ _ _ _ wf_chunk_ok R). assert (E := settled_early _ _ _ I S).
  assert (A := i_all _ _ _ I). assert (B := i_act _ _ _ I). destruct S as (B0 & _). rewrite B0, ?E in *. unfold delta in *. cbn in A, B.
  cbn [report_of rp_all rp_active]. unfold accepted, connected. lia.
Qed.

(** With no failure the number of connections is right.  The full claim has no such
    hypothesis and is false of the code: [C106_crash_refuted]. *)
Theorem C106_active_partial : forall allow ls v tr, srun allow start ls = Some (v, tr) -> settled v -> number is_crashed tr = 0%Z ->
  rp_active (report_of v) = connected tr.
Proof. intros allow ls v tr R S Z. destruct (C106_clients _ _ _ _ R S) as (_ & ->). lia. Qed.

(** The peak: never below a number of connections reported, now or before, and never
    above the number of clients that were there at some time (a failed one counting as
    there, [is_left]). *)
Theorem C106_peak : forall allow ls v tr ls' v' tr', srun allow start ls = Some (v, tr) -> srun allow v ls' = Some (v', tr') ->
  (rp_active (report_of v) <= rp_peak (report_of v))%Z /\ (rp_peak (report_of v) <= rp_peak (report_of v') <= peak (tr ++ tr'))%Z.
Proof.
  intros allow ls v tr ls' v' tr' R R'. assert (I := reach_inv _ _ _ _ _ wf_chunk_ok R).
  assert (I' := inv_run allow _ wf_chunk_ok ls' _ _ _ _ I R').
  assert (M := i_max _ _ _ I). assert (M' := i_max _ _ _ I'). cbn [report_of rp_active rp_peak].
  assert (MM : (st_max (v_st v) <= st_max (v_st v'))%Z).
  { clear - R' I. revert v tr I v' tr' R'. induction ls' as [|l ls' IH]; intros v tr I v' tr' R'; cbn [srun] in R'; [injection R' as <- <-; lia|].
    destruct (sstep allow v l) as [[v1 e1]|] eqn:S1; [|discriminate]. destruct (srun allow v1 ls') as [[v2 e2]|] eqn:S2; [|discriminate]. injection R' as <- <-.
    assert (I1 := inv_step allow _ wf_chunk_ok _ _ _ _ _ I S1). specialize (IH _ _ I1 _ _ S2).
    enough (st_max (v_st v) <= st_max (v_st v1))%Z by lia.
    destruct (sstep_move allow _ wf_chunk_ok v l v1 e1 (inv_alive _ _ _ I) S1) as [(_ & n & _ & -> & _)|[(_ & m & r & cl & s & B & O & -> & _)|(i & c & c' & k & ms & E & M & ->)]];
      cbn [v_st]; try lia.
    destruct m as [| |j|j]; cbn [on_stats] in O; try (injection O as <- <-; cbn; lia).
    - injection O as <- <-. cbn [st_max]. destruct (Z.ltb_spec (st_max (v_st v)) (st_active (v_st v) + 1)); lia.
    - destruct (nth_error (v_cl v) j) as [[p o [k|]]|]; try discriminate. injection O as <- <-. cbn. lia. }
  lia.
Qed.

(** The statistics process can always handle its next message, and there is always a
    table for each row of its report: it never fails. *)
Theorem C106_alive : forall allow ls v tr, srun allow start ls = Some (v, tr) ->
  (v_sbox v <> [] -> exists v', sstep allow v LStats = Some (v', [])) /\
  (forall i o, In (i, o) (rp_rows (report_of v)) -> o <> None).
Proof.
  intros allow ls v tr R. assert (I := reach_inv _ _ _ _ _ wf_chunk_ok R). split.
  - intros N. destruct (v_sbox v) as [|m r] eqn:B; [contradiction|]. destruct (inv_stats _ _ _ _ _ I B) as (cl & s & O & _).
    cbn [sstep]. rewrite B, O. eauto.
  - intros i o H. cbn [report_of rp_rows] in H. apply in_map_iff in H as (j & H & J). injection H as -> <-.
    assert (C := i_cl _ _ _ I i). assert (OC : 0 < occ i (st_cur (v_st v))).
    { clear - J. induction (st_cur (v_st v)) as [|k l IH]; [contradiction|]. rewrite occ_cons. destruct J as [->|J]; [rewrite Nat.eqb_refl; cbn; lia|]. specialize (IH J). lia. }
    destruct (nth_error (v_cl v) i) as [[p o t]|]; [|lia]. destruct C as (_ & C). cbn [cl_place cl_tab cl_owner] in *.
    destruct t; [discriminate|]. destruct p; try contradiction; lia.
Qed.

Lemma occ_in i l : In i l <-> 0 < occ i l.
Proof.
  induction l as [|k l IH]; [cbn; lia|]. rewrite occ_cons. cbn [In]. destruct (Nat.eqb_spec i k) as [->|N]; cbn [b2n]; [lia|].
  rewrite IH. split; [intros [H|H]; [congruence|lia]|right; lia].
Qed.
Lemma occ_nodup l : (forall i, occ i l <= 1) -> NoDup l.
Proof.
  induction l as [|k l IH]; intros H; constructor.
  - intros J. apply occ_in in J. specialize (H k). rewrite occ_cons, Nat.eqb_refl in H. cbn in H. lia.
  - apply IH. intros i. specialize (H i). rewrite occ_cons in H. lia.
Qed.

Section Rows.
Variables (wf : bytes -> bool) (v : srv) (tr : list sev).
Hypothesis I : inv wf v tr.
Hypothesis B : v_sbox v = [].

Lemma cur_occ i : occ i (st_cur (v_st v)) = match at_place v i with Some (PLoop _) => 1 | _ => 0 end.
Proof.
  assert (C := i_cl _ _ _ I i). unfold at_place. rewrite B in C. destruct (nth_error (v_cl v) i) as [[p o t]|]; cbn [option_map cl_place]; [|tauto].
  destruct C as (_ & C). cbn [cl_place cl_tab cl_owner] in C. unfold nmsg in C. cbn in C. destruct p; destruct t; lia.
Qed.
Lemma tab_none i c : nth_error (v_cl v) i = Some c -> cl_tab c = match cl_place c with PLoop _ => Some (mine wf i tr) | _ => None end.
Proof.
  intros E. assert (C := i_cl _ _ _ I i). rewrite E, B in C. destruct C as (_ & C). destruct c as [p o t]. cbn [cl_place cl_tab cl_owner] in *.
  unfold nmsg in C. cbn in C. destruct p; destruct t; try contradiction; try reflexivity; try lia.
  destruct C as (_ & _ & _ & _ & ->). reflexivity.
Qed.
Lemma cur_nodup : NoDup (st_cur (v_st v)).
Proof. apply occ_nodup. intros i. rewrite cur_occ. destruct (at_place v i) as [[]|]; lia. Qed.

Definition isum (g : nat -> nat) (l : list nat) : nat := fold_right (fun i s => g i + s) 0 l.
Lemma isum_perm g l l' : Permutation l l' -> isum g l = isum g l'.
Proof. unfold isum. induction 1; cbn [fold_right]; lia. Qed.
Lemma sumf_isum (f : client -> nat) : forall cl k,
  sumf f cl = isum (fun i => match nth_error cl (i - k) with Some c => f c | None => 0 end) (seq k (length cl)).
Proof.
  induction cl as [|c cl IH]; intros k; [reflexivity|]. cbn [sumf length seq isum fold_right]. rewrite Nat.sub_diag. cbn [nth_error]. f_equal.
  rewrite (IH (S k)). unfold isum. assert (G : forall n m, k < m ->
    fold_right (fun i s => match nth_error cl (i - S k) with Some c0 => f c0 | None => 0 end + s) 0 (seq m n) =
    fold_right (fun i s => match nth_error (c :: cl) (i - k) with Some c0 => f c0 | None => 0 end + s) 0 (seq m n)).
  { induction n as [|n IHn]; intros m M; [reflexivity|]. cbn [seq fold_right]. rewrite IHn by lia. f_equal. replace (m - k) with (S (m - S k)) by lia. reflexivity. }
  apply G. lia.
Qed.
Definition looping (i : nat) : bool := match at_place v i with Some (PLoop _) => true | _ => false end.
Lemma cur_perm : Permutation (st_cur (v_st v)) (filter looping (seq 0 (length (v_cl v)))).
Proof.
  apply NoDup_Permutation; [exact cur_nodup|apply NoDup_filter, seq_NoDup|]. intros i. rewrite occ_in, cur_occ, filter_In, in_seq. unfold looping.
  destruct (at_place v i) as [p|] eqn:E; [|split; [lia|intros (_ & X); discriminate]].
  assert (i < length (v_cl v)) by (unfold at_place in E; apply nth_error_Some; destruct (nth_error (v_cl v) i); discriminate).
  destruct p; split; try lia; try (intros (_ & X); discriminate).
Qed.
Lemma sum_cur (f : client -> nat) : (forall c, cl_tab c = None -> f c = 0) ->
  sumf f (v_cl v) = isum (fun i => match nth_error (v_cl v) i with Some c => f c | None => 0 end) (st_cur (v_st v)).
Proof.
  intros F0. rewrite (sumf_isum f (v_cl v) 0), (isum_perm _ _ _ cur_perm). generalize (seq 0 (length (v_cl v))) as l.
  induction l as [|i l IH]; [reflexivity|]. cbn [isum fold_right filter]. unfold isum in IH. rewrite IH. rewrite Nat.sub_0_r. unfold looping, at_place.
  destruct (nth_error (v_cl v) i) as [c|] eqn:E; cbn [option_map].
  - assert (T := tab_none i c E). destruct (cl_place c) eqn:P; try (rewrite (F0 c T); reflexivity).
    cbn [fold_right]. rewrite E. reflexivity.
  - reflexivity.
Qed.
Lemma sum_rows_isum l :
  let r := sum_rows (map (fun i => (i, match nth_error (v_cl v) i with Some c => cl_tab c | None => None end)) l) in
  let g := fun f => isum (fun i => match nth_error (v_cl v) i with Some c => f (tab c) | None => 0 end) l in
  c_in r = g c_in /\ c_bad r = g c_bad /\ c_sent r = g c_sent.
Proof.
  cbv zeta. induction l as [|i l (H1 & H2 & H3)]; [repeat split|]. cbn [map sum_rows isum fold_right]. unfold isum in *.
  destruct (nth_error (v_cl v) i) as [[p o [k|]]|]; cbn [cl_tab tab c_in c_bad c_sent]; unfold tab; cbn [cl_tab c_in c_bad c_sent]; rewrite ?H1, ?H2, ?H3; repeat split.
Qed.
End Rows.

(** Once the messages have been handled: a row for each client with a connection, no
    other, which gives its traffic; and with the row of old clients the rows add up to
    the traffic of all clients.  Chunks refused because their target is blocked are left
    out: see [C106_blocked_refuted]. *)
Theorem C106_rows : forall wf allow ls v tr, (forall p, wf p = true <-> well_formed p) -> srun allow start ls = Some (v, tr) -> v_sbox v = [] ->
  NoDup (map fst (rp_rows (report_of v))) /\
  (forall i, In i (map fst (rp_rows (report_of v))) <-> in_loop v i) /\
  (forall i o, In (i, o) (rp_rows (report_of v)) -> o = Some (total wf (filter (of_client i) (not_refused tr)))) /\
  (let s := sum_rows (rp_rows (report_of v)) in let old := rp_old (report_of v) in
   mkC (c_in old + c_in s) (c_bad old + c_bad s) (c_sent old + c_sent s) = total wf (not_refused tr)).
Proof.
  intros wf allow ls v tr W R B. assert (I := reach_inv _ _ _ _ _ W R).
  assert (MF : map fst (rp_rows (report_of v)) = st_cur (v_st v)) by (cbn [report_of rp_rows]; rewrite map_map; cbn [fst]; apply map_id).
  assert (INL : forall i, In i (st_cur (v_st v)) <-> in_loop v i).
  { intros i. rewrite occ_in, (cur_occ _ _ _ I B). unfold in_loop. destruct (at_place v i) as [[]|]; split; try lia; try (intros (x & E); discriminate); eauto. }
  rewrite MF. split; [exact (cur_nodup _ _ _ I B)|]. split; [exact INL|]. split.
  - intros i o H. cbn [report_of rp_rows] in H. apply in_map_iff in H as (j & H & J). injection H as -> <-.
    apply INL in J as (m & J). unfold at_place in J. destruct (nth_error (v_cl v) i) as [c|] eqn:E; [|discriminate]. injection J as J.
    rewrite (tab_none _ _ _ I B i c E), J. reflexivity.
  - cbv zeta. cbn [report_of rp_rows rp_old]. destruct (sum_rows_isum v (st_cur (v_st v))) as (H1 & H2 & H3). cbv zeta in H1, H2, H3.
    assert (A1 := i_in _ _ _ I). assert (A2 := i_bad _ _ _ I). assert (A3 := i_sent _ _ _ I).
    rewrite (sum_cur _ _ _ I B) in A1, A2, A3 by (intros [p o t]; cbn; intros ->; reflexivity).
    rewrite H1, H2, H3. destruct (total wf (not_refused tr)) as [x y z]. cbn [c_in c_bad c_sent] in *. f_equal; assumption.
Qed.

(** So with no refused chunk the counters are those of the traffic.  The full claim has
    no such hypothesis and is false of the code: [C106_blocked_refuted]. *)
Theorem C106_traffic_partial : forall wf allow ls v tr, (forall p, wf p = true <-> well_formed p) -> srun allow start ls = Some (v, tr) -> v_sbox v = [] ->
  Forall (fun e => refused e = false) tr ->
  (forall i o, In (i, o) (rp_rows (report_of v)) -> o = Some (total wf (filter (of_client i) tr))) /\
  (let s := sum_rows (rp_rows (report_of v)) in let old := rp_old (report_of v) in
   mkC (c_in old + c_in s) (c_bad old + c_bad s) (c_sent old + c_sent s) = total wf tr).
Proof.
  intros wf allow ls v tr W R B F. destruct (C106_rows wf allow ls v tr W R B) as (_ & _ & H1 & H2).
  assert (N : not_refused tr = tr) by (clear - F; unfold not_refused; induction F as [|e t E F IH]; [reflexivity|]; cbn [filter]; rewrite E, IH; reflexivity).
  rewrite N in *. split; assumption.
Qed.

(** ** Cases *)

(** A client connects as the i-th. *)
Definition con (i : nat) : list slabel := [LAccept i true; LTell i; LSpawn; LTell i; LPeer i true].
Definition tgt : target := (0xC0A8C8C8, 50001)%N.
(** A chunk of two requests of two words and of one, and one that stops within its request. *)
Definition two_requests : bytes := ([0xC0; 0xA8; 200; 200; 195; 81; 0; 2; 1; 2; 3; 4; 5; 6; 7; 8] ++ [0xC0; 0xA8; 200; 200; 195; 81; 0; 1; 9; 9; 9; 9])%N.
Definition bad_chunk : bytes := [0xC0; 0xA8; 200; 200; 195; 81; 0; 2; 1; 2; 3; 4]%N.
Definition reply (d : bytes) : mevent := MResp (mkR (Some tgt) 0%N d).
Definition free (t : target) : bool := true.

(** Two clients; one sends a good chunk and gets its two replies, the other sends a bad
    one and goes; a third attempt to connect fails. *)
Definition ls1 : list slabel :=
  con 0 ++ con 1 ++ [LEvent 0 (MChunk two_requests); LEvent 1 (MChunk bad_chunk); LEvent 0 (reply [1]%N); LEvent 0 (reply [2]%N);
                     LAccept 2 false; LClosed 1; LOwnerEnds 1].
Definition after (allow : target -> bool) (ls : list slabel) : srv := match srun allow start ls with Some (v, _) => v | None => start end.
Definition seen (allow : target -> bool) (ls : list slabel) : list sev := match srun allow start ls with Some (_, tr) => tr | None => [] end.
Definition possible (allow : target -> bool) (ls : list slabel) : bool := match srun allow start ls with Some _ => true | None => false end.
Lemma possible_run allow ls : possible allow ls = true -> srun allow start ls = Some (after allow ls, seen allow ls).
Proof. unfold possible, after, seen. destruct (srun allow start ls) as [[v tr]|]; [reflexivity|discriminate]. Qed.

(** Nobody is waiting for a client after [ls1]; two steps later there is one. *)
Example C105_accepts_case : possible free ls1 = true /\ map (at_place (after free ls1)) [0; 1; 2; 3] = [Some (PLoop (mkMan (Some tgt) [] [] false)); Some PEnd; Some PErr; None] /\
  at_place (after free (ls1 ++ [LTell 2; LSpawn])) 3 = Some PAccept.
Proof. split; [|split]; vm_compute; reflexivity. Qed.
Example C105_others_case : client_of (LClosed 0) <> Some 1 /\ possible free (ls1 ++ [LClosed 0]) = true /\
  processes (after free (ls1 ++ [LClosed 0])) 1 = Some (PEnd, OEnd) /\ processes (after free (ls1 ++ [LClosed 0])) 0 = Some (PEnd, ORun).
Proof. split; [discriminate|]. split; [|split]; vm_compute; reflexivity. Qed.
Example C105_left_case : possible free (ls1 ++ [LClosed 0; LTell 2]) = true /\
  processes (after free (ls1 ++ [LClosed 0; LTell 2])) 0 = Some (PEnd, ORun) /\ leftovers (after free (ls1 ++ [LClosed 0; LTell 2])) = 1 /\
  number is_failed (seen free (ls1 ++ [LClosed 0; LTell 2])) = 1%Z.
Proof. repeat split; vm_compute; reflexivity. Qed.

Definition ls2 : list slabel := ls1 ++ repeat LStats 6.
Definition quiet_place (c : client) : bool := match cl_place c with PGot | PTold | PCounted => false | _ => true end.
Lemma settled_check v : Nat.eqb (length (v_sbox v)) 0 && forallb quiet_place (v_cl v) = true -> settled v.
Proof.
  intros H. apply andb_true_iff in H as (A & F). apply Nat.eqb_eq in A. split; [destruct (v_sbox v); [reflexivity|discriminate]|].
  intros i p. unfold at_place. destruct (nth_error (v_cl v) i) as [c|] eqn:E; [|discriminate]. intros X. injection X as <-.
  rewrite forallb_forall in F. specialize (F c (nth_error_In _ _ E)). unfold quiet_place in F. destruct (cl_place c); repeat split; try discriminate.
Qed.
Lemma ls2_settled : settled (after free ls2).
Proof. apply settled_check. vm_compute. reflexivity. Qed.
Example C106_clients_case : possible free ls2 = true /\ settled (after free ls2) /\ number is_crashed (seen free ls2) = 0%Z /\
  accepted (seen free ls2) = 2%Z /\ connected (seen free ls2) = 1%Z /\ peak (seen free ls2) = 2%Z /\
  report_of (after free ls2) = mkRep 2 1 2 [(0, Some (mkC 2 0 2))] (mkC 0 1 0).
Proof. split; [vm_compute; reflexivity|]. split; [exact ls2_settled|]. repeat split; vm_compute; reflexivity. Qed.

(** The peak need not be reached: here the second client was accepted before the first
    left, but the message about the first came earlier. *)
Example C106_peak_case :
  let ls := con 0 ++ [LAccept 1 true; LTell 1; LClosed 0; LTell 1; LPeer 1 true] ++ repeat LStats 6 in
  possible free ls = true /\ v_sbox (after free ls) = [] /\ peak (seen free ls) = 2%Z /\ rp_peak (report_of (after free ls)) = 1%Z.
Proof. repeat split; vm_compute; reflexivity. Qed.

(** A report in the middle: the table of the second client has not been announced. *)
Example C106_alive_case : possible free (ls1 ++ repeat LStats 3) = true /\ v_sbox (after free (ls1 ++ repeat LStats 3)) <> [] /\
  rp_rows (report_of (after free (ls1 ++ repeat LStats 3))) = [(0, Some (mkC 2 0 2))] /\
  rp_rows (report_of (after free (ls1 ++ repeat LStats 4))) = [(1, Some (mkC 0 1 0)); (0, Some (mkC 2 0 2))].
Proof. split; [|split; [|split]]; vm_compute; try reflexivity. discriminate. Qed.

Example C106_rows_case : possible free ls2 = true /\ v_sbox (after free ls2) = [] /\ Forall (fun e => refused e = false) (seen free ls2) /\
  total wf_chunk (seen free ls2) = mkC 2 1 2 /\ total wf_chunk (filter (of_client 0) (seen free ls2)) = mkC 2 0 2 /\
  wf_chunk two_requests = true /\ wf_chunk bad_chunk = false.
Proof.
  split; [vm_compute; reflexivity|]. split; [vm_compute; reflexivity|]. split; [|repeat split; vm_compute; reflexivity].
  apply Forall_forall. intros e H. assert (X : forallb (fun e => negb (refused e)) (seen free ls2) = true) by (vm_compute; reflexivity).
  rewrite forallb_forall in X. specialize (X e H). destruct (refused e); [discriminate|reflexivity].
Qed.

(** False of the code: the manager of a client tells of its end only where it takes
    tcp_closed or tcp_error.  If its socket process fails in sending (as when the client
    went before its reply), the exit signal ends the manager, and the number of
    connections is too high from then on, with no client there. *)
Definition ls3 : list slabel := con 0 ++ [LEvent 0 (MChunk two_requests); LEvent 0 (reply [1]%N); LEvent 0 (reply [2]%N); LOwnerFails 0; LKilled 0] ++ repeat LStats 3.
Theorem C106_crash_refuted : exists ls v tr, srun free start ls = Some (v, tr) /\ settled v /\
  connected tr = 0%Z /\ rp_active (report_of v) = 1%Z /\
  forall ls' v' tr', srun free v ls' = Some (v', tr') -> settled v' -> (connected (tr ++ tr') < rp_active (report_of v'))%Z.
Proof.
  exists ls3, (after free ls3), (seen free ls3).
  assert (R : srun free start ls3 = Some (after free ls3, seen free ls3)) by (apply possible_run; vm_compute; reflexivity).
  split; [exact R|]. split; [|split; [vm_compute; reflexivity|split; [vm_compute; reflexivity|]]].
  - apply settled_check. vm_compute. reflexivity.
  - intros ls' v' tr' R' S'. assert (R2 : srun free start (ls3 ++ ls') = Some (v', seen free ls3 ++ tr')) by (rewrite srun_app, R, R'; reflexivity).
    destruct (C106_clients _ _ _ _ R2 S') as (_ & ->). rewrite number_app. replace (number is_crashed (seen free ls3)) with 1%Z by (vm_compute; reflexivity).
    assert (0 <= number is_crashed tr')%Z by (unfold number; lia). lia.
Qed.

(** False of the code: the reply for a blocked target is sent, but not counted. *)
Definition ls4 : list slabel := con 0 ++ [LEvent 0 (MChunk two_requests); LStats; LStats].
Theorem C106_blocked_refuted : exists allow ls v tr, srun allow start ls = Some (v, tr) /\ settled v /\
  total wf_chunk tr = mkC 0 0 1 /\ rp_rows (report_of v) = [(0, Some (mkC 0 0 0))] /\ rp_old (report_of v) = mkC 0 0 0.
Proof.
  exists (fun _ => false), ls4, (after (fun _ => false) ls4), (seen (fun _ => false) ls4).
  split; [apply possible_run; vm_compute; reflexivity|]. split; [|repeat split; vm_compute; reflexivity].
  apply settled_check. vm_compute. reflexivity.
Qed.

Print Assumptions C105_accepts.
Print Assumptions C105_others.
Print Assumptions C105_left.
Print Assumptions C105_leak_refuted.
Print Assumptions C106_clients.
Print Assumptions C106_active_partial.
Print Assumptions C106_peak.
Print Assumptions C106_alive.
Print Assumptions C106_rows.
Print Assumptions C106_traffic_partial.
Print Assumptions C106_crash_refuted.
Print Assumptions C106_blocked_refuted.
