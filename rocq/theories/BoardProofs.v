(** Proof layer: executions of [Board.v] as executions of [Shared.v]. *)
From Verif Require Import Word Bits Header ValMem Client Validate Target Spec AtomicSpec System TargetRm Tx E2E Devices.
From Verif Require Import Shared SharedSpec E2ECor Prop_E2E Net NetProofs NetProofs2 Prop_Frame Prop_Shared FullSim.
From Verif Require Import Ring RingSpec RingProofs RingProofs2 Board BoardSpec.
From Coq Require Import NArith ZArith List Lia Bool PeanoNat ZifyBool ZifyNat ZifyN.
Import ListNotations.
Open Scope N_scope.
Ltac Zify.zify_post_hook ::= idtac.

(** A packet is in implementDispatch. *)
Definition carry (i : rpc) : bool :=
  match i with
  | PDisp _ | PLock _ | PStart _ | PWrite _ | PWait (KDisp _) | PRead (KDisp _) => true
  | _ => false
  end.
Definition olist {A} (o : option A) : list A := match o with Some x => [x] | None => [] end.
Definition osome {A} (o : option A) : bool := match o with Some _ => true | None => false end.

(** Steps of the ring that move no packet. *)
Definition moves (l : rlab) : bool :=
  match l with LDispatch _ _ | LWrite _ | LRead _ | LPub | LFail _ => true | _ => false end.
Lemma still g y l y' : rinv g y -> rstep g y l = Some y' -> moves l = false ->
  h_pub (y_hw y') = h_pub (y_hw y) /\ h_wait (y_hw y') = h_wait (y_hw y) /\
  forall q, c_queue (y_cl y' q) = c_queue (y_cl y q) /\ carry (c_pc (y_cl y' q)) = carry (c_pc (y_cl y q)) /\
    (c_queue (y_cl y q) = [] \/ c_read (y_cl y' q) = c_read (y_cl y q)).
Proof.
  intros I R M.
  assert (K : forall p c hw n a o t, y' = mkY hw n a o (upd (y_cl y) p c) t -> h_pub hw = h_pub (y_hw y) -> h_wait hw = h_wait (y_hw y) ->
    c_queue c = c_queue (y_cl y p) -> carry (c_pc c) = carry (c_pc (y_cl y p)) -> (c_queue (y_cl y p) = [] \/ c_read c = c_read (y_cl y p)) ->
    h_pub (y_hw y') = h_pub (y_hw y) /\ h_wait (y_hw y') = h_wait (y_hw y) /\
    forall q, c_queue (y_cl y' q) = c_queue (y_cl y q) /\ carry (c_pc (y_cl y' q)) = carry (c_pc (y_cl y q)) /\
    (c_queue (y_cl y q) = [] \/ c_read (y_cl y' q) = c_read (y_cl y q))).
  { intros p c hw n a o t -> E1 E2 E3 E4 E5. cbn [y_hw y_cl]. split; [exact E1|]. split; [exact E2|]. intros q. unfold upd. destruct (Nat.eqb_spec q p) as [->|_]; auto. }
  destruct l as [p|p b|p|p|p|p|p|p|p|p|p|p|]; try discriminate M; cbn [rstep] in R; cbv zeta in R.
  - assert (X : c_conn (y_cl y p) = false /\ y' = set_cl y p (connect g (y_hw y) (y_count y) (y_active y) (y_cl y p))).
    { destruct (c_pc (y_cl y p)); try discriminate R; destruct (c_conn (y_cl y p)); try discriminate R; injection R as <-; auto. }
    destruct X as (C & ->). eapply (K p _); try reflexivity. left. apply (no_lock_no_queue g y p (I p)).
    destruct (c_lock (y_cl y p)) eqn:L; [|reflexivity]. apply (ci_conn _ _ _ (I p)) in L. congruence.
  - destruct (c_pc (y_cl y p)) eqn:P; try discriminate R. destruct (c_conn (y_cl y p)); try discriminate R.
    destruct (_ =? _); injection R as <-; (eapply (K p _); try reflexivity; auto; cbn [enter_read enter_write at_pc c_pc]; rewrite P; [destruct (eq32 _ _) + destruct (c_lock _)]; reflexivity).
  - destruct (c_pc (y_cl y p)) eqn:P; try discriminate R. destruct (y_owner y); try discriminate R. injection R as <-. eapply (K p _); try reflexivity; auto. rewrite P. reflexivity.
  - destruct (c_pc (y_cl y p)) eqn:P; try discriminate R. injection R as <-.
    pose proof (ci_pc _ _ _ (I p)) as Q; unfold cpc in Q; rewrite P in Q.
    eapply (K p _); try reflexivity; [| |left; apply Q]; destruct (_ || _); try reflexivity; cbn [connect c_pc]; rewrite P; reflexivity.
  - destruct (c_pc (y_cl y p)) eqn:P; try discriminate R. destruct (c_queue (y_cl y p)) eqn:Q; try discriminate R. injection R as <-.
    unfold enter_flush, enter_read in K. eapply (K p _); try reflexivity; unfold enter_flush, enter_read; rewrite ?P, ?Q; cbn [at_pc c_pc c_queue]; auto; destruct (eq32 _ _); reflexivity.
  - destruct (c_pc (y_cl y p)) as [| | | | |k| | |] eqn:P; try discriminate R. destruct (r_intr g p).
    + destruct (h_irq _); try discriminate R. injection R as <-. eapply (K p _); try reflexivity; auto. cbn [at_pc c_pc]. rewrite P. destruct k; reflexivity.
    + destruct (eq32 _ _); try discriminate R. injection R as <-. eapply (K p _); try reflexivity; auto. cbn [c_pc]. rewrite P. destruct k; reflexivity.
  - destruct (c_pc (y_cl y p)) eqn:P; try discriminate R. injection R as <-. eapply (K p _); try reflexivity; auto. rewrite P. reflexivity.
  - destruct (c_pc (y_cl y p)) eqn:P; try discriminate R. injection R as <-. eapply (K p _); try reflexivity; auto. rewrite P. reflexivity.
Qed.

Section B.
Variable D : Type.
Variable rd : D -> N -> D * N.
Variable wr : D -> N -> N -> D.
Variable cf : D -> N -> D * N.
Variable r : rcfg.
Variable g : nat -> cfg.
Hypothesis G : forall p, board_client (g p).
Hypothesis Hn : 0 < r_pages r.
Hypothesis Hb : r_pages r < 2 ^ 32.
Hypothesis HI : forall p, r_intr r p = false.
Notation sh_run := (sh_run D rd wr cf g).
Notation sh_step := (sh_step D rd wr cf g).
Notation label := System.label.
Notation board := (board D).

(** Replies published and not read, of client [p]. *)
Definition pubd (B : board) (p : nat) : nat := N.to_nat (h_pub (y_hw (bo_ring D B)) - c_read (y_cl (bo_ring D B) p)).

(** One client of the board, and the same client of [Shared.v]. *)
Record csim (B : board) (u : list label) (p : nat) (y : System.sys D) (ss : list label) : Prop := mkCs {
  k_len : length (bc_queue (bo_c D B p)) = length (c_queue (y_cl (bo_ring D B) p));
  k_hand : osome (bc_hand (bo_c D B p)) = carry (c_pc (y_cl (bo_ring D B) p));
  k_st : y_c D y = set_out (bc_st (bo_c D B p)) (skipn (pubd B p) (bc_queue (bo_c D B p)) ++ olist (bc_hand (bo_c D B p)) ++ s_out (bc_st (bo_c D B p)));
  k_rep : map fst (y_rep D y) = firstn (pubd B p) (bc_queue (bo_c D B p));
  k_page : forall i b w, nth_error (y_rep D y) i = Some (b, w) -> bo_rep D B ((c_read (y_cl (bo_ring D B) p) + N.of_nat i + r_off r) mod r_pages r) = w;
  k_req : forall i b, nth_error (skipn (pubd B p) (bc_queue (bo_c D B p))) i = Some b -> bo_req D B ((h_pub (y_hw (bo_ring D B)) + N.of_nat i + r_off r) mod r_pages r) = b_send b;
  k_wait : y_wait D y = bc_wait (bo_c D B p);
  k_bad : y_bad D y = bc_bad (bo_c D B p);
  k_users : users ss = u;
  k_ret : forall ms, u = ms ++ [LReturn] -> bc_queue (bo_c D B p) = [] /\ s_out (bc_st (bo_c D B p)) = [] /\ bc_hand (bo_c D B p) = None /\ exists ms', ss = ms' ++ [LReturn]
}.

Definition Sim (d0 : D) (B : board) (u : nat -> list label) : Prop :=
  exists ls s, sh_run (init_shared D d0) ls = Some s /\ sh_dev D s = bo_dev D B /\ forall p, csim B (u p) p (sh_y D s p) (steps_of p ls).

Lemma sim_one d0 B u B' u' (p : nat) ms : Sim d0 B u ->
  (forall q y ss, q <> p -> csim B (u q) q y ss -> csim B' (u' q) q y ss) ->
  (forall ls s, sh_run (init_shared D d0) ls = Some s -> sh_dev D s = bo_dev D B -> (forall q, users (steps_of q ls) = u q) ->
     csim B (u p) p (sh_y D s p) (steps_of p ls) ->
     exists s', sh_run s (map (pair p) ms) = Some s' /\ sh_dev D s' = bo_dev D B' /\ csim B' (u' p) p (sh_y D s' p) (steps_of p ls ++ ms)) ->
  Sim d0 B' u'.
Proof.
  intros (ls & s & R & E & C) OT ST. destruct (ST ls s R E) as (s' & R' & E' & C'); [intros q; apply (C q)|apply C|].
  exists (ls ++ map (pair p) ms), s'. rewrite (sh_run_app D rd wr cf g), R. split; [exact R'|]. split; [exact E'|]. intros q. rewrite steps_app, steps_own. destruct (Nat.eqb_spec q p) as [->|NE]; [exact C'|].
  rewrite app_nil_r, (sh_own D rd wr cf g _ _ _ _ R' q NE). apply OT; [exact NE|apply C].
Qed.
(** Nothing happens in [Shared.v]. *)
Lemma sim_none d0 B u B' u' : Sim d0 B u -> bo_dev D B' = bo_dev D B ->
  (forall q y ss, csim B (u q) q y ss -> csim B' (u' q) q y ss) -> Sim d0 B' u'.
Proof. intros (ls & s & R & E & C) ED K. exists ls, s. split; [exact R|]. split; [congruence|]. intros p. apply K, C. Qed.

(** A client with nothing in the ring does not see it change. *)
Lemma quiet_client B u B' q y ss : csim B u q y ss -> bo_c D B' q = bo_c D B q ->
  c_queue (y_cl (bo_ring D B) q) = [] -> c_queue (y_cl (bo_ring D B') q) = [] -> carry (c_pc (y_cl (bo_ring D B') q)) = carry (c_pc (y_cl (bo_ring D B) q)) ->
  csim B' u q y ss.
Proof.
  intros [K1 K2 K3 K4 K5 K6 K7 K8 K9 K10] E Q Q' C. rewrite Q in K1. destruct (bc_queue (bo_c D B q)) eqn:BQ; [|discriminate].
  rewrite firstn_nil in K4. rewrite skipn_nil in K3. destruct (y_rep D y) eqn:YR; [|discriminate].
  split; rewrite ?E, ?BQ, ?Q', ?C, ?YR, ?firstn_nil, ?skipn_nil; auto; intros [|i]; discriminate.
Qed.

(** ** Calls *)
Lemma sim_op d0 B u (p : nat) o : Sim d0 B u -> bc_wait (bo_c D B p) = false -> outside D B p = true ->
  let c := bo_c D B p in
  Sim d0 (with_bc D B p match run_op (g p) (bc_st c) o with
                  | Ok s _ | Exc s _ => mkBc s false (bc_bad c) (bc_hand c) (bc_queue c)
                  | Bad => mkBc (bc_st c) false true (bc_hand c) (bc_queue c)
                  end) (upd u p (u p ++ [LOp o])).
Proof.
  intros S WT OUT c. apply (sim_one _ B u _ _ p [LOp o] S).
  { intros q y ss NE [K1 K2 K3 K4 K5 K6 K7 K8 K9 K10]. split; cbn [with_bc bo_c bo_ring bo_req bo_rep]; unfold pubd in *; cbn [with_bc bo_ring] in *; rewrite ?upd_other by exact NE; auto. }
  intros ls s R E U [K1 K2 K3 K4 K5 K6 K7 K8 K9 K10]. fold c in K1, K2, K3, K4, K6, K7, K8, K10, WT.
  assert (HA : bc_hand c = None).
  { unfold outside in OUT. destruct (c_pc (y_cl (bo_ring D B) p)); try discriminate OUT. cbn in K2. destruct (bc_hand c); [discriminate|reflexivity]. }
  rewrite HA in *. cbn [olist app] in K3. set (O := skipn (pubd B p) (bc_queue c)) in *.
  assert (RR := rres_op (s_heap (bc_st c)) (s_heap (bc_st c)) [] O eq_refl (g p) _ _ o (rel_start (bc_st c) O)). rewrite <- K3 in RR.
  match goal with |- context [with_bc D B p ?x] => set (c' := x) in * end.
  set (y' := mkSys D (set_out (bc_st c') (O ++ s_out (bc_st c'))) (y_rep D (sh_y D s p)) (bo_dev D B) false (bc_bad c')).
  assert (ST : sh_step s (p, LOp o) = Some (mkShared D (fun q => if Nat.eqb q p then y' else sh_y D s q) (bo_dev D B))).
  { unfold Shared.sh_step. cbn [fst snd System.step with_dev y_wait y_c y_rep y_dev y_bad]. rewrite K7, WT, E.
    subst y' c'. destruct (run_op (g p) (bc_st c) o) as [s1 a|s1 e|], (run_op (g p) (y_c D (sh_y D s p)) o) as [s2 a2|s2 e2|]; try contradiction RR; cbn [y_dev bc_st bc_bad].
    - destruct RR as (RR & _). rewrite (rel_out _ _ _ _ RR), K8. reflexivity.
    - destruct RR as (RR & _). rewrite (rel_out _ _ _ _ RR), K8. reflexivity.
    - rewrite K3. reflexivity. }
  assert (FL : bc_queue c' = bc_queue c /\ bc_wait c' = false /\ bc_hand c' = None) by (subst c'; destruct (run_op (g p) (bc_st c) o); auto).
  destruct FL as (F1 & F2 & F3). clearbody c'.
  eexists. split; [cbn [map Shared.sh_run]; rewrite ST; reflexivity|]. split; [reflexivity|]. cbn [sh_y]. rewrite Nat.eqb_refl.
  split; unfold pubd in *; cbn [with_bc bo_c bo_ring bo_req bo_rep y_rep y_c y_wait y_bad y']; rewrite ?upd_same, ?F1, ?F2, ?F3; auto.
  - unfold users in *. rewrite filter_app, K9. reflexivity.
  - intros ms EM. exfalso. eapply last_not; [exact EM|discriminate].
Qed.

Lemma sim_dispatch d0 B u (p : nat) : Sim d0 B u -> bc_wait (bo_c D B p) = false -> outside D B p = true ->
  let c := bo_c D B p in
  Sim d0 (with_bc D B p match s_cur (bc_st c) with
                  | None => c
                  | Some _ =>
                      match dispatch_send (g p) (bc_st c) with
                      | Ok s _ => mkBc s true (bc_bad c) (bc_hand c) (bc_queue c)
                      | Exc s _ => mkBc s false (bc_bad c) (bc_hand c) (bc_queue c)
                      | Bad => mkBc (bc_st c) false true (bc_hand c) (bc_queue c)
                      end
                  end) (upd u p (u p ++ [System.LDispatch])).
Proof.
  intros S WT OUT c. apply (sim_one _ B u _ _ p [System.LDispatch] S).
  { intros q y ss NE [K1 K2 K3 K4 K5 K6 K7 K8 K9 K10]. split; cbn [with_bc bo_c bo_ring bo_req bo_rep]; unfold pubd in *; cbn [with_bc bo_ring] in *; rewrite ?upd_other by exact NE; auto. }
  intros ls s R E U [K1 K2 K3 K4 K5 K6 K7 K8 K9 K10]. fold c in K1, K2, K3, K4, K6, K7, K8, K10, WT.
  assert (HA : bc_hand c = None).
  { unfold outside in OUT. destruct (c_pc (y_cl (bo_ring D B) p)); try discriminate OUT. cbn in K2. destruct (bc_hand c); [discriminate|reflexivity]. }
  rewrite HA in *. cbn [olist app] in K3. set (O := skipn (pubd B p) (bc_queue c)) in *.
  assert (RR := rres_dispatch (s_heap (bc_st c)) (s_heap (bc_st c)) [] O (g p) _ _ (rel_start (bc_st c) O)). rewrite <- K3 in RR.
  match goal with |- context [with_bc D B p ?x] => set (c' := x) in * end.
  set (y' := mkSys D (set_out (bc_st c') (O ++ s_out (bc_st c'))) (y_rep D (sh_y D s p)) (bo_dev D B) (bc_wait c') (bc_bad c')).
  assert (CU : s_cur (y_c D (sh_y D s p)) = s_cur (bc_st c)) by (rewrite K3; reflexivity).
  assert (ST : sh_step s (p, System.LDispatch) = Some (mkShared D (fun q => if Nat.eqb q p then y' else sh_y D s q) (bo_dev D B))).
  { unfold Shared.sh_step. cbn [fst snd System.step with_dev y_wait y_c y_rep y_dev y_bad]. rewrite K7, WT, E, CU.
    subst y' c'. destruct (s_cur (bc_st c)).
    - destruct (dispatch_send (g p) (bc_st c)) as [s1 a|s1 e|], (dispatch_send (g p) (y_c D (sh_y D s p))) as [s2 a2|s2 e2|]; try contradiction RR; cbn [y_dev bc_st bc_bad bc_wait].
      + destruct RR as (RR & _). rewrite (rel_out _ _ _ _ RR), K8. reflexivity.
      + destruct RR as (RR & _). rewrite (rel_out _ _ _ _ RR), K8. reflexivity.
      + rewrite K3. reflexivity.
    - unfold with_dev. cbn [y_dev]. rewrite ?K7, WT, K3, K8. reflexivity. }
  assert (FL : bc_queue c' = bc_queue c /\ bc_hand c' = None) by (subst c'; destruct (s_cur (bc_st c)); [destruct (dispatch_send (g p) (bc_st c))|]; auto).
  destruct FL as (F1 & F3). clearbody c'.
  eexists. split; [cbn [map Shared.sh_run]; rewrite ST; reflexivity|]. split; [reflexivity|]. cbn [sh_y]. rewrite Nat.eqb_refl.
  split; unfold pubd in *; cbn [with_bc bo_c bo_ring bo_req bo_rep y_rep y_c y_wait y_bad y']; rewrite ?upd_same, ?F1, ?F3; auto.
  - unfold users in *. rewrite filter_app, K9. reflexivity.
  - intros ms EM. exfalso. eapply last_not; [exact EM|discriminate].
Qed.

Lemma sim_return d0 B u (p : nat) : Sim d0 B u -> bc_wait (bo_c D B p) = true -> outside D B p = true -> bc_queue (bo_c D B p) = [] ->
  let c := bo_c D B p in
  Sim d0 (with_bc D B p (mkBc (bc_st c) false (bc_bad c) (bc_hand c) [])) (upd u p (u p ++ [LReturn])).
Proof.
  intros S WT OUT QE c. apply (sim_one _ B u _ _ p [LReturn] S).
  { intros q y ss NE [K1 K2 K3 K4 K5 K6 K7 K8 K9 K10]. split; cbn [with_bc bo_c bo_ring bo_req bo_rep]; unfold pubd in *; cbn [with_bc bo_ring] in *; rewrite ?upd_other by exact NE; auto. }
  intros ls s R E U [K1 K2 K3 K4 K5 K6 K7 K8 K9 K10]. fold c in K1, K2, K3, K4, K6, K7, K8, K10, WT, QE.
  assert (HA : bc_hand c = None /\ s_out (bc_st c) = []).
  { unfold outside in OUT. destruct (c_pc (y_cl (bo_ring D B) p)); try discriminate OUT. cbn in K2. fold c in OUT. destruct (bc_hand c), (s_out (bc_st c)); try discriminate; auto. }
  destruct HA as (HA & SO). rewrite HA, QE, SO, ?firstn_nil, ?skipn_nil in *. cbn [olist app] in K3. destruct (y_rep D (sh_y D s p)) eqn:YR; [|discriminate].
  assert (ST : sh_step s (p, LReturn) = Some (mkShared D (fun q => if Nat.eqb q p then mkSys D (y_c D (sh_y D s p)) [] (bo_dev D B) false (bc_bad c) else sh_y D s q) (bo_dev D B))).
  { unfold Shared.sh_step. cbn [fst snd System.step with_dev y_wait y_c y_rep y_dev y_bad]. rewrite K7, WT, YR, E, K8, K3. reflexivity. }
  eexists. split; [cbn [map Shared.sh_run]; rewrite ST; reflexivity|]. split; [reflexivity|]. cbn [sh_y]. rewrite Nat.eqb_refl.
  split; unfold pubd in *; cbn [with_bc bo_c bo_ring bo_req bo_rep y_rep y_c y_wait y_bad]; rewrite ?upd_same; cbn [bc_queue bc_st bc_wait bc_bad bc_hand]; rewrite ?SO, ?firstn_nil, ?skipn_nil, ?HA; auto.
  - unfold users in *. rewrite filter_app, K9. reflexivity.
  - intros ms EM. repeat split; auto. eexists; reflexivity.
Qed.

(** ** The ring *)
Lemma sim_still d0 B u l y' : Sim d0 B u -> rinv r (bo_ring D B) -> rstep r (bo_ring D B) l = Some y' -> moves l = false -> Sim d0 (with_ring D B y') u.
Proof.
  intros S I R M. destruct (still _ _ _ _ I R M) as (HP & HW & K). apply (sim_none _ B u _ _ S); [reflexivity|]. intros q y ss C. destruct (K q) as (KQ & KC & [KR|KR]).
  - apply (quiet_client B _ _ q y ss C); auto. cbn [with_ring bo_ring]. congruence.
  - destruct C as [K1 K2 K3 K4 K5 K6 K7 K8 K9 K10]. split; unfold pubd in *; cbn [with_ring bo_c bo_ring bo_req bo_rep]; rewrite ?HP, ?KR, ?KQ, ?KC; auto.
Qed.

Lemma sim_hand d0 B u (p : nat) b x q : Sim d0 B u -> c_pc (y_cl (bo_ring D B) p) = PIdle -> s_out (bc_st (bo_c D B p)) = x :: q ->
  let c := bo_c D B p in
  Sim d0 (with_ring D (with_bc D B p (mkBc (set_out (bc_st c) q) (bc_wait c) (bc_bad c) (Some x) (bc_queue c))) (set_cl (bo_ring D B) p (at_pc (y_cl (bo_ring D B) p) (PDisp b)))) u.
Proof.
  intros S PI SO c. apply (sim_none _ B u _ _ S); [reflexivity|]. intros q' y ss [K1 K2 K3 K4 K5 K6 K7 K8 K9 K10].
  destruct (Nat.eqb_spec q' p) as [->|NE].
  - fold c in K1, K2, K3, K4, K6, K7, K8, K10, SO. rewrite PI in K2. cbn [carry] in K2. destruct (bc_hand c) eqn:HA; [discriminate|]. cbn [olist app] in K3.
    split; unfold pubd in *; cbn [with_ring with_bc bo_c bo_ring bo_req bo_rep set_cl y_cl y_hw]; rewrite ?upd_same; cbn [bc_queue bc_st bc_wait bc_bad bc_hand at_pc c_pc c_read c_queue olist osome set_out s_out app]; auto.
    + rewrite K3, SO. unfold set_out. cbn. reflexivity.
    + intros ms EM. destruct (K10 ms EM) as (_ & X & _). rewrite SO in X. discriminate.
  - split; unfold pubd in *; cbn [with_ring with_bc bo_c bo_ring bo_req bo_rep set_cl y_cl y_hw]; rewrite ?upd_other by exact NE; auto.
Qed.

(** Facts about the ring while a client has requests in it. *)
Lemma in_session y (p : nat) : rinv r y -> c_queue (y_cl y p) <> [] -> insess (y_cl y p) = true /\ forall q, q <> p -> c_queue (y_cl y q) = [].
Proof.
  intros I Q. assert (L := ci_q _ _ _ (I p) Q). split.
  - unfold insess. rewrite L. cbn [andb]. destruct (c_pc (y_cl y p)) eqn:P; try reflexivity. pose proof (ci_pc _ _ _ (I p)) as X; unfold cpc in X; rewrite P in X. destruct X as (_ & X). contradiction.
  - intros q NE. apply (no_lock_no_queue r y q (I q)). apply (one_owner r y p q I L NE).
Qed.

Lemma sim_write d0 B u (p : nat) b x s0 k0 stale : Sim d0 B u -> linv r s0 k0 stale (bo_ring D B) ->
  c_pc (y_cl (bo_ring D B) p) = PWrite b -> bc_hand (bo_c D B p) = Some x ->
  let c := bo_c D B p in let y := bo_ring D B in let rc := y_cl y p in
  forall y', rstep r y (LWrite p) = Some y' ->
  Sim d0 (mkBoard D (upd (bo_c D B) p (mkBc (bc_st c) (bc_wait c) (bc_bad c) None (bc_queue c ++ [x]))) y'
                  (updN (bo_req D B) (c_idx rc) (b_send x)) (bo_rep D B) (bo_dev D B)) u.
Proof.
  intros S [I E X] PW HA c y rc y' R. fold y rc in PW. fold y in I, E, X. cbn [rstep] in R. cbv zeta in R. fold rc in R. rewrite PW in R. injection R as <-.
  pose proof (ci_pc _ _ _ (I p)) as B0; unfold cpc in B0; fold rc in B0; rewrite PW in B0. destruct B0 as (B1 & B2). pose proof (limit_bound r p Hn) as HL.
  assert (Hs : insess rc = true) by (unfold insess; rewrite PW, B1; reflexivity).
  destruct (e_in _ _ _ _ _ E p Hs) as (_ & _ & _ & E4). fold rc in E4. destruct (x_in _ _ X p Hs) as [X1 X2 X3 X4 X5]. fold rc in X1, X2, X3.
  assert (XN := x_num _ _ X).
  assert (Hw : hw_write r (y_hw y) (c_idx rc) b = mkH (h_recv (y_hw y) + 1) (h_pub (y_hw y)) (h_wait (y_hw y) ++ [b]) (h_rep (y_hw y)) (h_irq (y_hw y))).
  { unfold hw_write. rewrite E4. unfold expect. rewrite N.eqb_refl. reflexivity. }
  rewrite Hw. apply (sim_none _ B u _ _ S); [reflexivity|]. intros q z ss C. destruct (Nat.eqb_spec q p) as [->|NE].
  - destruct C as [K1 K2 K3 K4 K5 K6 K7 K8 K9 K10]. fold c in K1, K2, K3, K4, K6, K7, K8, K10, HA. fold y rc in K1, K5, K6. unfold pubd in *. fold y rc in K3, K4, K6.
    set (k := N.to_nat (h_pub (y_hw y) - c_read rc)) in *. rewrite HA in K3. cbn [olist] in K3.
    assert (LE : (k <= length (bc_queue c))%nat) by (rewrite K1; subst k; lia).
    split; unfold pubd; cbn [bo_c bo_ring bo_req bo_rep y_cl y_hw h_pub]; rewrite ?upd_same; cbn [bc_queue bc_st bc_wait bc_bad bc_hand c_pc c_read c_queue olist osome carry app]; fold k; auto.
    + rewrite !app_length, K1. reflexivity.
    + rewrite K3. rewrite skipn_app_le by exact LE. rewrite <- app_assoc. reflexivity.
    + rewrite K4, firstn_app. replace (k - length (bc_queue c))%nat with 0%nat by lia. cbn [firstn]. rewrite app_nil_r. reflexivity.
    + intros i b' N'. rewrite skipn_app_le in N' by exact LE. assert (LS : length (skipn k (bc_queue c)) = (length (c_queue rc) - k)%nat) by (rewrite skipn_length, K1; reflexivity).
      unfold updN. destruct (Nat.ltb_spec i (length (skipn k (bc_queue c)))) as [Li|Li].
      * rewrite nth_error_app1 in N' by exact Li. rewrite (K6 i b' N').
        destruct (N.eqb_spec ((h_pub (y_hw y) + N.of_nat i + r_off r) mod r_pages r) (c_idx rc)) as [Z|Z]; [exfalso|reflexivity].
        symmetry in Z. revert Z. rewrite E4. unfold expect. apply mod_add_ne; subst k; lia.
      * rewrite nth_error_app2 in N' by exact Li. destruct (i - length (skipn k (bc_queue c)))%nat eqn:EI; [|destruct n; discriminate]. injection N' as <-.
        replace (h_pub (y_hw y) + N.of_nat i + r_off r) with (h_recv (y_hw y) + r_off r) by (subst k; lia). rewrite E4. unfold expect. rewrite N.eqb_refl. reflexivity.
    + intros ms EM. destruct (K10 ms EM) as (_ & _ & Z & _). congruence.
  - assert (Q : c_queue (y_cl y q) = []) by (apply (no_lock_no_queue r y q (I q)); apply (one_owner r y p q I B1 NE)).
    apply (quiet_client B _ _ q z ss C); cbn [bo_c bo_ring y_cl]; rewrite ?upd_other by exact NE; auto.
Qed.

Lemma sim_read d0 B u (p : nat) x q s0 k0 stale : Sim d0 B u -> linv r s0 k0 stale (bo_ring D B) ->
  bc_queue (bo_c D B p) = x :: q ->
  let c := bo_c D B p in let y := bo_ring D B in let rc := y_cl y p in
  forall y' h v, rstep r y (LRead p) = Some y' ->
  receive_packet (g p) (s_heap (bc_st c)) x (bo_rep D B (page_to_read r rc)) = (h, v) ->
  Sim d0 (with_ring D (with_bc D B p (mkBc (set_heap (bc_st c) h) (bc_wait c) (match v with VOk => bc_bad c | _ => true end) (bc_hand c) q)) y') u.
Proof.
  intros SM [I E X] BQ c y rc y' h v R RP. cbn [rstep] in R. cbv zeta in R. fold y in I, E, X. fold rc in R. destruct (c_pc rc) as [| | | | | |k0'| |] eqn:PR; try discriminate R. destruct (c_queue rc) as [|b cq] eqn:CQ; [discriminate R|]. injection R as <-.
  destruct (in_session y p I) as (Hs & OT); [fold rc; congruence|]. fold rc in Hs.
  destruct (e_in _ _ _ _ _ E p Hs) as (_ & _ & _ & E4). fold rc in E4. destruct (x_in _ _ X p Hs) as [X1 X2 X3 X4 X5]. fold rc in X1, X2, X3, X4. rewrite PR in X4. rewrite CQ in X1, X3. cbn [length] in X1.
  assert (PL : page_to_read r rc = (c_read rc + r_off r) mod r_pages r).
  { pose proof (ci_len _ _ _ (I p)). pose proof (limit_bound r p Hn). fold rc in H. apply (page_number r (y_hw y)); auto; [lia|rewrite CQ; cbn [length]; lia]. }
  apply (sim_one _ B u _ _ p [LReply] SM).
  { intros q' z ss NE C. apply (quiet_client B _ _ q' z ss C); cbn [with_ring with_bc bo_c bo_ring note set_cl y_cl]; rewrite ?upd_other by exact NE; auto. }
  intros ls s RN ED U [K1 K2 K3 K4 K5 K6 K7 K8 K9 K10]. fold c in K1, K2, K3, K4, K6, K7, K8, K10, BQ. fold y rc in K1, K2, K5, K6. unfold pubd in *. fold y rc in K3, K4, K6.
  assert (EK : exists k, N.to_nat (h_pub (y_hw y) - c_read rc) = S k) by (destruct (N.to_nat (h_pub (y_hw y) - c_read rc)) eqn:EK; [lia|eauto]). destruct EK as (k & EK). rewrite EK in K3, K4, K6. rewrite BQ in K3, K4, K6. cbn [skipn firstn] in K3, K4, K6.
  destruct (y_rep D (sh_y D s p)) as [|(x', w) rest] eqn:YR; [discriminate|]. injection K4 as -> K4.
  assert (W := K5 0%nat x w eq_refl). rewrite N.add_0_r, <- PL in W.
  assert (EN : N.to_nat (h_pub (y_hw y) - (c_read rc + 1)) = k) by lia.
  assert (HP : s_heap (y_c D (sh_y D s p)) = s_heap (bc_st c)) by (rewrite K3; reflexivity).
  set (bad := match v with VOk => bc_bad c | _ => true end) in *.
  assert (ST : sh_step s (p, LReply) = Some (mkShared D (fun q' => if Nat.eqb q' p then mkSys D (set_heap (y_c D (sh_y D s p)) h) rest (bo_dev D B) (bc_wait c) bad else sh_y D s q') (bo_dev D B))).
  { unfold Shared.sh_step. cbn [fst snd System.step with_dev y_wait y_c y_rep y_dev y_bad]. rewrite YR, HP, <- W, RP, K7, K8, ED. subst bad. destruct v; reflexivity. }
  eexists. split; [cbn [map Shared.sh_run]; rewrite ST; reflexivity|]. split; [reflexivity|]. cbn [sh_y]. rewrite Nat.eqb_refl.
  clearbody bad.
  set (rc' := match k0' with KDisp b' => _ | KFlush => _ end).
  assert (RC : c_queue rc' = cq /\ c_read rc' = c_read rc + 1 /\ carry (c_pc rc') = carry (c_pc rc)).
  { subst rc'. rewrite PR. destruct k0'; cbn [enter_write at_pc c_queue c_read c_pc carry].
    - destruct (c_lock _); auto.
    - unfold enter_flush, enter_read. cbn [c_queue]. destruct cq; cbn [at_pc c_queue c_read c_pc]; repeat split. destruct (eq32 _ _); reflexivity. }
  destruct RC as (RC1 & RC2 & RC3). clearbody rc'. rewrite BQ, CQ in K1. injection K1 as K1.
  split; unfold pubd; cbn [with_ring with_bc bo_c bo_ring bo_req bo_rep note set_cl y_cl y_hw y_c y_rep y_wait y_bad]; rewrite ?upd_same; cbn [bc_queue bc_st bc_wait bc_bad bc_hand]; rewrite ?RC1, ?RC2, ?RC3, ?EN; auto.
  - rewrite K3. reflexivity.
  - intros i b' w' N'. specialize (K5 (S i) b' w' N'). rewrite <- K5. f_equal. f_equal. lia.
  - unfold users in *. rewrite filter_app, K9. cbn. rewrite app_nil_r. reflexivity.
  - intros ms EM. destruct (K10 ms EM) as (Z & _). congruence.
Qed.

Lemma sim_pub d0 B u s0 k0 stale : Sim d0 B u -> linv r s0 k0 stale (bo_ring D B) -> (forall q, Forall op_ok (calls (u q))) ->
  (h_wait (y_hw (bo_ring D B)) <> [] -> exists q, c_queue (y_cl (bo_ring D B) q) <> []) ->
  let y := bo_ring D B in let pg := (h_pub (y_hw y) + r_off r) mod r_pages r in
  forall y' d w ok, rstep r y LPub = Some y' -> target_ipbus D rd wr cf V2 (bo_dev D B) (bo_req D B pg) = (d, w, ok) ->
  Sim d0 (mkBoard D (bo_c D B) y' (bo_req D B) (updN (bo_rep D B) pg w) d) u.
Proof.
  intros SM [I E X] FO OW y pg y' d w ok R TP. fold y in I, E, X, OW. cbn [rstep] in R. cbv zeta in R. destruct (h_wait (y_hw y)) as [|b hw] eqn:HW; [discriminate R|]. injection R as <-.
  destruct OW as (p & Q); [discriminate|]. destruct (in_session y p I Q) as (Hs & OT). set (rc := y_cl y p) in *.
  destruct (x_in _ _ X p Hs) as [X1 X2 X3 X4 X5]. fold rc in X1, X2, X3. rewrite HW in X3.
  assert (LQ : N.of_nat (length (c_queue rc)) <= r_pages r) by (pose proof (ci_len _ _ _ (I p)); pose proof (limit_bound r p Hn); fold rc in H; lia).
  apply (sim_one _ B u _ _ p [LTarget] SM).
  { intros q' z ss NE C. apply (quiet_client B _ _ q' z ss C); cbn [bo_c bo_ring set_hw y_cl]; auto. }
  intros ls s RN ED U [K1 K2 K3 K4 K5 K6 K7 K8 K9 K10]. set (c := bo_c D B p) in *. fold y rc in K1, K2, K5, K6. unfold pubd in *. fold y rc in K3, K4, K6.
  set (k := N.to_nat (h_pub (y_hw y) - c_read rc)) in *.
  assert (LK : (k < length (c_queue rc))%nat). { assert (Z := f_equal (@length nat) X3). rewrite skipn_length in Z. cbn [length] in Z. lia. }
  destruct (skipn k (bc_queue c)) as [|x rest] eqn:SK. { assert (Z := f_equal (@length buf) SK). rewrite skipn_length in Z. cbn [length] in Z. lia. }
  assert (BS := K6 0%nat x eq_refl). rewrite N.add_0_r in BS. fold pg in BS.
  destruct (skipn_cons_nth _ _ _ _ _ SK) as (NX & SK').
  set (y2 := mkSys D (set_out (bc_st c) (rest ++ olist (bc_hand c) ++ s_out (bc_st c))) (y_rep D (sh_y D s p) ++ [(x, w)]) d (bc_wait c) (bc_bad c || negb ok)).
  assert (ST : sh_step s (p, LTarget) = Some (mkShared D (fun q' => if Nat.eqb q' p then y2 else sh_y D s q') d)).
  { unfold Shared.sh_step. cbn [fst snd System.step with_dev y_wait y_c y_rep y_dev y_bad]. rewrite K3. cbn [set_out s_out app]. unfold target_packet. destruct (G p) as (_ & -> & ->). rewrite <- BS, ED, TP, K7, K8. reflexivity. }
  assert (RUN : sh_run (init_shared D d0) (ls ++ map (pair p) [LTarget]) = Some (mkShared D (fun q' => if Nat.eqb q' p then y2 else sh_y D s q') d)).
  { rewrite (sh_run_app D rd wr cf g), RN. cbn [map Shared.sh_run]. rewrite ST. reflexivity. }
  assert (OK : bc_bad c || negb ok = bc_bad c).
  { assert (OP : forall q, Forall op_ok (calls (steps_of q (ls ++ map (pair p) [LTarget])))).
    { intros q. rewrite steps_app, steps_own, calls_app, <- calls_users, U. apply Forall_app. split; [apply FO|]. destruct (Nat.eqb q p); constructor. }
    destruct (C91_shared D rd wr cf g d0 _ _ (fun q => proj1 (G q)) OP RUN) as (hh & HH). destruct (lived D rd wr cf d0 hh) as (d', ws). destruct HH as (_ & HH). destruct (HH p) as (Z & _). cbn [sh_y] in Z. rewrite Nat.eqb_refl in Z. cbn [y_bad y2] in Z. rewrite Z. destruct (bc_bad c); [discriminate|reflexivity]. }
  eexists. split; [cbn [map Shared.sh_run]; rewrite ST; reflexivity|]. split; [reflexivity|]. cbn [sh_y]. rewrite Nat.eqb_refl.
  assert (EN : N.to_nat (h_pub (y_hw y) + 1 - c_read rc) = S k) by (subst k; lia).
  assert (LR : length (y_rep D (sh_y D s p)) = k). { rewrite <- (map_length fst), K4, firstn_length. lia. }
  split; unfold pubd; cbn [bo_c bo_ring bo_req bo_rep set_hw y_cl y_hw h_pub y_c y_rep y_wait y_bad y2]; fold rc c; rewrite ?EN; auto.
  - rewrite SK'. reflexivity.
  - rewrite map_app, K4. cbn [map fst]. clearbody k. clear - NX. revert k NX. induction (bc_queue c) as [|z l IH]; intros [|k] N; cbn [nth_error] in N; try discriminate; cbn [firstn app]; [injection N as ->; reflexivity|]. rewrite (IH k N). reflexivity.
  - intros i b' w' N'. unfold updN. destruct (Nat.ltb_spec i k) as [Li|Li].
    + rewrite nth_error_app1 in N' by lia. rewrite (K5 i b' w' N'). destruct (N.eqb_spec ((c_read rc + N.of_nat i + r_off r) mod r_pages r) pg) as [Z|Z]; [exfalso|reflexivity].
      symmetry in Z. revert Z. subst pg. apply mod_add_ne; subst k; lia.
    + rewrite nth_error_app2 in N' by lia. rewrite LR in N'. destruct (i - k)%nat eqn:EI; [|destruct n; discriminate]. injection N' as _ <-.
      replace (c_read rc + N.of_nat i + r_off r) with (h_pub (y_hw y) + r_off r) by (subst k; lia). fold pg. rewrite N.eqb_refl. reflexivity.
  - rewrite SK'. intros i b' N'. specialize (K6 (S i) b' N'). rewrite <- K6. f_equal. f_equal. lia.
  - unfold users in *. rewrite filter_app, K9. cbn. rewrite app_nil_r. reflexivity.
  - intros ms EM. destruct (K10 ms EM) as (Z & _). rewrite Z in NX. destruct k; discriminate.
Qed.

(** Requests in the hardware are of a client that waits for them. *)
Definition waited (y : Ring.sys) : Prop := h_wait (y_hw y) <> [] -> exists q, c_queue (y_cl y q) <> [].
Lemma waited_step s0 k0 stale y l y' : linv r s0 k0 stale y -> waited y -> rstep r y l = Some y' -> (forall p, l <> LFail p) -> waited y'.
Proof.
  intros [I E X] W R NF HN. destruct (moves l) eqn:M.
  - destruct l as [p|p b|p|p|p|p|p|p|p|p|p|p|]; try discriminate M; cbn [rstep] in R; cbv zeta in R.
    + destruct (c_pc (y_cl y p)); try discriminate R. injection R as <-. cbn [set_cl y_hw y_cl] in *. destruct (W HN) as (q & Q). exists q. unfold upd. destruct (Nat.eqb_spec q p) as [->|_]; exact Q.
    + destruct (c_pc (y_cl y p)); try discriminate R. injection R as <-. exists p. cbn [y_cl]. rewrite upd_same. cbn [c_queue]. intros Z. apply app_eq_nil in Z. destruct Z; discriminate.
    + destruct (c_pc (y_cl y p)) eqn:PR; try discriminate R. destruct (c_queue (y_cl y p)) as [|b q] eqn:CQ; [discriminate R|]. injection R as <-. cbn [note set_cl y_hw y_cl] in *.
      destruct (in_session y p I) as (Hs & _); [congruence|]. destruct (x_in _ _ X p Hs) as [X1 X2 X3 X4 X5]. rewrite PR in X4. rewrite CQ in *.
      exists p. rewrite upd_same. set (c2 := match k with KDisp b' => _ | KFlush => _ end). assert (Z : c_queue c2 = q) by (subst c2; destruct k; unfold enter_flush; cbn [c_queue]; [reflexivity|destruct q; reflexivity]). rewrite Z.
      intros ->. apply HN. rewrite X3. destruct (N.to_nat (h_pub (y_hw y) - c_read (y_cl y p))) as [|n] eqn:EN; [lia|]. cbn [skipn]. apply skipn_nil.
    + contradiction (NF p eq_refl).
    + destruct (h_wait (y_hw y)) as [|b w] eqn:HW; [discriminate R|]. injection R as <-. cbn [set_hw y_hw y_cl h_wait] in *. apply W. congruence.
  - destruct (still _ _ _ _ I R M) as (_ & HW & K). rewrite HW in HN. destruct (W HN) as (q & Q). exists q. destruct (K q) as (-> & _). exact Q.
Qed.

(** When a session begins nothing waits in the hardware. *)
Lemma calm_self y l y' : rinv r y -> waited y -> rstep r y l = Some y' -> match l with LStart _ => h_wait (y_hw y) = [] | _ => True end.
Proof.
  intros I W R. destruct l as [| | | |p| | | | | | | |]; try exact Logic.I. cbn [rstep] in R. cbv zeta in R. destruct (c_pc (y_cl y p)) eqn:P; try discriminate R.
  pose proof (ci_pc _ _ _ (I p)) as Q; unfold cpc in Q; rewrite P in Q. destruct Q as (LK & Q).
  destruct (h_wait (y_hw y)) eqn:HW; [reflexivity|]. destruct W as (q & NQ); [congruence|]. exfalso. destruct (Nat.eq_dec q p) as [->|NE]; [contradiction|].
  apply NQ. apply (no_lock_no_queue r y q (I q)). apply (one_owner r y p q I LK NE).
Qed.

Lemma ring_step_ring B l y' B' : ring_step D rd wr cf r g B l y' = Some B' -> bo_ring D B' = y' /\ forall p, l <> LFail p.
Proof.
  intros S. destruct l; cbn [ring_step] in S; try discriminate S; try (injection S as <-; split; [reflexivity|discriminate]).
  - destruct (s_out _); [discriminate|]. injection S as <-. split; [reflexivity|discriminate].
  - destruct (bc_hand _); [|discriminate]. injection S as <-. split; [reflexivity|discriminate].
  - destruct (_ && _); [|discriminate]. injection S as <-. split; [reflexivity|discriminate].
  - destruct (bc_queue _); [discriminate|]. destruct (receive_packet _ _ _ _). injection S as <-. split; [reflexivity|discriminate].
  - destruct (target_ipbus _ _ _ _ _ _ _) as ((d, w), ok). injection S as <-. split; [reflexivity|discriminate].
Qed.

Lemma sim_ring d0 B u s0 k0 stale l y' B' : Sim d0 B u -> linv r s0 k0 stale (bo_ring D B) -> waited (bo_ring D B) -> (forall q, Forall op_ok (calls (u q))) ->
  rstep r (bo_ring D B) l = Some y' -> ring_step D rd wr cf r g B l y' = Some B' -> Sim d0 B' u.
Proof.
  intros S L W FO R ST. destruct (moves l) eqn:M.
  - destruct l as [p|p b|p|p|p|p|p|p|p|p|p|p|]; try discriminate M; cbn [ring_step] in ST.
    + destruct (s_out (bc_st (bo_c D B p))) as [|x q] eqn:SO; [discriminate|]. injection ST as <-. cbn [rstep] in R. cbv zeta in R. destruct (c_pc (y_cl (bo_ring D B) p)) eqn:PI; try discriminate R. injection R as <-.
      apply sim_hand; assumption.
    + destruct (bc_hand (bo_c D B p)) as [x|] eqn:HA; [|discriminate]. injection ST as <-. assert (P : exists b, c_pc (y_cl (bo_ring D B) p) = PWrite b).
      { cbn [rstep] in R. cbv zeta in R. destruct (c_pc (y_cl (bo_ring D B) p)); try discriminate R. eauto. }
      destruct P as (b & P). eapply sim_write; eauto.
    + destruct (bc_queue (bo_c D B p)) as [|x q] eqn:BQ; [discriminate|]. destruct (receive_packet _ _ _ _) as (h, v) eqn:RP. injection ST as <-. eapply sim_read; eauto.
    + discriminate ST.
    + destruct (target_ipbus _ _ _ _ _ _ _) as ((d, w), ok) eqn:TP. injection ST as <-. eapply sim_pub; eauto.
  - assert (X : B' = with_ring D B y') by (destruct l; try discriminate M; cbn [ring_step] in ST; try (injection ST as <-; reflexivity); destruct (_ && _); [injection ST as <-; reflexivity|discriminate]).
    rewrite X. apply (sim_still d0 B u l y' S); [apply L|exact R|exact M].
Qed.

Lemma with_same B p d0 u : Sim d0 (with_bc D B p (bo_c D B p)) u -> Sim d0 B u.
Proof.
  intros S. apply (sim_none _ _ u _ _ S); [reflexivity|]. intros q y ss [K1 K2 K3 K4 K5 K6 K7 K8 K9 K10].
  assert (Z : upd (bo_c D B) p (bo_c D B p) q = bo_c D B q) by (unfold upd; destruct (Nat.eqb_spec q p) as [->|_]; reflexivity).
  unfold pubd in *. cbn [with_bc bo_c bo_ring bo_req bo_rep] in *. rewrite Z in *. split; unfold pubd; auto.
Qed.

Lemma inv_run d0 s0 k0 : forall ls B u stale B', Sim d0 B u -> linv r s0 k0 stale (bo_ring D B) -> waited (bo_ring D B) ->
  (forall q, Forall op_ok (calls (u q ++ board_user q ls))) ->
  tidy stale (ring_of ls) -> y_count (bo_ring D B) + nstarts (ring_of ls) < s0 + 2 ^ 64 ->
  brun D rd wr cf r g B ls = Some B' -> Sim d0 B' (fun q => u q ++ board_user q ls).
Proof.
  induction ls as [|l ls IH]; intros B u stale B' S L W FO TI NS R.
  - cbn in R. injection R as <-. apply (sim_none _ B u _ _ S); [reflexivity|]. intros q y ss C. cbn [board_user flat_map]. rewrite app_nil_r. exact C.
  - cbn [brun] in R. destruct (bstep D rd wr cf r g B l) as [B1|] eqn:ST; [|discriminate].
    assert (US : forall q, u q ++ board_user q (l :: ls) = (u q ++ board_user q [l]) ++ board_user q ls).
    { intros q. rewrite <- app_assoc. f_equal. unfold board_user. cbn [flat_map]. rewrite app_nil_r. reflexivity. }
    assert (GO : forall u1, (forall q, u1 q = u q ++ board_user q [l]) -> Sim d0 B1 u1 -> bo_ring D B1 = bo_ring D B -> ring_of (l :: ls) = ring_of ls -> Sim d0 B' (fun q => u q ++ board_user q (l :: ls))).
    { intros u1 EU S1 EB ER. rewrite ER in *. assert (X : Sim d0 B' (fun q => u1 q ++ board_user q ls)).
      { apply (IH B1 u1 stale B'); rewrite ?EB; auto. intros q. rewrite EU, <- US. apply FO. }
      apply (sim_none _ _ _ _ _ X); [reflexivity|]. intros q y ss C. rewrite US, <- EU. exact C. }
    assert (UP : forall p x, (forall q, board_user q [l] = if Nat.eqb p q then [x] else []) -> forall q, upd u p (u p ++ [x]) q = u q ++ board_user q [l]).
    { intros p x EX q. rewrite EX. unfold upd. rewrite Nat.eqb_sym. destruct (Nat.eqb_spec p q) as [->|NE]; [reflexivity|]. rewrite app_nil_r. reflexivity. }
    assert (UB : forall p x, (forall q, board_user q [l] = (if Nat.eqb p q then [x] else []) ++ []) -> forall q, board_user q [l] = if Nat.eqb p q then [x] else []).
    { intros p x EX q. rewrite EX. apply app_nil_r. }
    destruct l as [p o|p|p|x]; cbn [bstep] in ST; cbv zeta in ST.
    + destruct (bc_wait (bo_c D B p)) eqn:WT; [discriminate|]. destruct (outside D B p) eqn:OUT; [|discriminate]. cbn [orb negb] in ST.
      pose proof (sim_op d0 B u p o S WT OUT) as S1. cbv zeta in S1.
      eapply (GO _ (UP p (LOp o) (UB p (LOp o) (fun q => eq_refl)))); [|destruct (run_op (g p) (bc_st (bo_c D B p)) o); injection ST as <-; reflexivity|reflexivity].
      destruct (run_op (g p) (bc_st (bo_c D B p)) o); injection ST as <-; exact S1.
    + destruct (bc_wait (bo_c D B p)) eqn:WT; [discriminate|]. destruct (outside D B p) eqn:OUT; [|discriminate]. cbn [orb negb] in ST.
      pose proof (sim_dispatch d0 B u p S WT OUT) as S1. cbv zeta in S1.
      eapply (GO _ (UP p System.LDispatch (UB p System.LDispatch (fun q => eq_refl)))); [|destruct (s_cur (bc_st (bo_c D B p))); [destruct (dispatch_send (g p) (bc_st (bo_c D B p)))|]; injection ST as <-; reflexivity|reflexivity].
      destruct (s_cur (bc_st (bo_c D B p))); [destruct (dispatch_send (g p) (bc_st (bo_c D B p)))|]; injection ST as <-; try exact S1. apply (with_same B p). exact S1.
    + destruct (bc_wait (bo_c D B p)) eqn:WT; [|discriminate]. destruct (outside D B p) eqn:OUT; [|discriminate]. cbn [andb] in ST. destruct (bc_queue (bo_c D B p)) eqn:BQ; [|discriminate].
      pose proof (sim_return d0 B u p S WT OUT BQ) as S1. cbv zeta in S1. injection ST as <-.
      eapply (GO _ (UP p LReturn (UB p LReturn (fun q => eq_refl)))); [exact S1|reflexivity|reflexivity].
    + destruct (rstep r (bo_ring D B) x) as [y'|] eqn:RS; [|discriminate]. destruct (ring_step_ring _ _ _ _ ST) as (EB & NF).
      assert (ER : ring_of (BRing x :: ls) = x :: ring_of ls) by reflexivity. rewrite ER in *. cbn [tidy] in TI. destruct TI as (T1 & T2). rewrite nstarts_cons in NS.
      pose proof (count_step _ _ _ _ RS) as CN. pose proof (calm_self _ _ _ (l_r _ _ _ _ _ L) W RS) as C1.
      assert (S1 : Sim d0 B1 u).
      { eapply (sim_ring d0 B u s0 k0 stale x y' B1); eauto. intros q. specialize (FO q). rewrite calls_app in FO. apply Forall_app in FO. apply FO. }
      assert (X : Sim d0 B' (fun q => u q ++ board_user q ls)).
      { apply (IH B1 u (stale_next stale x) B'); rewrite ?EB; auto; [| |lia].
        - eapply linv_step; eauto. lia.
        - eapply waited_step; eauto. }
      exact X.
Qed.
End B.
