(** Proof layer: runs of [Board.v] end, and where they can end. *)
From Verif Require Import Word Bits Header ValMem Client Validate Target Spec AtomicSpec System TargetRm Tx E2E Devices.
From Verif Require Import Ring RingSpec RingProofs RingProofs2 Board BoardSpec BoardProofs.
From Coq Require Import NArith ZArith List Lia Bool PeanoNat ZifyBool ZifyNat ZifyN.
Import ListNotations.
Open Scope N_scope.
Ltac Zify.zify_post_hook ::= idtac.

(** The client that makes a step of the ring. *)
Definition who (l : rlab) : option nat :=
  match l with
  | LConn p | LDispatch p _ | LGo p | LLock p | LStart p | LWrite p | LFlush p | LPoll p | LRead p | LUnlock p | LEnd p | LFail p => Some p
  | LPub => None
  end.
(** Inside Flush. *)
Definition inflush (i : rpc) : bool := match i with PWait KFlush | PRead KFlush | PUnlock | PEnd => true | _ => false end.
Definition resting (i : rpc) : bool := match i with PIdle | PDisp _ => true | _ => false end.

(** A client of the board and the same client of the ring. *)
Definition al1 (c : bclient) (rc : cst) : Prop :=
  length (bc_queue c) = length (c_queue rc) /\ osome (bc_hand c) = carry (c_pc rc) /\
  (inflush (c_pc rc) = true -> s_out (bc_st c) = []) /\
  (resting (c_pc rc) = true -> c_lock rc = true -> c_queue rc <> []).

(** Steps still to be made. *)
Definition rank (i : rpc) (q : list nat) : nat :=
  match i with
  | PIdle => match q with [] => 0 | _ => 6 end
  | PEnd => 1 | PUnlock => 2 | PRead KFlush => 3 | PWait KFlush => 4
  | PWrite _ => 12 | PStart _ => 13 | PLock _ => 14 | PRead (KDisp _) => 15 | PWait (KDisp _) => 16 | PDisp _ => 17
  end.
Definition wt (c : bclient) (rc : cst) : nat :=
  (if bc_wait c then 1 else 0) + 20 * length (s_out (bc_st c)) + 4 * length (c_queue rc) + (if c_conn rc then 0 else 1) + rank (c_pc rc) (c_queue rc).

Section P.
Variable D : Type.
Variable rd : D -> N -> D * N.
Variable wr : D -> N -> N -> D.
Variable cf : D -> N -> D * N.
Variable r : rcfg.
Variable g : nat -> cfg.
Hypothesis G : forall p, board_client (g p).
Hypothesis Hn : 0 < r_pages r.
Hypothesis Hb : r_pages r < 2 ^ 32.
Hypothesis HI : forall p, r_intr r p = false.
Notation board := (board D).
Notation bstep := (bstep D rd wr cf r g).
Notation brun := (brun D rd wr cf r g).

Definition al (B : board) : Prop := forall p, al1 (bo_c D B p) (y_cl (bo_ring D B) p).
Definition waits (B : board) : nat := length (h_wait (y_hw (bo_ring D B))).

Ltac bred := cbn [with_bc with_ring bo_c bo_ring bc_st bc_wait bc_bad bc_hand bc_queue set_out set_heap s_out osome] in *; yred.

(** One step of the ring by client [p]. *)
Lemma one_step B x B' p : rinv r (bo_ring D B) -> al B -> bstep B (BRing x) = Some B' -> who x = Some p ->
  (forall q, q <> p -> bo_c D B' q = bo_c D B q /\ y_cl (bo_ring D B') q = y_cl (bo_ring D B) q) /\
  bc_wait (bo_c D B' p) = bc_wait (bo_c D B p) /\
  al1 (bo_c D B' p) (y_cl (bo_ring D B') p) /\
  (wt (bo_c D B' p) (y_cl (bo_ring D B') p) + waits B' < wt (bo_c D B p) (y_cl (bo_ring D B) p) + waits B)%nat /\
  (y_owner (bo_ring D B') = y_owner (bo_ring D B) \/ y_owner (bo_ring D B') = None \/ y_owner (bo_ring D B') = Some p) /\
  (outside D B p = true -> bc_wait (bo_c D B p) = false -> outside D B' p = true).
Proof.
  intros I A S W. pose proof (A p) as (A1 & A2 & A3 & A4). pose proof (ci_pc _ _ _ (I p)) as C. unfold cpc in C.
  cbn [Board.bstep] in S. destruct (rstep r (bo_ring D B) x) as [y'|] eqn:R; [|discriminate].
  unfold waits, outside.
  destruct x as [q|q b|q|q|q|q|q|q|q|q|q|q|]; try discriminate W; injection W as ->; cbn [ring_step] in S; cbn [rstep] in R; cbv zeta in R.
  - assert (P : c_conn (y_cl (bo_ring D B) p) = false /\ resting (c_pc (y_cl (bo_ring D B) p)) = true /\ y' = set_cl (bo_ring D B) p (connect r (y_hw (bo_ring D B)) (y_count (bo_ring D B)) (y_active (bo_ring D B)) (y_cl (bo_ring D B) p))).
    { destruct (c_pc (y_cl (bo_ring D B) p)); try discriminate R; destruct (c_conn _); try discriminate R; injection R as <-; auto. }
    destruct P as (P1 & P2 & ->). injection S as <-. bred. split; [intros q NE; rewrite upd_other by exact NE; auto|]. rewrite upd_same. unfold al1, wt. bred. rewrite P1.
    repeat split; auto. lia.
  - destruct (c_pc (y_cl (bo_ring D B) p)) eqn:P; try discriminate R. injection R as <-. destruct (s_out (bc_st (bo_c D B p))) as [|b1 t] eqn:SO; [discriminate|]. injection S as <-. bred.
    split; [intros q NE; rewrite !upd_other by exact NE; auto|]. rewrite !upd_same. unfold al1, wt. bred. rewrite P, SO. cbn [rank carry inflush resting length].
    repeat split; auto; try discriminate. destruct (bc_wait _), (c_conn _), (c_queue _); lia.
  - destruct (c_pc (y_cl (bo_ring D B) p)) eqn:P; try discriminate R. destruct (c_conn (y_cl (bo_ring D B) p)) eqn:CN; [|discriminate R].
    assert (E : exists i, y' = set_cl (bo_ring D B) p (at_pc (y_cl (bo_ring D B) p) i) /\ carry i = true /\ inflush i = false /\ resting i = false /\ (rank i (c_queue (y_cl (bo_ring D B) p)) < 17)%nat).
    { destruct (_ =? _); injection R as <-; unfold enter_read, enter_write; eexists; (split; [reflexivity|]); [destruct (eq32 _ _)|destruct (c_lock _)]; cbn; repeat split; lia. }
    destruct E as (i & -> & E1 & E2 & E3 & E4). injection S as <-. bred. split; [intros q NE; rewrite upd_other by exact NE; auto|]. rewrite upd_same. unfold al1, wt. bred. rewrite P, CN, E1, E2, E3 in *. cbn [rank].
    repeat split; auto; try discriminate. lia.
  - destruct (c_pc (y_cl (bo_ring D B) p)) eqn:P; try discriminate R. destruct (y_owner (bo_ring D B)) eqn:OW; [discriminate R|]. injection R as <-. injection S as <-. bred.
    split; [intros q NE; rewrite upd_other by exact NE; auto|]. rewrite upd_same. unfold al1, wt. bred. rewrite P in *. cbn [rank carry inflush resting].
    repeat split; auto; try discriminate. lia.
  - destruct (c_pc (y_cl (bo_ring D B) p)) eqn:P; try discriminate R. injection R as <-. injection S as <-. bred.
    split; [intros q NE; rewrite upd_other by exact NE; auto|]. rewrite upd_same. unfold al1, wt. destruct (_ || _); bred; rewrite P in *; cbn [rank carry inflush resting];
    repeat split; auto; try discriminate; destruct (c_conn _); lia.
  - destruct (c_pc (y_cl (bo_ring D B) p)) eqn:P; try discriminate R. injection R as <-. destruct (bc_hand (bo_c D B p)) as [x|] eqn:HA; [|discriminate]. injection S as <-. bred.
    split; [intros q NE; rewrite !upd_other by exact NE; auto|]. rewrite !upd_same. unfold al1, wt. bred. rewrite P in *. cbn [rank carry inflush resting osome].
    assert (HW : (length (h_wait (hw_write r (y_hw (bo_ring D B)) (c_idx (y_cl (bo_ring D B) p)) b)) <= length (h_wait (y_hw (bo_ring D B))) + 1)%nat).
    { unfold hw_write. destruct (_ =? _); cbn [h_wait]; rewrite ?app_length; cbn [length]; lia. }
    assert (NE : c_queue (y_cl (bo_ring D B) p) ++ [b] <> []) by (intros Z; apply app_eq_nil in Z; destruct Z; discriminate).
    repeat split; auto; try discriminate. { rewrite !app_length, A1. reflexivity. }
    destruct (c_queue (y_cl (bo_ring D B) p) ++ [b]) eqn:Q; [contradiction|]. assert (Z := f_equal (@length nat) Q). rewrite app_length in Z. cbn [length] in Z |- *. lia.
  - destruct (c_pc (y_cl (bo_ring D B) p)) eqn:P; try discriminate R. destruct (c_queue (y_cl (bo_ring D B) p)) as [|b t] eqn:Q; [discriminate R|]. unfold enter_flush in R. rewrite Q in R. injection R as <-.
    destruct (bc_wait (bo_c D B p)) eqn:WT; [|discriminate S]. unfold outside in S. rewrite P in S. destruct (s_out (bc_st (bo_c D B p))) eqn:SO; [|discriminate S]. injection S as <-. bred.
    split; [intros q NE; rewrite upd_other by exact NE; auto|]. rewrite upd_same. unfold al1, wt. rewrite Q. unfold enter_read. bred. rewrite ?P, ?Q, ?SO, ?WT. cbn [rank].
    destruct (eq32 _ _); cbn [rank carry inflush resting]; repeat split; auto; try discriminate; lia.
  - destruct (c_pc (y_cl (bo_ring D B) p)) as [| | | | |k| | |] eqn:P; try discriminate R. rewrite HI in R. destruct (eq32 _ _); [discriminate R|]. injection R as <-. injection S as <-. bred.
    split; [intros q NE; rewrite upd_other by exact NE; auto|]. rewrite upd_same. unfold al1, wt. bred. rewrite P in *. destruct k; cbn [rank carry inflush resting] in *; repeat split; auto; try discriminate; lia.
  - destruct (c_pc (y_cl (bo_ring D B) p)) as [| | | | | |k| |] eqn:P; try discriminate R. destruct (c_queue (y_cl (bo_ring D B) p)) as [|b t] eqn:Q; [discriminate R|]. injection R as <-.
    destruct (bc_queue (bo_c D B p)) as [|x bt] eqn:BQ; [discriminate|]. destruct (receive_packet _ _ _ _) as (h, v). injection S as <-. bred.
    split; [intros q NE; rewrite !upd_other by exact NE; auto|]. rewrite !upd_same. unfold al1, wt. bred. rewrite P, Q in *. cbn [length] in A1. injection A1 as A1.
    destruct k as [b'|]; cbn [rank carry inflush resting] in *.
    + unfold enter_write. bred. destruct (c_lock _); cbn [rank carry inflush resting length]; repeat split; auto; try discriminate; lia.
    + unfold enter_flush, enter_read. bred. destruct t as [|b2 t]; bred; [|destruct (eq32 _ _)]; cbn [rank carry inflush resting length]; repeat split; auto; try discriminate; cbn [length] in *; lia.
  - destruct (c_pc (y_cl (bo_ring D B) p)) eqn:P; try discriminate R. injection R as <-. injection S as <-. bred.
    split; [intros q NE; rewrite upd_other by exact NE; auto|]. rewrite upd_same. unfold al1, wt. bred. rewrite P in *. cbn [rank carry inflush resting].
    repeat split; auto; try discriminate. lia.
  - destruct (c_pc (y_cl (bo_ring D B) p)) eqn:P; try discriminate R. injection R as <-. injection S as <-. bred.
    split; [intros q NE; rewrite upd_other by exact NE; auto|]. rewrite upd_same. unfold al1, wt. bred. rewrite P in *. cbn [rank carry inflush resting].
    assert (Q : c_queue (y_cl (bo_ring D B) p) = []). { apply (no_lock_no_queue r (bo_ring D B) p (I p)). exact C. }
    rewrite Q in *. cbn [length] in *. rewrite (A3 eq_refl). repeat split; auto; try discriminate; try congruence; try lia.
  - discriminate S.
Qed.

(** A step of the hardware. *)
Lemma pub_step B B' : bstep B (BRing LPub) = Some B' ->
  (forall q, bo_c D B' q = bo_c D B q /\ y_cl (bo_ring D B') q = y_cl (bo_ring D B) q) /\
  (waits B' < waits B)%nat /\ y_owner (bo_ring D B') = y_owner (bo_ring D B).
Proof.
  intros S. cbn [Board.bstep rstep] in S. destruct (h_wait (y_hw (bo_ring D B))) as [|b w] eqn:HW; [discriminate|]. cbn [ring_step] in S.
  destruct (target_ipbus _ _ _ _ _ _ _) as ((d, ws), ok). injection S as <-. unfold waits. bred. rewrite HW. cbn [length]. repeat split; auto.
Qed.

(** A step of the user of client [p], other than a step of the ring. *)
Lemma user_step B l B' p : bstep B l = Some B' -> (exists o, l = BOp p o) \/ l = BDispatch p \/ l = BReturn p ->
  outside D B p = true /\ bo_ring D B' = bo_ring D B /\ (forall q, q <> p -> bo_c D B' q = bo_c D B q) /\
  bc_queue (bo_c D B' p) = bc_queue (bo_c D B p) /\ bc_hand (bo_c D B' p) = bc_hand (bo_c D B p).
Proof.
  intros S [(o & ->)|[->| ->]]; cbn [Board.bstep] in S; cbv zeta in S.
  - destruct (bc_wait (bo_c D B p)); [discriminate|]. destruct (outside D B p); [|discriminate]. cbn [orb negb] in S.
    destruct (run_op (g p) (bc_st (bo_c D B p)) o); injection S as <-; bred; (split; [reflexivity|]); (split; [reflexivity|]); (split; [intros q NE; rewrite upd_other by exact NE; reflexivity|]); rewrite upd_same; auto.
  - destruct (bc_wait (bo_c D B p)); [discriminate|]. destruct (outside D B p); [|discriminate]. cbn [orb negb] in S.
    destruct (s_cur (bc_st (bo_c D B p))); [|injection S as <-; auto].
    destruct (dispatch_send (g p) (bc_st (bo_c D B p))); injection S as <-; bred; (split; [reflexivity|]); (split; [reflexivity|]); (split; [intros q NE; rewrite upd_other by exact NE; reflexivity|]); rewrite upd_same; auto.
  - destruct (bc_wait (bo_c D B p)); [|discriminate]. destruct (outside D B p); [|discriminate]. cbn [andb] in S. destruct (bc_queue (bo_c D B p)) eqn:BQ; [|discriminate]. injection S as <-. bred.
    (split; [reflexivity|]); (split; [reflexivity|]); (split; [intros q NE; rewrite upd_other by exact NE; reflexivity|]); rewrite upd_same; auto.
Qed.
Lemma out_idle B p : outside D B p = true -> c_pc (y_cl (bo_ring D B) p) = PIdle /\ s_out (bc_st (bo_c D B p)) = [].
Proof. unfold outside. destruct (c_pc _); try discriminate. destruct (s_out _); [auto|discriminate]. Qed.

Lemma al_step B l B' : rinv r (bo_ring D B) -> al B -> bstep B l = Some B' -> al B'.
Proof.
  intros I A S.
  assert (U : forall p, (exists o, l = BOp p o) \/ l = BDispatch p \/ l = BReturn p -> al B').
  { intros p E. destruct (user_step _ _ _ _ S E) as (OUT & RG & OT & Q & H). destruct (out_idle _ _ OUT) as (PI & SO).
    intros q. rewrite RG. destruct (Nat.eq_dec q p) as [->|NE]; [|rewrite OT by exact NE; apply A].
    destruct (A p) as (A1 & A2 & A3 & A4). unfold al1. rewrite Q, H, PI in *. repeat split; auto. discriminate. }
  destruct l as [p o|p|p|x]; [apply (U p); eauto|apply (U p); auto|apply (U p); auto|]. clear U.
  destruct (who x) as [p|] eqn:W.
  - destruct (one_step _ _ _ _ I A S W) as (OT & _ & AL & _). intros q. destruct (Nat.eq_dec q p) as [->|NE]; [exact AL|]. destruct (OT q NE) as (-> & ->). apply A.
  - destruct x; try discriminate W. destruct (pub_step _ _ S) as (OT & _). intros q. destruct (OT q) as (-> & ->). apply A.
Qed.

(** What holds of all boards reached. *)
Definition J (s0 k0 : N) (stale : nat -> bool) (B : board) : Prop := linv r s0 k0 stale (bo_ring D B) /\ waited (bo_ring D B) /\ al B.
Definition bstale (stale : nat -> bool) (l : blabel) : nat -> bool := match l with BRing x => stale_next stale x | _ => stale end.

Lemma J_step s0 k0 stale B l B' : J s0 k0 stale B -> bstep B l = Some B' ->
  match l with BRing (LEnd p) => stale p = false | _ => True end -> y_count (bo_ring D B) < s0 + 2 ^ 64 ->
  J s0 k0 (bstale stale l) B' /\ y_count (bo_ring D B') = y_count (bo_ring D B) + nstarts (ring_of [l]).
Proof.
  intros (L & W & A) S T C. pose proof (al_step B l B' (l_r _ _ _ _ _ L) A S) as A'.
  assert (U : forall p, (exists o, l = BOp p o) \/ l = BDispatch p \/ l = BReturn p -> bo_ring D B' = bo_ring D B).
  { intros p E. apply (user_step _ _ _ _ S E). }
  assert (U' : bo_ring D B' = bo_ring D B -> ring_of [l] = [] -> bstale stale l = stale -> J s0 k0 (bstale stale l) B' /\ y_count (bo_ring D B') = y_count (bo_ring D B) + nstarts (ring_of [l])).
  { intros E1 E2 E3. unfold J. rewrite E1, E2, E3. cbn [nstarts]. split; [split; [exact L|split; assumption]|lia]. }
  destruct l as [p o|p|p|x]; [apply U'; auto; apply (U p); eauto|apply U'; auto; apply (U p); auto|apply U'; auto; apply (U p); auto|]. clear U U'.
  cbn [Board.bstep] in S. destruct (rstep r (bo_ring D B) x) as [y'|] eqn:R; [|discriminate]. destruct (ring_step_ring D rd wr cf r g _ _ _ _ S) as (E & NF).
  rewrite <- E in R. pose proof (calm_self r _ _ _ (l_r _ _ _ _ _ L) W R) as CS. split; [|exact (count_step _ _ _ _ R)]. split; [|split; [|exact A']].
  - cbn [bstale]. eapply linv_step; [exact Hn|exact Hb|exact HI|exact L| |exact CS|exact C|exact R]. destruct x; auto.
  - exact (waited_step D rd wr cf r g G Hn Hb HI _ _ _ _ _ _ L W R NF).
Qed.

Lemma J_run s0 k0 : forall ls stale B B', J s0 k0 stale B -> brun B ls = Some B' -> tidy stale (ring_of ls) ->
  y_count (bo_ring D B) + nstarts (ring_of ls) < s0 + 2 ^ 64 ->
  exists stale', J s0 k0 stale' B' /\ (forall ls2, tidy stale (ring_of (ls ++ ls2)) -> tidy stale' (ring_of ls2)) /\ y_count (bo_ring D B') = y_count (bo_ring D B) + nstarts (ring_of ls).
Proof.
  induction ls as [|l ls IH]; intros stale B B' JB R T NS.
  - cbn in R. injection R as <-. exists stale. split; [exact JB|]. split; [auto|]. cbn. lia.
  - cbn [Board.brun] in R. destruct (bstep B l) as [B1|] eqn:S; [|discriminate].
    assert (RO : forall t, ring_of (l :: t) = ring_of [l] ++ ring_of t) by (intros; unfold ring_of; cbn [flat_map]; rewrite app_nil_r; reflexivity).
    assert (NA : forall a b, nstarts (a ++ b) = nstarts a + nstarts b).
    { induction a as [|z a IHa]; intros b; [reflexivity|]. cbn [app]. rewrite (nstarts_cons z), (nstarts_cons z a), IHa. lia. }
    rewrite RO in T, NS. rewrite NA in NS.
    assert (TT : forall t, tidy stale (ring_of [l] ++ t) -> match l with BRing (LEnd p) => stale p = false | _ => True end /\ tidy (bstale stale l) t).
    { intros t. destruct l as [| | |x]; cbn [ring_of flat_map app bstale tidy]; auto. }
    destruct (TT _ T) as (T1 & T2).
    destruct (J_step s0 k0 stale B l B1 JB S T1) as (J1 & C1); [lia|].
    destruct (IH _ B1 B' J1 R T2) as (st & JB' & TB & CB); [lia|]. exists st. split; [exact JB'|]. split.
    + intros ls2 H. apply TB. cbn [app] in H. rewrite RO in H. apply TT in H. apply H.
    + rewrite CB, C1, (RO ls), NA. lia.
Qed.

(** ** Runs of some clients and the hardware *)
Definition inside1 (ps : list nat) (l : blabel) : Prop :=
  match l with
  | BReturn p => In p ps
  | BRing x => match who x with Some p => In p ps | None => True end
  | _ => False
  end.
Definition sum (f : nat -> nat) (ps : list nat) : nat := fold_right (fun p n => f p + n)%nat 0%nat ps.
Lemma sum_same f h ps : (forall q, In q ps -> f q = h q) -> sum f ps = sum h ps.
Proof. induction ps as [|p ps IH]; intros E; [reflexivity|]. cbn [sum fold_right]. fold (sum f ps) (sum h ps). rewrite IH by (intros; apply E; right; assumption). rewrite E by (left; reflexivity). reflexivity. Qed.
Lemma sum_at f h ps p : NoDup ps -> In p ps -> (forall q, q <> p -> f q = h q) -> (sum f ps + h p = sum h ps + f p)%nat.
Proof.
  induction ps as [|x ps IH]; intros ND IN E; [destruct IN|]. inversion ND as [|? ? NI ND']; subst. cbn [sum fold_right]. fold (sum f ps) (sum h ps). destruct IN as [->|IN].
  - rewrite (sum_same f h ps); [lia|]. intros q IQ. apply E. intros ->. contradiction.
  - specialize (IH ND' IN E). rewrite (E x); [lia|]. intros ->. contradiction.
Qed.
Definition work (B : board) (ps : list nat) : nat := (sum (fun p => wt (bo_c D B p) (y_cl (bo_ring D B) p)) ps + waits B)%nat.

(** Those of [ps] that do not wait have nothing to do; whoever has the lock waits. *)
Definition K (ps : list nat) (B : board) : Prop :=
  (forall p, In p ps -> bc_wait (bo_c D B p) = true \/ outside D B p = true) /\
  (forall q, y_owner (bo_ring D B) = Some q -> In q ps /\ bc_wait (bo_c D B q) = true).

Lemma K_step ps s0 k0 stale B l B' : NoDup ps -> J s0 k0 stale B -> K ps B -> inside1 ps l -> bstep B l = Some B' -> K ps B' /\ (work B' ps < work B ps)%nat.
Proof.
  intros ND (L & _ & A) (K1 & K2) IN S. assert (I := l_r _ _ _ _ _ L). unfold work. destruct l as [p o|p|p|x]; try contradiction IN.
  - cbn [inside1] in IN. destruct (user_step _ _ _ p S ltac:(auto)) as (OUT & RG & OT & Q & H).
    cbn [Board.bstep] in S. destruct (bc_wait (bo_c D B p)) eqn:WT; [|discriminate]. rewrite OUT in S. cbn [andb] in S. destruct (bc_queue (bo_c D B p)) eqn:BQ; [|discriminate]. injection S as <-.
    split; [split|].
    + intros q IQ. destruct (Nat.eq_dec q p) as [->|NE]; [right; unfold outside in *; bred; rewrite upd_same; exact OUT|]. unfold outside. rewrite OT by exact NE. bred. apply K1. exact IQ.
    + intros q OW. cbn [with_bc bo_ring] in OW. destruct (Nat.eq_dec q p) as [->|NE]; [exfalso|rewrite OT by exact NE; apply K2; exact OW].
      apply (ci_own _ _ _ (I p)) in OW. destruct (A p) as (A1 & _ & _ & A4). destruct (out_idle _ _ OUT) as (PI & _). rewrite PI in A4. apply (A4 eq_refl OW). rewrite BQ in A1. destruct (c_queue _); [reflexivity|discriminate].
    + pose proof (sum_at (fun p0 => wt (bo_c D (with_bc D B p (mkBc (bc_st (bo_c D B p)) false (bc_bad (bo_c D B p)) (bc_hand (bo_c D B p)) [])) p0) (y_cl (bo_ring D B) p0)) (fun p0 => wt (bo_c D B p0) (y_cl (bo_ring D B) p0)) ps p ND IN) as Z.
      cbv beta in Z. specialize (Z ltac:(intros q NE; rewrite OT by exact NE; reflexivity)).
      change (waits (with_bc D B p (mkBc (bc_st (bo_c D B p)) false (bc_bad (bo_c D B p)) (bc_hand (bo_c D B p)) []))) with (waits B).
      cbn [with_bc bo_ring bo_c] in Z |- *. rewrite upd_same in Z.
      assert (Y : (wt (mkBc (bc_st (bo_c D B p)) false (bc_bad (bo_c D B p)) (bc_hand (bo_c D B p)) []) (y_cl (bo_ring D B) p) + 1 = wt (bo_c D B p) (y_cl (bo_ring D B) p))%nat) by (unfold wt; rewrite WT; bred; lia).
      lia.
  - cbn [inside1] in IN. destruct (who x) as [p|] eqn:W.
    + destruct (one_step _ _ _ _ I A S W) as (OT & WT & AL & LT & OW & OU). split; [split|].
      * intros q IQ. destruct (Nat.eq_dec q p) as [->|NE].
        -- rewrite WT. destruct (bc_wait (bo_c D B p)) eqn:E; [auto|right]. destruct (K1 p IQ) as [Z|Z]; [congruence|auto].
        -- unfold outside. destruct (OT q NE) as (-> & ->). apply K1. exact IQ.
      * intros q OQ. destruct OW as [OW|[OW|OW]].
        -- rewrite OW in OQ. destruct (K2 q OQ) as (K3 & K4). split; [exact K3|]. destruct (Nat.eq_dec q p) as [->|NE]; [congruence|]. destruct (OT q NE) as (-> & _). exact K4.
        -- congruence.
        -- rewrite OW in OQ. injection OQ as <-. split; [exact IN|]. rewrite WT. destruct (K1 p IN) as [Z|Z]; [exact Z|].
           destruct (bc_wait (bo_c D B p)) eqn:E; [reflexivity|]. exfalso.
           assert (OU' := OU Z eq_refl). destruct (out_idle _ _ OU') as (PI' & _). destruct (out_idle _ _ Z) as (PI & _).
           cbn [Board.bstep] in S. destruct (rstep r (bo_ring D B) x) as [y'|] eqn:R; [|discriminate]. destruct (ring_step_ring D rd wr cf r g _ _ _ _ S) as (ER & _). rewrite ER in *.
           destruct (y_owner (bo_ring D B)) as [q|] eqn:OB.
           ++ destruct (K2 q eq_refl) as (_ & QW). assert (NQ : q <> p) by congruence.
              clear - R OB OW NQ. destruct x as [u|u b|u|u|u|u|u|u|u|u|u|u|]; cbn [rstep] in R; cbv zeta in R; repeat (match type of R with context [match ?z with _ => _ end] => destruct z end; try discriminate R); try (injection R as <-); yred; congruence.
           ++ destruct x as [u|u b|u|u|u|u|u|u|u|u|u|u|]; cbn [rstep] in R; cbv zeta in R; try discriminate W; injection W as ->; rewrite ?PI in R; try discriminate R; rewrite ?OB in R;
              repeat (match type of R with context [match ?z with _ => _ end] => destruct z end; try discriminate R); try (injection R as <-); yred; congruence.
      * pose proof (sum_at (fun p0 => wt (bo_c D B' p0) (y_cl (bo_ring D B') p0)) (fun p0 => wt (bo_c D B p0) (y_cl (bo_ring D B) p0)) ps p ND IN) as Z.
        cbv beta in Z. specialize (Z ltac:(intros q NE; destruct (OT q NE) as (-> & ->); reflexivity)). lia.
    + destruct x; try discriminate W. destruct (pub_step _ _ S) as (OT & LT & OW). split; [split|].
      * intros q IQ. unfold outside. destruct (OT q) as (-> & ->). apply K1. exact IQ.
      * rewrite OW. intros q OQ. destruct (OT q) as (-> & _). apply K2. exact OQ.
      * rewrite (sum_same (fun p => wt (bo_c D B' p) (y_cl (bo_ring D B') p)) (fun p => wt (bo_c D B p) (y_cl (bo_ring D B) p))); [lia|]. intros q _. destruct (OT q) as (-> & ->). reflexivity.
Qed.

(** Steps that can be made. *)
Lemma go B x y' B' ps : rstep r (bo_ring D B) x = Some y' -> ring_step D rd wr cf r g B x y' = Some B' ->
  match who x with Some p => In p ps | None => True end -> exists l B'', inside1 ps l /\ bstep B l = Some B''.
Proof. intros R S I. exists (BRing x), B'. split; [exact I|]. cbn [Board.bstep]. rewrite R. exact S. Qed.
Lemma go_still B x y' ps : rstep r (bo_ring D B) x = Some y' -> moves x = false -> (forall p, x <> LFlush p) ->
  match who x with Some p => In p ps | None => True end -> exists l B'', inside1 ps l /\ bstep B l = Some B''.
Proof. intros R M NF I. apply (go B x y' (with_ring D B y') ps R); [|exact I]. destruct x; try discriminate M; try reflexivity. contradiction (NF p eq_refl). Qed.
Lemma go_pub B ps : h_wait (y_hw (bo_ring D B)) <> [] -> exists l B'', inside1 ps l /\ bstep B l = Some B''.
Proof.
  intros H. destruct (h_wait (y_hw (bo_ring D B))) as [|b w] eqn:HW; [contradiction H; reflexivity|].
  assert (R : exists y', rstep r (bo_ring D B) LPub = Some y') by (cbn [rstep]; cbv zeta; rewrite HW; eauto). destruct R as (y' & R).
  assert (S : exists B', ring_step D rd wr cf r g B LPub y' = Some B') by (cbn [ring_step]; destruct (target_ipbus _ _ _ _ _ _ _) as ((d, ws), ok); eauto). destruct S as (B' & S).
  exact (go B LPub y' B' ps R S Logic.I).
Qed.

Lemma enabled ps s0 k0 stale B p : J s0 k0 stale B -> K ps B -> In p ps -> bc_wait (bo_c D B p) = true ->
  exists l B', inside1 ps l /\ bstep B l = Some B'.
Proof.
  intros (L & _ & A) (_ & K2) IN WT. assert (I := l_r _ _ _ _ _ L).
  assert (OW : exists q, In q ps /\ bc_wait (bo_c D B q) = true /\ (y_owner (bo_ring D B) = None \/ y_owner (bo_ring D B) = Some q)).
  { destruct (y_owner (bo_ring D B)) as [q|] eqn:O; [|eauto 6]. destruct (K2 q eq_refl). eauto 6. }
  clear p IN WT K2. destruct OW as (p & IN & WT & OW).
  destruct (A p) as (A1 & A2 & A3 & A4). pose proof (ci_pc _ _ _ (I p)) as C. unfold cpc in C.
  destruct (c_pc (y_cl (bo_ring D B) p)) as [|b|b|b|b|k|k| |] eqn:P.
  - destruct (s_out (bc_st (bo_c D B p))) as [|x t] eqn:SO.
    + assert (OUT : outside D B p = true) by (unfold outside; rewrite P, SO; reflexivity).
      destruct (c_queue (y_cl (bo_ring D B) p)) as [|z q] eqn:Q.
      * destruct (bc_queue (bo_c D B p)) eqn:BQ; [|discriminate]. exists (BReturn p). eexists. split; [exact IN|]. cbn [Board.bstep]. cbv zeta. rewrite WT, OUT, BQ. reflexivity.
      * assert (R : exists y', rstep r (bo_ring D B) (LFlush p) = Some y') by (cbn [rstep]; cbv zeta; rewrite P, Q; eauto). destruct R as (y' & R).
        apply (go B (LFlush p) y' (with_ring D B y') ps R); [|exact IN]. cbn [ring_step]. rewrite WT, OUT. reflexivity.
    + assert (R : exists y', rstep r (bo_ring D B) (LDispatch p 0%nat) = Some y') by (cbn [rstep]; cbv zeta; rewrite P; eauto). destruct R as (y' & R).
      eapply (go B (LDispatch p 0%nat) y' _ ps R); [|exact IN]. cbn [ring_step]. rewrite SO. reflexivity.
  - destruct (c_conn (y_cl (bo_ring D B) p)) eqn:CN.
    + assert (R : exists y', rstep r (bo_ring D B) (LGo p) = Some y') by (cbn [rstep]; cbv zeta; rewrite P, CN; destruct (_ =? _); eauto). destruct R as (y' & R).
      apply (go_still B (LGo p) y' ps R); [reflexivity|discriminate|exact IN].
    + assert (R : exists y', rstep r (bo_ring D B) (LConn p) = Some y') by (cbn [rstep]; cbv zeta; rewrite P, CN; eauto). destruct R as (y' & R).
      apply (go_still B (LConn p) y' ps R); [reflexivity|discriminate|exact IN].
  - destruct C as (C & _). destruct OW as [OW|OW]; [|apply (ci_own _ _ _ (I p)) in OW; congruence].
    assert (R : exists y', rstep r (bo_ring D B) (LLock p) = Some y') by (cbn [rstep]; cbv zeta; rewrite P, OW; eauto). destruct R as (y' & R).
    apply (go_still B (LLock p) y' ps R); [reflexivity|discriminate|exact IN].
  - assert (R : exists y', rstep r (bo_ring D B) (LStart p) = Some y') by (cbn [rstep]; cbv zeta; rewrite P; eauto). destruct R as (y' & R).
    apply (go_still B (LStart p) y' ps R); [reflexivity|discriminate|exact IN].
  - assert (R : exists y', rstep r (bo_ring D B) (LWrite p) = Some y') by (cbn [rstep]; cbv zeta; rewrite P; eauto). destruct R as (y' & R).
    cbn [carry] in A2. destruct (bc_hand (bo_c D B p)) as [x|] eqn:HA; [|discriminate].
    eapply (go B (LWrite p) y' _ ps R); [|exact IN]. cbn [ring_step]. rewrite HA. reflexivity.
  - destruct (N.lt_ge_cases (c_read (y_cl (bo_ring D B) p)) (h_pub (y_hw (bo_ring D B)))) as [LT|GE].
    + destruct (poll_enabled r s0 k0 stale _ p k Hb Hn HI L P LT) as (y' & R & _). apply (go_still B (LPoll p) y' ps R); [reflexivity|discriminate|exact IN].
    + apply go_pub. assert (Hs : insess (y_cl (bo_ring D B) p) = true) by (eapply linv_insess_wait; eauto).
      destruct (x_in _ _ (l_x _ _ _ _ _ L) p Hs) as [_ _ X3 _ _]. rewrite X3. replace (N.to_nat (h_pub (y_hw (bo_ring D B)) - c_read (y_cl (bo_ring D B) p))) with 0%nat by lia. exact C.
  - destruct (c_queue (y_cl (bo_ring D B) p)) as [|z q] eqn:Q; [contradiction C; reflexivity|]. destruct (bc_queue (bo_c D B p)) as [|x t] eqn:BQ; [discriminate|].
    assert (R : exists y', rstep r (bo_ring D B) (LRead p) = Some y') by (cbn [rstep]; cbv zeta; rewrite P, Q; eauto). destruct R as (y' & R).
    assert (S : exists B', ring_step D rd wr cf r g B (LRead p) y' = Some B') by (cbn [ring_step]; cbv zeta; rewrite BQ; destruct (receive_packet _ _ _ _); eauto). destruct S as (B' & S).
    exact (go B (LRead p) y' B' ps R S IN).
  - assert (R : exists y', rstep r (bo_ring D B) (LUnlock p) = Some y') by (cbn [rstep]; cbv zeta; rewrite P; eauto). destruct R as (y' & R).
    apply (go_still B (LUnlock p) y' ps R); [reflexivity|discriminate|exact IN].
  - assert (R : exists y', rstep r (bo_ring D B) (LEnd p) = Some y') by (cbn [rstep]; cbv zeta; rewrite P; eauto). destruct R as (y' & R).
    apply (go_still B (LEnd p) y' ps R); [reflexivity|discriminate|exact IN].
Qed.

Lemma bounded ps s0 k0 : NoDup ps -> forall ls stale B B', J s0 k0 stale B -> K ps B -> Forall (inside1 ps) ls -> brun B ls = Some B' ->
  tidy stale (ring_of ls) -> y_count (bo_ring D B) + nstarts (ring_of ls) < s0 + 2 ^ 64 ->
  K ps B' /\ (length ls + work B' ps <= work B ps)%nat.
Proof.
  intros ND. induction ls as [|l ls IH]; intros stale B B' JB KB F R T NS.
  - cbn in R. injection R as <-. split; [exact KB|]. cbn [length]. lia.
  - inversion F as [|? ? F1 F2]; subst. change (l :: ls) with ([l] ++ ls) in T, NS. cbn [Board.brun] in R. destruct (bstep B l) as [B1|] eqn:S; [|discriminate].
    destruct (K_step ps s0 k0 stale B l B1 ND JB KB F1 S) as (K1 & W1).
    assert (X : match l with BRing (LEnd p) => stale p = false | _ => True end /\ tidy (bstale stale l) (ring_of ls) /\ nstarts (ring_of ([l] ++ ls)) = nstarts (ring_of [l]) + nstarts (ring_of ls)).
    { destruct l as [| | |x]; cbn [ring_of flat_map app bstale tidy] in *; try (repeat split; auto; fail). destruct T as (T1 & T2). repeat split; auto. rewrite nstarts_cons. reflexivity. }
    destruct X as (T1 & T2 & T3). rewrite T3 in NS.
    destruct (J_step s0 k0 stale B l B1 JB S T1) as (J1 & C1); [lia|].
    destruct (IH _ B1 B' J1 K1 F2 R T2) as (K' & W'); [lia|]. split; [exact K'|]. cbn [length]. lia.
Qed.
End P.
