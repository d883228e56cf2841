(** Proof layer: the simulation between the packet-level system and direct
    execution of the calls. *)
From Verif Require Import Word Bits Header WordLemmas HeaderProofs ValMem Client
  Validate Target Spec AtomicSpec SpecLemmas System TargetRm Tx.
From Coq Require Import NArith ZArith List Lia Bool ZifyBool ZifyNat ZifyN.
Import ListNotations.
Open Scope N_scope.
Ltac Zify.zify_post_hook ::= Z.div_mod_to_equations.

Section E2E.
Variable D : Type.
Variable rd : D -> N -> D * N.
Variable wr : D -> N -> N -> D.
Variable cf : D -> N -> D * N.
(** Read-modify-writes as one operation of the device; the target reads, then
    writes. *)
Variable rm : version -> D -> N -> (N -> N) -> D * N.
Definition rm_ext : Prop := forall v d a f f', (forall x, f x = f' x) -> rm v d a f = rm v d a f'.
Hypothesis RE : rm_ext.
Variable g : cfg.
Hypothesis G : cfg_ok g.
(** Whether IPbus 1.3 configuration-space reads are excluded (they use up a
    transaction number although nothing is sent). *)
Variable strict : bool.

Notation v := (g_ver g).
Notation step_rm := (step_rm D rd wr cf rm g).
Notation run_rm := (run_rm D rd wr cf rm g).
Notation exec_tx := (exec_tx D rd wr cf rm).
Notation exec_txs := (exec_txs D rd wr cf rm).
Notation fill_txs := (fill_txs D rd wr cf rm).

Definition pk : Type := list tx * list nat.

Definition hubw : list N := match g_hub g with Some (ip, port) => [ip; port] | None => [] end.
Definition hubd : list dest := match g_hub g with Some _ => [DHub; DHub; DHub] | None => [] end.
Definition pkw : list N := match v with V2 => [0x200000F0] | V1 => [] end.
Definition pkd : list dest := match v with V2 => [DPkt] | V1 => [] end.

Definition repr_cur (b : buf) (p : pk) : Prop :=
  b_send b = hubw ++ pkw ++ flat_map (enc v) (fst p) /\
  b_reply b = hubd ++ pkd ++ flat_map dsts (fst p) /\
  b_vals b = snd p.

Definition hub_ok (hw : list N) (n : nat) : Prop :=
  match g_hub g with
  | None => hw = []
  | Some (ip, port) => exists w, hw = [ip; w] /\ w mod 65536 = port /\
                         w / 65536 = swap16 (N.of_nat n mod 65536)
  end.

Definition repr_out (b : buf) (p : pk) : Prop :=
  (exists hw, hub_ok hw (length (pkw ++ flat_map (enc v) (fst p))) /\
    b_send b = hw ++ pkw ++ flat_map (enc v) (fst p)) /\
  b_reply b = hubd ++ pkd ++ flat_map dsts (fst p) /\
  b_vals b = snd p.

Definition wf_pk (p : pk) : Prop := Forall (wf_tx v) (fst p) /\ (v = V1 -> fst p <> []).

Definition bnd (n : nat) (p : pk) : Prop :=
  Forall (fun x => Forall (dest_lt n) (x_dst x)) (fst p) /\
  Forall (fun c => (c < n)%nat) (snd p).

(** IPbus 1.3 padding. *)
Definition padded (p : pk) (n : nat) : pk := (fst p ++ repeat (XBot 0) n, snd p).

(** Transaction [k] of the list has number [k]. *)
Definition ids_ok (xs : list tx) (ctr : N) : Prop :=
  ctr = N.of_nat (length xs) mod W32 /\
  forall k x, nth_error xs k = Some x -> x_id x = N.of_nat k mod W32.

Definition real_txs (qs : list (pk * nat)) : list tx := flat_map (fun q => fst (fst q)) qs.

Definition cur_txs (gc : option pk) : list tx := match gc with Some p => fst p | None => [] end.

Definition size_ok (b : buf) : Prop :=
  send_counter b <= g_maxsend g /\
  reply_counter b <= g_maxreply g + match v with V1 => 20 | V2 => 0 end.

Definition run_pk (a : D * list cell) (p : pk) : D * list cell :=
  (fst (exec_txs v (fst a) (fst p)),
   mark_valid (fill_txs v (fst a) (snd a) (fst p)) (snd p)).

Lemma land_pkt : N.land 0x200000F0 0x0F = 0. Proof. reflexivity. Qed.
Lemma shr_pkt : N.land (shr32 0x200000F0 8) 0xFFFF = 0. Proof. reflexivity. Qed.

Lemma target_ipbus_repr xs d :
  xs <> [] -> Forall (wf_tx v) xs ->
  ipbus_rm D rd wr cf rm v d (pkw ++ flat_map (enc v) xs) =
  (fst (exec_txs v d xs), pkw ++ snd (exec_txs v d xs), true).
Proof.
  intros N0 W.
  assert (L : (length xs <= length (flat_map (enc v) xs))%nat).
  { clear. induction xs; cbn; [lia|]. rewrite app_length. lia. }
  unfold ipbus_rm, pkw. destruct v eqn:V.
  - cbn [app]. rewrite (target_loop_enc D rd wr cf rm) by assumption. reflexivity.
  - cbn [app]. rewrite land_pkt, shr_pkt. cbn [N.eqb andb].
    rewrite (target_loop_enc D rd wr cf rm) by assumption. reflexivity.
Qed.

Lemma scatter_pk xs d :
  Forall (wf_tx v) xs ->
  scatter (pkd ++ flat_map dsts xs) (pkw ++ snd (exec_txs v d xs)) =
  map (fun w => (DPkt, [w])) pkw ++ slots_txs D rd wr cf rm v d xs.
Proof.
  intros W. rewrite scatter_app_exact.
  - rewrite (scatter_txs D rd wr cf rm v xs d W). f_equal.
    unfold pkd, pkw. destruct v; reflexivity.
  - unfold pkd, pkw. destruct v; reflexivity.
Qed.

Lemma validate_ipbus_repr xs d :
  xs <> [] -> Forall (wf_tx v) xs ->
  validate_ipbus v (pkw ++ flat_map (enc v) xs)
    (map (fun w => (DPkt, [w])) pkw ++ slots_txs D rd wr cf rm v d xs) = VOk.
Proof.
  intros N0 W.
  assert (L : (length xs <= length (flat_map (enc v) xs))%nat).
  { clear. induction xs; cbn; [lia|]. rewrite app_length. lia. }
  unfold validate_ipbus, pkw. destruct v eqn:V.
  - cbn [app map]. apply validate_core_txs; assumption.
  - cbn [app map slot_word snd hd]. unfold slot_word. cbn [snd hd]. rewrite N.eqb_refl.
    cbn [negb]. apply validate_core_txs; assumption.
Qed.

Lemma fill_pkt h ws xs d :
  fill h (map (fun w => (DPkt, [w])) ws ++ slots_txs D rd wr cf rm v d xs) = fill_txs v d h xs.
Proof.
  rewrite <- fill_slots. unfold fill. rewrite fold_left_app. f_equal.
  clear. induction ws; cbn; [reflexivity|assumption].
Qed.

Lemma target_repr b p d : repr_out b p -> wf_pk p -> fst p <> [] ->
  exists r, packet_rm D rd wr cf rm g d (b_send b) = (fst (exec_txs v d (fst p)), r, true)
    /\ forall h, receive_packet g h b r = (snd (run_pk (d, h) p), VOk).
Proof.
  intros ((hw & HW & S) & R & V) (W & _) N0.
  destruct p as [xs vals]. cbn [fst snd] in *.
  unfold packet_rm, receive_packet, validate_packet, hub_ok, hubd, run_pk in *.
  cbn [fst snd]. rewrite S, R, V.
  destruct (g_hub g) as [[ip port]|].
  - destruct HW as (w & -> & Hw & _). cbn [app].
    rewrite target_ipbus_repr by assumption.
    eexists. split; [reflexivity|]. intros h.
    cbn [scatter dest_words]. change (N.to_nat 1) with 1%nat. cbn [firstn skipn].
    rewrite scatter_pk by assumption.
    unfold slot_word at 1 2 3. cbn [snd hd].
    rewrite N.eqb_refl. cbn [negb].
    assert (Hp : port < 65536) by (rewrite <- Hw; apply N.mod_lt; discriminate).
    rewrite Hw. rewrite (N.mod_small port) by assumption. rewrite N.eqb_refl. cbn [negb].
    replace (port / 65536) with 0 by (symmetry; apply N.div_small; assumption).
    change (swap16 0 =? 0) with true. cbn [negb].
    rewrite validate_ipbus_repr by assumption. f_equal. f_equal.
    unfold fill. cbn [fold_left fill_cell]. apply fill_pkt.
  - subst hw. cbn [app]. rewrite target_ipbus_repr by assumption.
    eexists. split; [reflexivity|]. intros h.
    rewrite scatter_pk by assumption. rewrite validate_ipbus_repr by assumption.
    f_equal. f_equal. apply fill_pkt.
Qed.

(** ** Abstraction: what the handles and the device will be once everything
    pending has been processed. *)
Definition grep : Type := pk * D.

Definition alpha (h : list cell) (d : D) (gr : list grep) (go : list pk) (gc : option pk)
  : D * list cell :=
  let h1 := fold_left (fun h e => snd (run_pk (snd e, h) (fst e))) gr h in
  let a := fold_left run_pk go (d, h1) in
  match gc with None => a | Some p => run_pk a p end.

Definition pre_send : N := 4 * N.of_nat (length hubw + length pkw + match v with V1 => 1 | V2 => 0 end).
Definition pre_reply : N := 4 * (N.of_nat (length hubd) + 1).

Definition fresh (b : buf) : Prop := send_counter b = pre_send /\ reply_counter b = pre_reply.

(** A packet of IPbus 1.3 that is not new holds a transaction of two words or more. *)
Definition grown (b : buf) : Prop := v = V1 -> fresh b \/ pre_send + 8 <= send_counter b.

Record inv (s : st) (rep : list (buf * list N)) (dr : list tx) (gr : list grep) (go : list pk)
  (gc : option pk) : Prop := {
  i_rep : Forall2 (fun br e => forall h, receive_packet g h (fst br) (snd br) =
             (snd (run_pk (snd e, h) (fst e)), VOk)) rep gr;
  i_out : Forall2 repr_out (s_out s) go;
  i_wfo : Forall (fun p => wf_pk p /\ fst p <> []) go;
  i_cur : match s_cur s, gc with
          | None, None => True
          | Some b, Some p => repr_cur b p /\ wf_pk p /\
              send_counter b <= g_maxsend g /\ reply_counter b <= g_maxreply g /\ grown b
          | _, _ => False
          end;
  i_brep : Forall (fun e => bnd (length (s_heap s)) (fst e)) gr;
  i_bout : Forall (bnd (length (s_heap s))) go;
  i_bcur : match gc with Some p => bnd (length (s_heap s)) p | None => True end;
  i_bud : s_budget s = None;
  i_sz : Forall size_ok (s_out s);
  i_ids : strict = true -> exists qs,
    map fst gr ++ go = map (fun q => padded (fst q) (snd q)) qs /\
    ids_ok (dr ++ real_txs qs ++ cur_txs gc) (s_ctr s)
}.

Lemma ids_ok_snoc xs ctr x : ids_ok xs ctr -> x_id x = ctr -> ids_ok (xs ++ [x]) (add32 ctr 1).
Proof.
  intros (A & B) E. split.
  - rewrite app_length. cbn [length]. subst ctr. unfold add32, W32. lia.
  - intros k y H. destruct (Nat.lt_ge_cases k (length xs)) as [L|L].
    + rewrite nth_error_app1 in H by assumption. auto.
    + rewrite nth_error_app2 in H by assumption.
      assert (k - length xs = 0)%nat.
      { destruct (k - length xs)%nat; [reflexivity|]. destruct n; discriminate. }
      rewrite H0 in H. injection H as <-. rewrite E, A. f_equal. lia.
Qed.

(** Allocation commutes with everything pending. *)
Lemma fill_tx_length h x data : length (fill_tx h x data) = length h.
Proof. unfold fill_tx. destruct (x_dst x); [reflexivity|apply fill_cell_length]. Qed.

Lemma fill_txs_length xs d h : length (fill_txs v d h xs) = length h.
Proof.
  revert d h. induction xs as [|x t IH]; intros d h; [reflexivity|].
  cbn [Tx.fill_txs]. destruct (exec_tx v d x). rewrite IH. apply fill_tx_length.
Qed.

Lemma fill_txs_alloc xs d h k : Forall (fun x => Forall (dest_lt (length h)) (x_dst x)) xs ->
  fill_txs v d (h ++ k) xs = fill_txs v d h xs ++ k.
Proof.
  revert d h. induction xs as [|x t IH]; intros d h F; [reflexivity|].
  inversion F as [|? ? Fx Ft]; subst.
  cbn [Tx.fill_txs]. destruct (exec_tx v d x) as [d1 data].
  assert (E : fill_tx (h ++ k) x data = fill_tx h x data ++ k).
  { unfold fill_tx. destruct (x_dst x) as [|e ?]; [reflexivity|].
    apply fill_cell_app. inversion Fx; assumption. }
  rewrite E. apply IH. rewrite fill_tx_length. assumption.
Qed.

Lemma run_pk_alloc d h k p : bnd (length h) p ->
  run_pk (d, h ++ k) p = (fst (run_pk (d, h) p), snd (run_pk (d, h) p) ++ k).
Proof.
  intros (B1 & B2). unfold run_pk. cbn [fst snd]. f_equal.
  rewrite fill_txs_alloc by assumption. apply mark_valid_app.
  rewrite fill_txs_length. assumption.
Qed.

Lemma run_pk_length a p : length (snd (run_pk a p)) = length (snd a).
Proof. unfold run_pk. cbn [snd]. rewrite mark_valid_length. apply fill_txs_length. Qed.

Lemma alpha_alloc h d gr go gc k :
  Forall (fun e => bnd (length h) (fst e)) gr ->
  Forall (bnd (length h)) go ->
  match gc with Some p => bnd (length h) p | None => True end ->
  alpha (h ++ k) d gr go gc =
  (fst (alpha h d gr go gc), snd (alpha h d gr go gc) ++ k).
Proof.
  intros B1 B2 B3. unfold alpha.
  assert (R : forall gr h, Forall (fun e : grep => bnd (length h) (fst e)) gr ->
     fold_left (fun h e => snd (run_pk (snd e, h) (fst e))) gr (h ++ k) =
     fold_left (fun h e => snd (run_pk (snd e, h) (fst e))) gr h ++ k
     /\ length (fold_left (fun h e => snd (run_pk (snd e, h) (fst e))) gr h) = length h).
  { clear. induction gr as [|[p d] t IH]; intros h F; [split; reflexivity|].
    inversion F; subst. cbn [fold_left fst snd] in *.
    rewrite run_pk_alloc by assumption. cbn [snd fst].
    destruct (IH (snd (run_pk (d, h) p))) as [E1 E2].
    { rewrite run_pk_length. assumption. }
    split; [exact E1|]. rewrite E2, run_pk_length. reflexivity. }
  destruct (R gr h B1) as [E1 E2]. rewrite E1.
  set (h1 := fold_left _ gr h) in *.
  assert (O : forall go d h, Forall (bnd (length h)) go ->
     fold_left run_pk go (d, h ++ k) =
     (fst (fold_left run_pk go (d, h)), snd (fold_left run_pk go (d, h)) ++ k)
     /\ length (snd (fold_left run_pk go (d, h))) = length h).
  { clear. induction go as [|p t IH]; intros d h F; [split; reflexivity|].
    inversion F; subst. cbn [fold_left].
    rewrite run_pk_alloc by assumption. cbn [snd fst].
    assert (Q := run_pk_length (d, h) p). cbn [snd] in Q.
    destruct (run_pk (d, h) p) as [d1 h1]. cbn [fst snd] in *.
    destruct (IH d1 h1) as [E1 E2]. { rewrite Q. assumption. }
    split; [exact E1|congruence]. }
  rewrite <- E2 in B2. destruct (O go d h1 B2) as [F1 F2]. rewrite F1.
  destruct gc as [p|]; [|reflexivity].
  destruct (fold_left run_pk go (d, h1)) as [d2 h2]. cbn [fst snd] in *.
  apply run_pk_alloc. rewrite F2, E2. assumption.
Qed.

Lemma inv_alloc s rep dr gr go gc k : inv s rep dr gr go gc ->
  inv (fst (alloc s k)) rep dr gr go gc.
Proof.
  assert (M : forall n p, bnd n p -> bnd (n + 1) p).
  { intros n p (A & B). split.
    - eapply Forall_impl; [|exact A]. intros x F. eapply Forall_impl; [|exact F].
      intros [] ; cbn; try tauto; lia.
    - eapply Forall_impl; [|exact B]. cbn; intros; lia. }
  intros []. unfold alloc. cbn [fst]. constructor; cbn [s_out s_cur s_heap s_budget]; trivial;
    rewrite ?app_length; cbn [length].
  - eapply Forall_impl; [|eassumption]. intros; apply M; assumption.
  - eapply Forall_impl; [|eassumption]. intros; apply M; assumption.
  - destruct gc; [apply M; assumption|trivial].
Qed.

(** ** Sizes of a fresh packet. *)

Lemma pre_bounds : pre_send + 16 < g_maxsend g /\ pre_reply + 16 < g_maxreply g.
Proof.
  unfold pre_send, pre_reply, hubw, hubd, pkw. destruct G as (A & B & _).
  destruct (g_hub g) as [[? ?]|], v; cbn [length] in *; lia.
Qed.


Lemma run_pk_bot a id : run_pk a ([XBot id], []) = a.
Proof. destruct a. reflexivity. Qed.

Lemma run_pk_nil a : run_pk a ([], []) = a.
Proof. destruct a. reflexivity. Qed.

Definition same_env (s s' : st) : Prop := s_heap s' = s_heap s.

Lemma update_current_fresh s rep dr gr go : inv s rep dr gr go None ->
  exists s' b p, update_current g s = Ok s' b /\ s_cur s' = Some b /\
    inv s' rep dr gr go (Some p) /\ fresh b /\ s_heap s' = s_heap s /\
    (forall a, run_pk a p = a).
Proof.
  intros I. assert (C : s_cur s = None).
  { pose proof (i_cur _ _ _ _ _ _ I) as X. destruct (s_cur s); [contradiction|reflexivity]. }
  unfold update_current. rewrite C. destruct pre_bounds as (P1 & P2).
  unfold preamble.
  destruct v eqn:V.
  - assert (HC : calc_header V1 BOT 0 (s_ctr s) (req_info V1) = Some (hdrw V1 BOT 0 (s_ctr s)))
      by reflexivity.
    rewrite HC. cbn [bind].
    set (b := mkBuf _ _ _).
    assert (F : fresh b).
    { unfold fresh, b, send_counter, reply_counter, pre_send, pre_reply, hubw, hubd, pkw.
      rewrite V. destruct (g_hub g) as [[? ?]|]; split; reflexivity. }
    destruct F as (F1 & F2).
    rewrite F1, F2.
    replace ((pre_send <=? g_maxsend g) && (pre_reply <=? g_maxreply g)) with true by lia.
    eexists _, b, ([XBot (s_ctr s)], []). split; [reflexivity|]. split; [reflexivity|].
    split; [|split; [split; assumption|split; [reflexivity|intros []; reflexivity]]].
    destruct I. constructor; cbn [set_cur inc_ctr s_out s_cur s_heap s_budget]; trivial.
    + split; [|split; [|split; [lia|split; [lia|intros _; left; split; assumption]]]].
      * unfold repr_cur, b, hubw, hubd, pkw, pkd, enc. rewrite V. cbn [b_send b_reply b_vals fst snd].
        destruct (g_hub g) as [[? ?]|]; repeat split; reflexivity.
      * split; [|intros; discriminate]. constructor; [|constructor].
        rewrite V. split; [discriminate|]. cbn. split; [lia|trivial].
    + split; constructor; [constructor|constructor].
    + intros ST. destruct (i_ids0 ST) as (qs & Q1 & Q2). exists qs. split; [assumption|].
      cbn [s_ctr cur_txs fst] in *. rewrite app_nil_r in Q2. rewrite app_assoc.
      apply ids_ok_snoc; [assumption|reflexivity].
  - cbn [bind]. set (b := mkBuf _ _ _).
    assert (F : fresh b).
    { unfold fresh, b, send_counter, reply_counter, pre_send, pre_reply, hubw, hubd, pkw.
      rewrite V. destruct (g_hub g) as [[? ?]|]; split; reflexivity. }
    destruct F as (F1 & F2).
    rewrite F1, F2.
    replace ((pre_send <=? g_maxsend g) && (pre_reply <=? g_maxreply g)) with true by lia.
    eexists _, b, ([], []). split; [reflexivity|]. split; [reflexivity|].
    split; [|split; [split; assumption|split; [reflexivity|intros []; reflexivity]]].
    destruct I. constructor; cbn [set_cur s_out s_cur s_heap s_budget]; trivial.
    + split; [|split; [|split; [lia|split; [lia|intros _; left; split; assumption]]]].
      * unfold repr_cur, b, hubw, hubd, pkw, pkd. rewrite V. cbn [b_send b_reply b_vals fst snd flat_map].
        rewrite !app_nil_r.
        destruct (g_hub g) as [[? ?]|]; repeat split; reflexivity.
      * split; [constructor|]. intros; congruence.
    + split; constructor.
Qed.

(** predispatch of a well-formed packet. *)
Lemma flat_map_repeat_bot n :
  flat_map (enc V1) (repeat (XBot 0) n) = repeat (hdrw V1 BOT 0 0) n.
Proof. induction n; cbn [repeat flat_map enc app x_body x_type x_wc x_id]; congruence. Qed.

Lemma flat_map_repeat_dst n : flat_map dsts (repeat (XBot 0) n) = repeat DHdr n.
Proof. induction n; cbn [repeat flat_map dsts app x_dst]; congruence. Qed.

Lemma exec_bots n d : exec_txs v d (repeat (XBot 0) n) =
  (d, snd (exec_txs v d (repeat (XBot 0) n))).
Proof.
  induction n; [reflexivity|]. cbn [repeat Tx.exec_txs Tx.exec_tx].
  destruct (exec_txs v d (repeat (XBot 0) n)). cbn [snd] in *. injection IHn as ->. reflexivity.
Qed.

Lemma fill_bots n d h : fill_txs v d h (repeat (XBot 0) n) = h.
Proof. induction n; [reflexivity|]. cbn. exact IHn. Qed.

Lemma run_pk_padded a p n : run_pk a (padded p n) = run_pk a p.
Proof.
  unfold run_pk, padded. cbn [fst snd]. rewrite exec_txs_app, fill_txs_app, fill_bots.
  rewrite exec_bots. reflexivity.
Qed.

Lemma hubw_length : N.of_nat (length hubw) = 2 * match g_hub g with Some _ => 1 | None => 0 end.
Proof. unfold hubw. destruct (g_hub g) as [[? ?]|]; reflexivity. Qed.

Lemma predispatch_ok b p : repr_cur b p -> wf_pk p -> fst p <> [] ->
  send_counter b <= g_maxsend g -> reply_counter b <= g_maxreply g -> grown b ->
  exists b' n, predispatch g b = Some b' /\ repr_out b' (padded p n) /\ size_ok b' /\
     wf_pk (padded p n) /\ fst (padded p n) <> [] /\
     (forall m, bnd m p -> bnd m (padded p n)).
Proof.
  intros (S & R & Vl) (W & WN) N0 SC RCt GR. destruct G as (A1 & A2 & A3 & A4 & A5 & A6).
  unfold predispatch.
  assert (exists n b1,
    match v with
    | V2 => b
    | V1 =>
        match calc_header V1 BOT 0 0 0 with
        | Some w => mkBuf (b_send b ++ repeat w (N.to_nat (7 + preamble_size g - N.of_nat (length (b_send b)))))
                          (b_reply b ++ repeat DHdr (N.to_nat (7 + preamble_size g - N.of_nat (length (b_send b))))) (b_vals b)
        | None => b
        end
    end = b1 /\ repr_cur b1 (padded p n) /\ wf_pk (padded p n) /\ size_ok b1) as X.
  { destruct v eqn:V.
    - change (calc_header V1 BOT 0 0 0) with (Some (hdrw V1 BOT 0 0)).
      set (n := N.to_nat (7 + preamble_size g - N.of_nat (length (b_send b)))).
      exists n. eexists. split; [reflexivity|]. split; [|split].
      + unfold repr_cur, padded. cbn [b_send b_reply b_vals fst snd].
        rewrite V in *. rewrite S, R, Vl.
        rewrite !flat_map_app, flat_map_repeat_bot, flat_map_repeat_dst, <- !app_assoc.
        repeat split; reflexivity.
      + unfold wf_pk, padded. rewrite V in *. cbn [fst]. split.
        * apply Forall_app. split; [assumption|].
          apply Forall_forall. intros x Hx. apply repeat_spec in Hx. subst x.
          split; [discriminate|]. cbn. split; [lia|trivial].
        * intros _ E. apply app_eq_nil in E. tauto.
      + unfold size_ok. rewrite V. unfold send_counter, reply_counter in *. cbn [b_send b_reply].
        rewrite app_length, repeat_length, dests_words_app.
        assert (DW : forall k, dests_words (repeat DHdr k) = N.of_nat k).
        { clear. induction k; [reflexivity|]. cbn [repeat dests_words dest_words]. lia. }
        rewrite DW.
        assert (L0 : (length hubw + 1 <= length (b_send b))%nat).
        { rewrite S, app_length. destruct (fst p); [destruct (N0 eq_refl)|].
          cbn [flat_map]. unfold enc. rewrite app_length. cbn [app length]. lia. }
        assert (HWL : N.of_nat (length hubw) = 2 * match g_hub g with Some _ => 1 | None => 0 end)
          by (unfold hubw; destruct (g_hub g) as [[? ?]|]; reflexivity).
        unfold n, preamble_size. specialize (A3 eq_refl).
        assert (GR' : pre_send = 4 + 4 * N.of_nat (length hubw) /\
                      pre_reply = 4 + 4 * N.of_nat (length hubd)).
        { unfold pre_send, pre_reply, pkw, hubd, hubw. rewrite V. destruct (g_hub g) as [[? ?]|]; split; reflexivity. }
        assert (HDL : N.of_nat (length hubd) = 3 * match g_hub g with Some _ => 1 | None => 0 end)
          by (unfold hubd; destruct (g_hub g) as [[? ?]|]; reflexivity).
        destruct (GR V) as [(GR1 & GR2)|GR1]; unfold send_counter, reply_counter in *;
        destruct (g_hub g); lia.
    - exists 0%nat, b. split; [reflexivity|]. unfold padded. cbn [repeat]. rewrite app_nil_r.
      destruct p. split; [unfold repr_cur; rewrite V; repeat split; assumption|].
      split; [split; rewrite ?V; assumption|]. unfold size_ok. rewrite V. lia. }
  destruct X as (n & b1 & -> & (S1 & R1 & V1') & W1 & SZ1). assert (SC1 := proj1 SZ1).
  replace (g_maxsend g <? send_counter b1) with false by lia.
  assert (NE : fst (padded p n) <> []).
  { unfold padded. cbn [fst]. intros E. apply app_eq_nil in E. tauto. }
  assert (BN : forall m, bnd m p -> bnd m (padded p n)).
  { intros m (B1 & B2). split; [|assumption]. cbn [padded fst]. apply Forall_app.
    split; [assumption|]. apply Forall_forall. intros x Hx. apply repeat_spec in Hx.
    subst x. constructor. }
  destruct (g_hub g) as [[ip port]|] eqn:H.
  - unfold hubw in S1. rewrite H in S1. cbn [app] in S1. rewrite S1.
    eexists _, n. split; [reflexivity|].
    assert (SZ2 : forall w, size_ok (mkBuf (ip :: w :: pkw ++ flat_map (enc v) (fst (padded p n))) (b_reply b1) (b_vals b1))).
    { intros w. destruct SZ1 as (Z1 & Z2). split; [|exact Z2]. unfold send_counter in *.
      rewrite S1 in Z1. cbn [b_send length] in *. lia. }
    split; [|split; [apply SZ2|tauto]].
    unfold repr_out. cbn [b_send b_reply b_vals]. split; [|split; assumption].
    eexists [ip; _]. split; [|reflexivity].
    unfold hub_ok. rewrite H. eexists. split; [reflexivity|].
    change (2 ^ 16) with 65536 in A6. rewrite (N.mod_small port) by exact A6.
    unfold send_counter. rewrite S1. cbn [length].
    match goal with |- context [swap16 (?a mod _)] => replace a with
      (N.of_nat (length (pkw ++ flat_map (enc v) (fst (padded p n))))) by lia end.
    set (sw := swap16 _). split; lia.
  - eexists b1, n. split; [reflexivity|]. split; [|tauto].
    unfold repr_out. split; [|split; assumption]. exists []. split.
    + unfold hub_ok. rewrite H. reflexivity.
    + rewrite S1. unfold hubw. rewrite H. reflexivity.
Qed.

Lemma send_current_ok s rep dr gr go b p : inv s rep dr gr go (Some p) ->
  s_cur s = Some b -> fst p <> [] ->
  exists s' n, send_current g s b = Ok s' tt /\
    inv s' rep dr gr (go ++ [padded p n]) None /\ s_heap s' = s_heap s /\ s_cur s' = None.
Proof.
  intros I C N0. destruct I. rewrite C in i_cur0. destruct i_cur0 as (RC & W & SC & RT & GR).
  destruct (predispatch_ok b p RC W N0 SC RT GR) as (b' & n & E & RO & SZ & W' & N' & BN).
  unfold send_current. rewrite E, i_bud0.
  eexists _, n. split; [reflexivity|]. split; [|split; reflexivity].
  constructor; cbn [s_out s_cur s_heap s_budget]; trivial.
  - apply Forall2_app; [assumption|]. constructor; [assumption|constructor].
  - apply Forall_app. split; [assumption|]. constructor; [tauto|constructor].
  - apply Forall_app. split; [assumption|]. constructor; [auto|constructor].
  - apply Forall_app. split; [assumption|]. constructor; [assumption|constructor].
  - intros ST. destruct (i_ids0 ST) as (qs & Q1 & Q2). exists (qs ++ [(p, n)]). split.
    + rewrite app_assoc, Q1, map_app. reflexivity.
    + cbn [cur_txs s_ctr] in *. unfold real_txs in *. rewrite flat_map_app. cbn [flat_map fst].
      rewrite !app_nil_r. assumption.
Qed.

Lemma alpha_send h d gr go p n :
  alpha h d gr (go ++ [padded p n]) None = alpha h d gr go (Some p).
Proof.
  unfold alpha. rewrite fold_left_app. cbn [fold_left]. apply run_pk_padded.
Qed.

Lemma sub32_ok a b : b <= a -> a < 2 ^ 32 -> sub32 a b = a - b.
Proof. intros. apply sub32_le; [assumption|exact H0]. Qed.

Lemma empty_fresh b p : repr_cur b p -> wf_pk p -> fst p = [] -> fresh b.
Proof.
  intros (S & R & _) (_ & W) E. unfold fresh, send_counter, reply_counter, pre_send, pre_reply.
  rewrite S, R, E. cbn [flat_map]. destruct v eqn:V; [destruct (W eq_refl E)|].
  rewrite !app_nil_r. unfold pkw, pkd, hubd, hubw. rewrite V.
  destruct (g_hub g) as [[? ?]|]; split; reflexivity.
Qed.

(** checkBufferSpace never fails, changes nothing observable, and returns room
    for the request or more than 16 bytes in each direction. *)
Lemma check_space_ok s rep dr gr go gc rs rr d :
  inv s rep dr gr go gc ->
  exists s' av b go' p, check_space g s rs rr = Ok s' av /\
    inv s' rep dr gr go' (Some p) /\ s_cur s' = Some b /\ s_heap s' = s_heap s /\
    alpha (s_heap s') d gr go' (Some p) = alpha (s_heap s) d gr go gc /\
    (av = (rs, rr) /\ rs <= g_maxsend g - send_counter b /\ rr <= g_maxreply g - reply_counter b
     \/ av = (g_maxsend g - send_counter b, g_maxreply g - reply_counter b) /\
        16 < g_maxsend g - send_counter b /\ 16 < g_maxreply g - reply_counter b /\
        (g_maxsend g - send_counter b < rs \/ g_maxreply g - reply_counter b < rr)).
Proof.
  intros I. destruct G as (_ & _ & _ & M1 & M2 & _). destruct pre_bounds as (P1 & P2).
  (* the current buffer *)
  assert (U : exists s1 b p, update_current g s = Ok s1 b /\ s_cur s1 = Some b /\
     inv s1 rep dr gr go (Some p) /\ s_heap s1 = s_heap s /\
     alpha (s_heap s) d gr go (Some p) = alpha (s_heap s) d gr go gc).
  { destruct gc as [p|].
    - pose proof (i_cur _ _ _ _ _ _ I) as C. destruct (s_cur s) as [b|] eqn:E; [|contradiction].
      exists s, b, p. unfold update_current. rewrite E. auto 6.
    - destruct (update_current_fresh _ _ _ _ _ I) as (s1 & b & p & E1 & E2 & E3 & _ & E5 & E6).
      exists s1, b, p. repeat (split; [assumption|]). unfold alpha. rewrite E6. reflexivity. }
  destruct U as (s1 & b & p & E1 & E2 & I1 & E3 & E4).
  unfold check_space. rewrite E1. cbn [bind].
  pose proof (i_cur _ _ _ _ _ _ I1) as C1. rewrite E2 in C1. destruct C1 as (RC & W & SC & RCt & GRb).
  rewrite !sub32_ok by assumption.
  destruct ((rs <=? g_maxsend g - send_counter b) && (rr <=? g_maxreply g - reply_counter b)) eqn:T1.
  { exists s1, (rs, rr), b, go, p. rewrite E3. repeat (split; [assumption||reflexivity|]). left. split; [reflexivity|lia]. }
  destruct ((16 <? g_maxsend g - send_counter b) && (16 <? g_maxreply g - reply_counter b)) eqn:T2.
  { eexists s1, _, b, go, p. rewrite E3. repeat (split; [assumption||reflexivity|]). right.
    split; [reflexivity|lia]. }
  assert (N0 : fst p <> []).
  { intros E. destruct (empty_fresh b p RC W E) as (F1 & F2). lia. }
  destruct (send_current_ok s1 rep dr gr go b p I1 E2 N0) as (s2 & n & S1 & I2 & S2 & S3).
  rewrite S1. cbn [bind].
  destruct (update_current_fresh _ _ _ _ _ I2) as (s3 & b3 & p3 & U1 & U2 & U3 & (U41 & U42) & U5 & U6).
  rewrite U1. cbn [bind]. rewrite !sub32_ok by (assumption || lia).
  assert (AL : alpha (s_heap s3) d gr (go ++ [padded p n]) (Some p3) = alpha (s_heap s) d gr go gc).
  { rewrite U5, S2, E3. rewrite <- E4, <- (alpha_send (s_heap s) d gr go p n).
    unfold alpha at 1. rewrite U6. reflexivity. }
  assert (HH : s_heap s3 = s_heap s) by congruence.
  destruct ((rs <=? g_maxsend g - send_counter b3) && (rr <=? g_maxreply g - reply_counter b3)) eqn:T3.
  { eexists s3, _, b3, _, p3. split; [reflexivity|]. repeat (split; [eassumption|]). left.
    split; [reflexivity|lia]. }
  eexists s3, _, b3, _, p3. split; [reflexivity|]. repeat (split; [eassumption|]). right.
  split; [reflexivity|lia].
Qed.

(** Appending one transaction. *)
Definition exec_a (x : tx) (a : D * list cell) : D * list cell :=
  let (d1, data) := exec_tx v (fst a) x in (d1, fill_tx (snd a) x data).

Lemma run_pk_snoc a xs vals x :
  run_pk a (xs ++ [x], vals) = exec_a x (run_pk a (xs, vals)).
Proof.
  unfold run_pk, exec_a. cbn [fst snd]. rewrite exec_txs_app, fill_txs_app.
  cbn [Tx.exec_txs Tx.fill_txs].
  destruct (exec_tx v (fst (exec_txs v (fst a) xs)) x) as [d1 data]. cbn [fst].
  rewrite fill_tx_marks. reflexivity.
Qed.

Lemma run_pk_val a xs vals c :
  run_pk a (xs, vals ++ [c]) = (fst (run_pk a (xs, vals)), upd (snd (run_pk a (xs, vals))) c cell_validate).
Proof. unfold run_pk. cbn [fst snd]. rewrite mark_valid_snoc. reflexivity. Qed.

Lemma push_tx_ok s rep dr gr go p b x d :
  inv s rep dr gr go (Some p) -> s_cur s = Some b ->
  wf_tx v x -> x_body x <> [] -> x_id x = s_ctr s ->
  Forall (dest_lt (length (s_heap s))) (x_dst x) ->
  send_counter b + 4 * N.of_nat (length (enc v x)) <= g_maxsend g ->
  reply_counter b + 4 * dests_words (dsts x) <= g_maxreply g ->
  exists s' p' b', push_tx g s (x_type x) (x_wc x) (x_body x) (dsts x) = Ok s' tt /\
    inv s' rep dr gr go (Some p') /\ s_heap s' = s_heap s /\
    s_cur s' = Some b' /\ fst p' <> [] /\
    alpha (s_heap s') d gr go (Some p') = exec_a x (alpha (s_heap s) d gr go (Some p)).
Proof.
  intros I C W NB ID B SC RC. unfold push_tx. rewrite C.
  assert (HC : calc_header v (x_type x) (x_wc x) (s_ctr s) (req_info v) =
               Some (hdrw v (x_type x) (x_wc x) (x_id x))).
  { destruct W as (T & _). rewrite ID. unfold hdrw, calc_header.
    destruct (type_code v (x_type x)); [reflexivity|congruence]. }
  rewrite HC.
  set (b' := mkBuf _ _ _).
  assert (SC' : send_counter b' = send_counter b + 4 * N.of_nat (length (enc v x))).
  { unfold send_counter, b', enc. cbn [b_send]. rewrite app_length. cbn [length]. lia. }
  assert (RC' : reply_counter b' = reply_counter b + 4 * dests_words (dsts x)).
  { unfold reply_counter, b'. cbn [b_reply]. rewrite dests_words_app. lia. }
  replace (g_maxsend g <? send_counter b') with false by lia.
  destruct p as [xs vals].
  exists (set_cur (inc_ctr s) (Some b')), (xs ++ [x], vals), b'. split; [reflexivity|].
  split; [|split; [reflexivity|split; [reflexivity|split]]].
  - destruct I. rewrite C in i_cur0. destruct i_cur0 as ((S & R & V) & (W1 & W2) & _ & _ & GRb).
    constructor; cbn [set_cur inc_ctr s_out s_cur s_heap s_budget]; trivial.
    + assert (L2 : (2 <= length (enc v x))%nat).
      { unfold enc. destruct (x_body x); [destruct (NB eq_refl)|]. cbn [length]. lia. }
      split; [|split; [|split; [lia|split; [lia|]]]].
      3:{ intros V1'. right. destruct (GRb V1') as [(F1 & F2)|F1]; lia. }
      * unfold repr_cur, b'. cbn [b_send b_reply b_vals fst snd] in *.
        rewrite S, R, V, !flat_map_app, <- !app_assoc. cbn [flat_map].
        rewrite !app_nil_r. repeat split; reflexivity.
      * split; cbn [fst] in *; [apply Forall_app; auto|].
        intros _ E. apply app_eq_nil in E. destruct E; discriminate.
    + destruct i_bcur0 as (B1 & B2). split; cbn [fst snd] in *; [|assumption].
      apply Forall_app. auto.
    + intros ST. destruct (i_ids0 ST) as (qs & Q1 & Q2). exists qs. split; [assumption|].
      cbn [s_ctr cur_txs fst] in *. rewrite app_assoc in Q2. rewrite !app_assoc.
      apply ids_ok_snoc; assumption.
  - cbn [fst]. intros E. apply app_eq_nil in E. destruct E; discriminate.
  - cbn [set_cur inc_ctr s_heap]. unfold alpha. apply run_pk_snoc.
Qed.

Lemma add_val_ok s rep dr gr go p b c d :
  inv s rep dr gr go (Some p) -> s_cur s = Some b -> (c < length (s_heap s))%nat ->
  exists p' b', inv (add_val s c) rep dr gr go (Some p') /\ s_heap (add_val s c) = s_heap s /\
    s_cur (add_val s c) = Some b' /\ fst p' = fst p /\
    alpha (s_heap s) d gr go (Some p') =
      (fst (alpha (s_heap s) d gr go (Some p)),
       upd (snd (alpha (s_heap s) d gr go (Some p))) c cell_validate).
Proof.
  intros I C L. unfold add_val. rewrite C. destruct p as [xs vals].
  eexists (xs, vals ++ [c]), _. split; [|split; [reflexivity|split; [reflexivity|split; [reflexivity|apply run_pk_val]]]].
  destruct I. rewrite C in i_cur0. destruct i_cur0 as ((S & R & V) & W & SC & RC & GRb).
  constructor; cbn [set_cur s_out s_cur s_heap s_budget]; trivial.
  - split; [|split; [exact W|split; [assumption|split; assumption]]].
    unfold repr_cur in *. cbn [b_send b_reply b_vals fst snd] in *. rewrite V. auto.
  - destruct i_bcur0 as (B1 & B2). split; cbn [fst snd] in *; [assumption|].
    apply Forall_app. auto.
Qed.

Lemma push_alloc_comm s t wc body rep s1 k :
  push_tx g s t wc body rep = Ok s1 tt ->
  push_tx g (fst (alloc s k)) t wc body rep = Ok (fst (alloc s1 k)) tt.
Proof.
  unfold push_tx, alloc. cbn [fst s_cur s_ctr].
  destruct (s_cur s); [|discriminate].
  destruct (calc_header _ _ _ _ _); [|discriminate].
  destruct (_ <? _); [discriminate|]. intros E. injection E as <-. reflexivity.
Qed.

Lemma alpha_heap_length h d gr go gc : length (snd (alpha h d gr go gc)) = length h.
Proof.
  unfold alpha.
  assert (A : forall gr h, length (fold_left (fun h (e : grep) => snd (run_pk (snd e, h) (fst e))) gr h) = length h).
  { clear. induction gr as [|e t IH]; intros h; [reflexivity|]. cbn [fold_left].
    rewrite IH, run_pk_length. reflexivity. }
  assert (B : forall go a, length (snd (fold_left run_pk go a)) = length (snd a)).
  { clear. induction go as [|e t IH]; intros a; [reflexivity|]. cbn [fold_left].
    rewrite IH, run_pk_length. reflexivity. }
  destruct gc; rewrite ?run_pk_length, B; cbn [snd]; apply A.
Qed.

(** ** Operations *)

(** What an operation does at the level of the abstraction. *)
Definition sim (s : st) rep dr gr (d : D) (r : res nat) (a : D * list cell) : Prop :=
  exists s' h go' p b, r = Ok s' h /\ inv s' rep dr gr go' (Some p) /\ s_cur s' = Some b /\
    fst p <> [] /\ h = length (s_heap s) /\
    alpha (s_heap s') d gr go' (Some p) = a.

Lemma exec_a_id x y a : x_type x = x_type y -> x_body x = x_body y -> x_wc x = x_wc y ->
  x_dst x = x_dst y -> exec_a x a = exec_a y a.
Proof.
  intros H1 H2 H3 H4. unfold exec_a, fill_tx. rewrite H4.
  destruct x as [?|[] ? ? ? ?|? ? ?|[] ? ? ?|? ? ? ?|? ? ? ? ?],
           y as [?|[] ? ? ? ?|? ? ?|[] ? ? ?|? ? ? ?|? ? ? ? ?];
    cbn in *; try discriminate; try (injection H2; intros; subst); subst; reflexivity.
Qed.

Lemma implement_word_ok s rep dr gr go gc d t a extra mask (x : N -> nat -> tx) :
  inv s rep dr gr go gc ->
  (forall id c, x_type (x id c) = t /\ x_wc (x id c) = 1 /\ x_body (x id c) = a :: extra /\
     x_dst (x id c) = [DWord c] /\ x_id (x id c) = id /\ wf_tx v (x id c)) ->
  (length extra <= 2)%nat ->
  sim s rep dr gr d (implement_word g s t a extra mask)
    (let A := alpha (s_heap s) d gr go gc in
     let E := exec_a (x 0 (length (s_heap s))) (fst A, snd A ++ [CWord false 0 mask]) in
     (fst E, upd (snd E) (length (s_heap s)) cell_validate)).
Proof.
  intros I X L. unfold implement_word.
  destruct (check_space_ok s rep dr gr go gc (8 + 4 * N.of_nat (length extra)) 8 d I)
    as (s1 & av & b & go1 & p & E1 & I1 & C1 & H1 & A1 & AV).
  rewrite E1. cbn [bind].
  assert (I2 := inv_alloc s1 rep dr gr go1 (Some p) (CWord false 0 mask) I1).
  set (s2 := fst (alloc s1 (CWord false 0 mask))) in *.
  set (y := x (s_ctr s1) (length (s_heap s1))).
  destruct (X (s_ctr s1) (length (s_heap s1))) as (X1 & X2 & X3 & X4 & X5 & X6). fold y in X1, X2, X3, X4, X5, X6.
  assert (SP : send_counter b + (12 + 4 * N.of_nat (length extra)) <= g_maxsend g + 4 /\ reply_counter b + 8 <= g_maxreply g).
  { destruct AV as [(_ & ? & ?)|(_ & ? & ? & ?)];
    pose proof (i_cur _ _ _ _ _ _ I1) as Q; rewrite C1 in Q; lia. }
  destruct (push_tx_ok s2 rep dr gr go1 p b y d I2) as (s3 & p3 & b3 & E3 & I3 & H3 & C3 & N3 & A3).
  - exact C1.
  - exact X6.
  - rewrite X3. discriminate.
  - exact X5.
  - rewrite X4. constructor; [|constructor]. unfold s2, alloc. cbn [fst s_heap dest_lt].
    rewrite app_length. cbn [length]. lia.
  - unfold enc. cbn [length]. rewrite X3. cbn [length]. lia.
  - unfold dsts. rewrite X4. cbn [dests_words dest_words]. lia.
  - assert (PX : push_tx g s1 t 1 (a :: extra) [DHdr; DWord (length (s_heap s1))] =
                 push_tx g s1 (x_type y) (x_wc y) (x_body y) (dsts y)).
    { unfold dsts. rewrite X1, X2, X3, X4. reflexivity. }
    rewrite PX.
    (* push before alloc *)
    assert (PU : exists s1', push_tx g s1 (x_type y) (x_wc y) (x_body y) (dsts y) = Ok s1' tt).
    { unfold push_tx in *. unfold s2, alloc in E3. cbn [fst s_cur s_ctr] in E3.
      destruct (s_cur s1); [|discriminate].
      destruct (calc_header _ _ _ _ _); [|discriminate].
      destruct (_ <? _); [discriminate|]. eauto. }
    destruct PU as (s1' & PU). rewrite PU. cbn [bind].
    assert (CM := push_alloc_comm _ _ _ _ _ _ (CWord false 0 mask) PU).
    fold s2 in CM. rewrite E3 in CM.
    assert (HP : s_heap s1' = s_heap s1).
    { clear -PU. unfold push_tx in PU. destruct (s_cur s1); [|discriminate].
      destruct (calc_header _ _ _ _ _); [|discriminate].
      destruct (_ <? _); [discriminate|]. injection PU as <-. reflexivity. }
    destruct (alloc s1' (CWord false 0 mask)) as [s4 c] eqn:EA.
    cbn [fst] in CM. assert (s3 = s4) by congruence. subst s3. clear CM.
    assert (c = length (s_heap s)).
    { unfold alloc in EA. injection EA as _ <-. congruence. }
    subst c. cbn [fst] in *.
    assert (HL : length (s_heap s4) = S (length (s_heap s))).
    { unfold alloc in EA. injection EA as <-. cbn [s_heap]. rewrite app_length, HP, H1. cbn. lia. }
    destruct (add_val_ok s4 rep dr gr go1 p3 b3 (length (s_heap s)) d I3 C3 ltac:(lia))
      as (p5 & b5 & I5 & H5 & C5 & P5 & A5).
    exists (add_val s4 (length (s_heap s))), (length (s_heap s)), go1, p5, b5.
    split; [reflexivity|]. split; [assumption|]. split; [assumption|].
    split; [congruence|]. split; [reflexivity|].
    rewrite H5, A5, A3.
    assert (A2 : alpha (s_heap s2) d gr go1 (Some p) =
      (fst (alpha (s_heap s) d gr go gc), snd (alpha (s_heap s) d gr go gc) ++ [CWord false 0 mask])).
    { unfold s2, alloc. cbn [fst s_heap]. destruct I1. rewrite alpha_alloc by assumption.
      rewrite A1. reflexivity. }
    rewrite A2.
    assert (EX : forall A, exec_a y A = exec_a (x 0 (length (s_heap s))) A).
    { intros A. destruct (X 0 (length (s_heap s))) as (Y1 & Y2 & Y3 & Y4 & _).
      apply exec_a_id; congruence. }
    rewrite EX. reflexivity.
Qed.

Lemma implement_write_ok s rep dr gr go gc d a x :
  inv s rep dr gr go gc ->
  sim s rep dr gr d (implement_write g s a x)
    (let A := alpha (s_heap s) d gr go gc in
     (wr (fst A) a x, snd A ++ [CHdr true])).
Proof.
  intros I. unfold implement_write.
  destruct (check_space_ok s rep dr gr go gc 12 4 d I)
    as (s1 & av & b & go1 & p & E1 & I1 & C1 & H1 & A1 & AV).
  rewrite E1. cbn [bind].
  set (y := XWrite true (s_ctr s1) a [x]).
  assert (SP : send_counter b + 12 <= g_maxsend g /\ reply_counter b + 4 <= g_maxreply g).
  { destruct AV as [(_ & ? & ?)|(_ & ? & ? & ?)];
    pose proof (i_cur _ _ _ _ _ _ I1) as Q; rewrite C1 in Q; lia. }
  destruct (push_tx_ok s1 rep dr gr go1 p b y d I1) as (s3 & p3 & b3 & E3 & I3 & H3 & C3 & N3 & A3).
  - exact C1.
  - split; [destruct v; discriminate|]. split; [|exact Logic.I]. cbn. destruct v; cbn; lia.
  - discriminate.
  - reflexivity.
  - constructor.
  - cbn [y enc length x_body]. lia.
  - cbn [y dsts x_dst dests_words dest_words]. lia.
  - change (push_tx g s1 WRITE 1 [a; x] [DHdr]) with
      (push_tx g s1 (x_type y) (x_wc y) (x_body y) (dsts y)).
    rewrite E3. cbn [bind].
    assert (I4 := inv_alloc s3 rep dr gr go1 (Some p3) (CHdr false) I3).
    destruct (alloc s3 (CHdr false)) as [s4 c] eqn:EA.
    assert (C4 : s_cur s4 = Some b3) by (unfold alloc in EA; injection EA as <- _; exact C3).
    assert (c = length (s_heap s)).
    { unfold alloc in EA. injection EA as _ <-. congruence. }
    subst c. cbn [fst] in *.
    assert (HL : s_heap s4 = s_heap s ++ [CHdr false]).
    { unfold alloc in EA. injection EA as <-. cbn [s_heap]. congruence. }
    destruct (add_val_ok s4 rep dr gr go1 p3 b3 (length (s_heap s)) d I4 C4) as (p5 & b5 & I5 & H5 & C5 & P5 & A5).
    { rewrite HL, app_length. cbn. lia. }
    exists (add_val s4 (length (s_heap s))), (length (s_heap s)), go1, p5, b5.
    split; [reflexivity|]. split; [assumption|]. split; [assumption|].
    split; [congruence|]. split; [reflexivity|].
    rewrite H5, A5, HL.
    assert (AA : alpha (s_heap s ++ [CHdr false]) d gr go1 (Some p3) =
       (wr (fst (alpha (s_heap s) d gr go gc)) a x, snd (alpha (s_heap s) d gr go gc) ++ [CHdr false])).
    { replace (s_heap s) with (s_heap s3) by congruence.
      destruct I3. rewrite alpha_alloc by assumption. rewrite A3, A1.
      replace (s_heap s3) with (s_heap s) by congruence. reflexivity. }
    rewrite AA. cbn [fst snd]. f_equal.
    rewrite <- (alpha_heap_length (s_heap s) d gr go gc). rewrite upd_app_last; reflexivity.
Qed.

(** Block writes. *)
Lemma dev_write_app d a ws us inc : a < W32 ->
  dev_write D wr d a (ws ++ us) inc =
  dev_write D wr (dev_write D wr d a ws inc)
    (if inc then add32 a (N.of_nat (length ws)) else a) us inc.
Proof.
  revert d a. induction ws as [|x t IH]; intros d a H.
  - cbn. destruct inc; [|reflexivity]. unfold add32. rewrite N.add_0_r, N.mod_small by assumption.
    reflexivity.
  - cbn [app dev_write length]. rewrite IH.
    + destruct inc; [|reflexivity]. f_equal. unfold add32, W32. lia.
    + destruct inc; [apply add32_lt|assumption].
Qed.

Lemma dev_read_app d a n m inc : a < W32 ->
  dev_read D rd d a (n + m) inc =
  let (d1, l1) := dev_read D rd d a n inc in
  let (d2, l2) := dev_read D rd d1 (if inc then add32 a (N.of_nat n) else a) m inc in
  (d2, l1 ++ l2).
Proof.
  revert d a. induction n as [|n IH]; intros d a H.
  - cbn. replace (if inc then add32 a 0 else a) with a.
    + destruct (dev_read D rd d a m inc); reflexivity.
    + destruct inc; [|reflexivity]. unfold add32. rewrite N.add_0_r, N.mod_small by assumption.
      reflexivity.
  - cbn [Nat.add dev_read]. destruct (rd d a) as [d1 x].
    rewrite IH by (destruct inc; [apply add32_lt|assumption]).
    destruct (dev_read D rd d1 _ n inc) as [d2 l1].
    replace (if inc then add32 (if inc then add32 a 1 else a) (N.of_nat n) else (if inc then add32 a 1 else a))
      with (if inc then add32 a (N.of_nat (S n)) else a).
    + destruct (dev_read D rd d2 _ m inc). reflexivity.
    + destruct inc; [|reflexivity]. unfold add32, W32. lia.
Qed.

Lemma chunk_bytes_eq avail hdr : hdr <= avail -> avail < 2 ^ 32 ->
  chunk_bytes v avail hdr = N.min (4 * max_wc v) ((avail - hdr) / 4 * 4).
Proof.
  intros H1 H2. unfold chunk_bytes. rewrite sub32_ok by assumption.
  change 0xFFFFFFFC with (N.shiftl (N.ones 30) 2).
  set (m := N.min (4 * max_wc v) (avail - hdr)).
  assert (M : m < 2 ^ 32) by lia.
  assert (E : N.land m (N.shiftl (N.ones 30) 2) = m / 4 * 4).
  { replace (m / 4 * 4) with (N.shiftl (m / 4) 2) by (rewrite N.shiftl_mul_pow2; reflexivity).
    apply N.bits_inj. intros i. rewrite N.land_spec.
    destruct (N.lt_ge_cases i 2) as [Hi|Hi].
    - rewrite !N.shiftl_spec_low by assumption. apply andb_false_r.
    - rewrite !N.shiftl_spec_high' by assumption.
      replace (m / 4) with (N.shiftr m 2) by (rewrite N.shiftr_div_pow2; reflexivity).
      rewrite N.shiftr_spec'. replace (i - 2 + 2) with i by lia.
      destruct (N.lt_ge_cases i 32).
      + rewrite N.ones_spec_low by lia. apply andb_true_r.
      + rewrite (testbit_high m 32) by assumption. reflexivity. }
  rewrite E. unfold m, max_wc. destruct v; lia.
Qed.

Lemma write_loop_ok rep dr gr d (inc : bool) : forall fuel s go gc a (rest : list N),
  inv s rep dr gr go gc -> a < W32 ->
  (1 <= length rest <= fuel)%nat -> 4 * N.of_nat (length rest) < 2 ^ 31 ->
  exists s' go' p b,
    write_loop fuel g s (if inc then WRITE else NI_WRITE) inc true a rest
      (4 * N.of_nat (length rest)) = Ok s' tt /\
    inv s' rep dr gr go' (Some p) /\ s_heap s' = s_heap s /\ s_cur s' = Some b /\ fst p <> [] /\
    alpha (s_heap s') d gr go' (Some p) =
      (let A := alpha (s_heap s) d gr go gc in (dev_write D wr (fst A) a rest inc, snd A)).
Proof.
  induction fuel as [|fuel IH]; intros s go gc a rest I Ha Hf Hp; [lia|].
  cbn [write_loop].
  set (payload := 4 * N.of_nat (length rest)) in *.
  assert (E8 : add32 8 payload = 8 + payload) by (unfold add32, W32; lia). rewrite E8.
  destruct (check_space_ok s rep dr gr go gc (8 + payload) 4 d I)
    as (s1 & av & b & go1 & p & E1 & I1 & C1 & H1 & A1 & AV).
  rewrite E1. cbn [bind].
  pose proof (i_cur _ _ _ _ _ _ I1) as Q; rewrite C1 in Q. destruct Q as (_ & _ & Q1 & Q2 & _).
  assert (GM := G). destruct GM as (_ & _ & _ & M1 & M2 & _).
  set (n := chunk_bytes v (fst av) 8).
  assert (NN : n = N.min (4 * max_wc v) ((fst av - 8) / 4 * 4)).
  { apply chunk_bytes_eq; destruct AV as [(-> & ? & ?)|(-> & ? & ? & ?)]; cbn [fst]; lia. }
  assert (N4 : n = 4 * (n / 4) /\ 1 <= n / 4 /\ n / 4 <= max_wc v /\
               (n / 4 <= N.of_nat (length rest) ) /\
               8 + n <= g_maxsend g - send_counter b).
  { assert (W : 255 <= max_wc v) by (unfold max_wc; destruct v; lia).
    destruct AV as [(-> & ? & ?)|(-> & ? & ? & ?)]; cbn [fst] in NN.
    - replace (8 + payload - 8) with payload in NN by lia. unfold payload in *. lia.
    - unfold payload in *. lia. }
  destruct N4 as (N41 & N42 & N43 & N44 & N45).
  set (w := N.to_nat (n / 4)).
  assert (WL : length (firstn w rest) = w) by (rewrite firstn_length; lia).
  replace (true && Nat.ltb (length rest) w) with false
    by (symmetry; cbn [andb]; apply Nat.ltb_ge; lia).
  cbn [andb].
  set (y := XWrite inc (s_ctr s1) a (firstn w rest)).
  assert (YW : x_wc y = n / 4) by (cbn [y x_wc]; rewrite WL; lia).
  destruct (push_tx_ok s1 rep dr gr go1 p b y d I1) as (s3 & p3 & b3 & E3 & I3 & H3 & C3 & N3 & A3).
  - exact C1.
  - split; [destruct v, inc; discriminate|]. split; [rewrite YW; assumption|exact Logic.I].
  - discriminate.
  - reflexivity.
  - constructor.
  - cbn [y enc length x_body]. rewrite WL. lia.
  - cbn [y dsts x_dst dests_words dest_words].
    destruct AV as [(_ & ? & ?)|(_ & ? & ? & ?)]; lia.
  - assert (PX : push_tx g s1 (if inc then WRITE else NI_WRITE) (n / 4) (a :: firstn w rest) [DHdr]
               = push_tx g s1 (x_type y) (x_wc y) (x_body y) (dsts y)).
    { rewrite YW. destruct inc; reflexivity. }
    rewrite PX, E3. cbn [bind].
    assert (PS : sub32 payload n = 4 * N.of_nat (length (skipn w rest))).
    { rewrite sub32_ok by (unfold payload in *; lia). rewrite skipn_length.
      unfold payload. lia. }
    rewrite PS.
    assert (EXA : exec_a y (alpha (s_heap s) d gr go gc) =
        (let A := alpha (s_heap s) d gr go gc in
         (dev_write D wr (fst A) a (firstn w rest) inc, snd A))) by reflexivity.
    destruct (pos_i32 (4 * N.of_nat (length (skipn w rest)))) eqn:POS.
    + assert (LS : (length (skipn w rest) < length rest)%nat) by (rewrite skipn_length; lia).
      destruct (IH s3 go1 (Some p3) (if inc then add32 a (n / 4) else a) (skipn w rest) I3)
        as (s' & go' & p' & b' & F1 & F2 & F3 & F4 & F5 & F6).
      * destruct inc; [apply add32_lt|assumption].
      * unfold pos_i32 in POS. lia.
      * lia.
      * rewrite F1. exists s', go', p', b'. split; [reflexivity|].
        split; [assumption|]. split; [congruence|]. split; [assumption|]. split; [assumption|].
        rewrite F6, A3, A1, EXA. cbn [fst snd]. f_equal.
        transitivity (dev_write D wr (fst (alpha (s_heap s) d gr go gc)) a
                        (firstn w rest ++ skipn w rest) inc).
        2:{ rewrite firstn_skipn. reflexivity. }
        rewrite dev_write_app by assumption. rewrite WL.
        replace (N.of_nat w) with (n / 4) by lia. reflexivity.
    + assert (LS : length (skipn w rest) = 0%nat).
      { unfold pos_i32 in POS. rewrite skipn_length in *. lia. }
      exists s3, go1, p3, b3. split; [reflexivity|].
      split; [assumption|]. split; [congruence|]. split; [assumption|]. split; [assumption|].
      rewrite A3, A1, EXA.
      replace (firstn w rest) with rest; [reflexivity|].
      symmetry. apply firstn_all2. rewrite skipn_length in LS. lia.
Qed.

Lemma write_empty_ok s rep dr gr go gc a (inc : bool) d : inv s rep dr gr go gc ->
  exists s' go' p b,
    write_loop 1 g s (if inc then WRITE else NI_WRITE) inc false a [] 0 = Ok s' tt /\
    inv s' rep dr gr go' (Some p) /\ s_heap s' = s_heap s /\ s_cur s' = Some b /\ fst p <> [] /\
    alpha (s_heap s') d gr go' (Some p) = alpha (s_heap s) d gr go gc.
Proof.
  intros I. cbn [write_loop]. change (add32 8 0) with 8.
  destruct (check_space_ok s rep dr gr go gc 8 4 d I)
    as (s1 & av & b & go1 & p & E1 & I1 & C1 & H1 & A1 & AV).
  rewrite E1. cbn [bind].
  pose proof (i_cur _ _ _ _ _ _ I1) as Q; rewrite C1 in Q. destruct Q as (_ & _ & Q1 & Q2 & _).
  assert (AE : av = (8, 4)) by (destruct AV as [(-> & ? & ?)|(-> & ? & ? & ?)]; [reflexivity|lia]).
  assert (SP : 8 <= g_maxsend g - send_counter b /\ 4 <= g_maxreply g - reply_counter b)
    by (destruct AV as [(_ & ? & ?)|(_ & ? & ? & ?)]; lia).
  subst av. cbn [fst].
  assert (NN : chunk_bytes v 8 8 = 0) by (rewrite chunk_bytes_eq by lia; cbn; lia).
  rewrite NN. cbn [andb].
  set (y := XWrite inc (s_ctr s1) a []).
  destruct (push_tx_ok s1 rep dr gr go1 p b y d I1) as (s3 & p3 & b3 & E3 & I3 & H3 & C3 & N3 & A3).
  - exact C1.
  - split; [destruct v, inc; discriminate|]. split; [cbn; lia|exact Logic.I].
  - discriminate.
  - reflexivity.
  - constructor.
  - cbn [y enc length x_body]. lia.
  - cbn [y dsts x_dst dests_words dest_words]. lia.
  - assert (PX : push_tx g s1 (if inc then WRITE else NI_WRITE) (0 / 4) [a] [DHdr]
               = push_tx g s1 (x_type y) (x_wc y) (x_body y) (dsts y)).
    { destruct inc; reflexivity. }
    rewrite PX, E3. cbn [bind]. change (pos_i32 0) with false. cbv iota.
    exists s3, go1, p3, b3. split; [reflexivity|].
    split; [assumption|]. split; [congruence|]. split; [assumption|]. split; [assumption|].
    rewrite A3, A1. unfold exec_a. cbn. destruct (alpha (s_heap s) d gr go gc). reflexivity.
Qed.

Lemma dev_write_spec a l inc d : a < W32 ->
  dev_write D wr d a l inc = write_all D wr d (combine (block_addrs a (length l) inc) l).
Proof.
  assert (X : forall l d a k, a < W32 ->
    dev_write D wr d (if inc then (a + N.of_nat k) mod 2 ^ 32 else a) l inc =
    write_all D wr d (combine (map (fun i => if inc then (a + N.of_nat i) mod 2 ^ 32 else a)
                             (seq k (length l))) l)).
  { clear. induction l as [|x t IH]; intros d a k H; [reflexivity|].
    cbn [length seq map combine write_all dev_write]. rewrite <- (IH _ a (S k)) by assumption.
    f_equal. destruct inc; [|reflexivity]. unfold add32, W32. lia. }
  intros H. unfold block_addrs. rewrite <- X by assumption. f_equal.
  destruct inc; [|reflexivity]. rewrite N.add_0_r, N.mod_small by assumption. reflexivity.
Qed.

Lemma dev_read_spec a n inc d : a < W32 ->
  dev_read D rd d a n inc = read_all D rd d (block_addrs a n inc).
Proof.
  assert (X : forall n d a k, a < W32 ->
    dev_read D rd d (if inc then (a + N.of_nat k) mod 2 ^ 32 else a) n inc =
    read_all D rd d (map (fun i => if inc then (a + N.of_nat i) mod 2 ^ 32 else a) (seq k n))).
  { clear. induction n as [|n IH]; intros d a k H; [reflexivity|].
    cbn [seq map read_all dev_read]. destruct (rd d _) as [d1 x].
    rewrite <- (IH _ a (S k)) by assumption.
    replace (if inc then add32 (if inc then (a + N.of_nat k) mod 2 ^ 32 else a) 1
             else if inc then (a + N.of_nat k) mod 2 ^ 32 else a)
      with (if inc then (a + N.of_nat (S k)) mod 2 ^ 32 else a); [reflexivity|].
    destruct inc; [|reflexivity]. unfold add32, W32. lia. }
  intros H. unfold block_addrs. rewrite <- X by assumption. f_equal.
  destruct inc; [|reflexivity]. rewrite N.add_0_r, N.mod_small by assumption. reflexivity.
Qed.

Lemma implement_write_block_ok s rep dr gr go gc d a l inc :
  inv s rep dr gr go gc -> a < W32 -> N.of_nat (length l) < 2 ^ 29 ->
  sim s rep dr gr d (implement_write_block g s a l inc)
    (let A := alpha (s_heap s) d gr go gc in
     (dev_write D wr (fst A) a l inc, snd A ++ [CHdr true])).
Proof.
  intros I Ha Hl. unfold implement_write_block.
  assert (I0 := inv_alloc s rep dr gr go gc (CHdr false) I).
  assert (HA : alpha (s_heap (fst (alloc s (CHdr false)))) d gr go gc =
     (fst (alpha (s_heap s) d gr go gc), snd (alpha (s_heap s) d gr go gc) ++ [CHdr false])).
  { unfold alloc. cbn [fst s_heap]. destruct I. apply alpha_alloc; assumption. }
  destruct (alloc s (CHdr false)) as [s0 c] eqn:EA. cbn [fst] in I0, HA.
  assert (HL : s_heap s0 = s_heap s ++ [CHdr false] /\ c = length (s_heap s)).
  { unfold alloc in EA. injection EA as <- <-. split; reflexivity. }
  destruct HL as (HL & ->).
  assert (X : exists s' go' p b,
    write_loop (S (length l)) g s0 (if inc then WRITE else NI_WRITE) inc
       (match l with [] => false | _ => true end) a l (wrap32 (4 * N.of_nat (length l))) = Ok s' tt /\
    inv s' rep dr gr go' (Some p) /\ s_heap s' = s_heap s0 /\ s_cur s' = Some b /\ fst p <> [] /\
    alpha (s_heap s') d gr go' (Some p) =
      (let A := alpha (s_heap s0) d gr go gc in (dev_write D wr (fst A) a l inc, snd A))).
  { destruct l as [|x t].
    - destruct (write_empty_ok s0 rep dr gr go gc a inc d I0) as (s' & go' & p & b & F1 & F2 & F3 & F4 & F5 & F6).
      exists s', go', p, b. repeat (split; [assumption|]). rewrite F6. cbn.
      destruct (alpha (s_heap s0) d gr go gc); reflexivity.
    - replace (wrap32 (4 * N.of_nat (length (x :: t)))) with (4 * N.of_nat (length (x :: t)))
        by (symmetry; apply N.mod_small; unfold W32; lia).
      apply (write_loop_ok rep dr gr d inc); [assumption|assumption| |]; cbn [length] in *; lia. }
  destruct X as (s' & go' & p & b & F1 & F2 & F3 & F4 & F5 & F6).
  rewrite F1. cbn [bind].
  destruct (add_val_ok s' rep dr gr go' p b (length (s_heap s)) d F2 F4) as (p5 & b5 & I5 & H5 & C5 & P5 & A5).
  { rewrite F3, HL, app_length. cbn. lia. }
  exists (add_val s' (length (s_heap s))), (length (s_heap s)), go', p5, b5.
  split; [reflexivity|]. split; [assumption|]. split; [assumption|].
  split; [congruence|]. split; [reflexivity|].
  rewrite H5, A5, F6, HA. cbn [fst snd]. f_equal.
  rewrite <- (alpha_heap_length (s_heap s) d gr go gc). rewrite upd_app_last; reflexivity.
Qed.

(** Block reads. *)
Lemma upd_upd {A} (l : list A) i f h : upd (upd l i f) i h = upd l i (fun x => h (f x)).
Proof. revert i; induction l; intros [|i]; cbn; congruence. Qed.

Lemma upd_ext {A} (l : list A) i f h :
  (forall x, nth_error l i = Some x -> f x = h x) -> upd l i f = upd l i h.
Proof.
  revert i; induction l; intros [|i] H; cbn; try reflexivity.
  - rewrite (H a); reflexivity.
  - f_equal. apply IHl. exact H.
Qed.

Lemma overwrite_length l off ws : (off + length ws <= length l)%nat ->
  length (overwrite l off ws) = length l.
Proof.
  intros H. unfold overwrite. rewrite !app_length, firstn_length, skipn_length. lia.
Qed.

Lemma overwrite_app l off xs ys : (off + length xs + length ys <= length l)%nat ->
  overwrite (overwrite l off xs) (off + length xs) ys = overwrite l off (xs ++ ys).
Proof.
  intros H. unfold overwrite.
  rewrite firstn_app, firstn_length_le by lia.
  rewrite firstn_firstn.
  replace (Nat.min (off + length xs) off) with off by lia.
  replace (off + length xs - off)%nat with (length xs) by lia.
  rewrite firstn_app, firstn_all, Nat.sub_diag. cbn [firstn].
  rewrite app_nil_r, <- !app_assoc. f_equal. f_equal. f_equal.
  rewrite skipn_app, firstn_length_le by lia.
  rewrite (skipn_all2 (n := off + length xs + length ys) (firstn off l)) by (rewrite firstn_length; lia).
  cbn [app].
  rewrite skipn_app. rewrite (skipn_all2 xs) by lia. cbn [app].
  rewrite app_length.
  assert (SS : forall n m (l : list N), skipn n (skipn m l) = skipn (m + n) l).
  { clear. intros n m. induction m; intros l; [reflexivity|]. destruct l; cbn; [apply skipn_nil|apply IHm]. }
  rewrite SS. f_equal. lia.
Qed.

Lemma fill_vec_app h c off n m xs ys l0 q :
  nth_error h c = Some (CVec q l0) ->
  (N.to_nat off + length xs + length ys <= length l0)%nat ->
  fill_cell (fill_cell h (DVec c off n, xs)) (DVec c (off + N.of_nat (length xs)) m, ys) =
  fill_cell h (DVec c off n, xs ++ ys).
Proof.
  intros H L. cbn [fill_cell]. rewrite upd_upd. apply upd_ext.
  intros x Hx. rewrite H in Hx. injection Hx as <-. f_equal.
  replace (N.to_nat (off + N.of_nat (length xs))) with (N.to_nat off + length xs)%nat by lia.
  apply overwrite_app. assumption.
Qed.

Lemma nth_upd_same {A} (l : list A) i f x : nth_error l i = Some x -> nth_error (upd l i f) i = Some (f x).
Proof. revert i; induction l; intros [|i] H; cbn in *; try discriminate; [congruence|auto]. Qed.

Lemma read_loop_ok rep dr gr d (inc : bool) c size : forall fuel s go gc a off rem l0 q,
  inv s rep dr gr go gc -> a < W32 ->
  (1 <= N.to_nat rem <= fuel)%nat -> 4 * rem < 2 ^ 31 -> off + rem = size ->
  (c < length (s_heap s))%nat ->
  nth_error (snd (alpha (s_heap s) d gr go gc)) c = Some (CVec q l0) -> length l0 = N.to_nat size ->
  exists s' go' p b,
    read_loop fuel g s (if inc then READ else NI_READ) inc c size a off (4 * rem) = Ok s' tt /\
    inv s' rep dr gr go' (Some p) /\ s_heap s' = s_heap s /\ s_cur s' = Some b /\ fst p <> [] /\
    alpha (s_heap s') d gr go' (Some p) =
      (let A := alpha (s_heap s) d gr go gc in
       let R := dev_read D rd (fst A) a (N.to_nat rem) inc in
       (fst R, fill_cell (snd A) (DVec c off rem, snd R))).
Proof.
  induction fuel as [|fuel IH]; intros s go gc a off rem l0 q I Ha Hf Hp Ho Hc Hn Hl; [lia|].
  cbn [read_loop].
  set (payload := 4 * rem) in *.
  assert (E8 : add32 4 payload = 4 + payload) by (unfold add32, W32; lia). rewrite E8.
  destruct (check_space_ok s rep dr gr go gc 8 (4 + payload) d I)
    as (s1 & av & b & go1 & p & E1 & I1 & C1 & H1 & A1 & AV).
  rewrite E1. cbn [bind].
  pose proof (i_cur _ _ _ _ _ _ I1) as Q; rewrite C1 in Q. destruct Q as (_ & _ & Q1 & Q2 & _).
  assert (GM := G). destruct GM as (_ & _ & _ & M1 & M2 & _).
  set (n := chunk_bytes v (snd av) 4).
  assert (NN : n = N.min (4 * max_wc v) ((snd av - 4) / 4 * 4)).
  { apply chunk_bytes_eq; destruct AV as [(-> & ? & ?)|(-> & ? & ? & ?)]; cbn [snd]; lia. }
  assert (N4 : n = 4 * (n / 4) /\ 1 <= n / 4 /\ n / 4 <= max_wc v /\
               (n / 4 <= rem) /\
               4 + n <= g_maxreply g - reply_counter b).
  { assert (W : 255 <= max_wc v) by (unfold max_wc; destruct v; lia).
    destruct AV as [(-> & ? & ?)|(-> & ? & ? & ?)]; cbn [snd] in NN.
    - replace (4 + payload - 4) with payload in NN by lia. unfold payload in *. lia.
    - unfold payload in *. lia. }
  destruct N4 as (N41 & N42 & N43 & N44 & N45).
  replace (size <? off + n / 4) with false by lia.
  set (y := XRead inc (s_ctr s1) a (n / 4) (DVec c off (n / 4))).
  destruct (push_tx_ok s1 rep dr gr go1 p b y d I1) as (s3 & p3 & b3 & E3 & I3 & H3 & C3 & N3 & A3).
  - exact C1.
  - split; [destruct v, inc; discriminate|]. split; [assumption|reflexivity].
  - discriminate.
  - reflexivity.
  - constructor; [|constructor]. cbn [dest_lt]. congruence.
  - cbn [y enc length x_body]. destruct AV as [(_ & ? & ?)|(_ & ? & ? & ?)]; lia.
  - cbn [y dsts x_dst dests_words dest_words]. lia.
  - assert (PX : push_tx g s1 (if inc then READ else NI_READ) (n / 4) [a] [DHdr; DVec c off (n / 4)]
               = push_tx g s1 (x_type y) (x_wc y) (x_body y) (dsts y)).
    { destruct inc; reflexivity. }
    rewrite PX, E3. cbn [bind].
    assert (PS : sub32 payload n = 4 * (rem - n / 4)).
    { rewrite sub32_ok by (unfold payload in *; lia). unfold payload. lia. }
    rewrite PS.
    set (A := alpha (s_heap s) d gr go gc) in *.
    assert (EXA : exec_a y A =
        (let R := dev_read D rd (fst A) a (N.to_nat (n / 4)) inc in
         (fst R, fill_cell (snd A) (DVec c off (n / 4), snd R)))).
    { unfold exec_a, y. cbn [Tx.exec_tx fill_tx x_dst].
      destruct (dev_read D rd (fst A) a (N.to_nat (n / 4)) inc). reflexivity. }
    assert (RL := dev_read_length D rd (fst A) a (N.to_nat (n / 4)) inc).
    destruct (pos_i32 (4 * (rem - n / 4))) eqn:POS.
    + destruct (IH s3 go1 (Some p3) (if inc then add32 a (n / 4) else a) (off + n / 4) (rem - n / 4)
           (overwrite l0 (N.to_nat off) (snd (dev_read D rd (fst A) a (N.to_nat (n / 4)) inc))) q I3)
        as (s' & go' & p' & b' & F1 & F2 & F3 & F4 & F5 & F6).
      * destruct inc; [apply add32_lt|assumption].
      * unfold pos_i32 in POS. lia.
      * lia.
      * lia.
      * congruence.
      * rewrite A3, A1, EXA. cbn [snd fill_cell].
        rewrite (nth_upd_same _ _ _ _ Hn). reflexivity.
      * rewrite overwrite_length by lia. assumption.
      * rewrite F1. exists s', go', p', b'. split; [reflexivity|].
        split; [assumption|]. split; [congruence|]. split; [assumption|]. split; [assumption|].
        rewrite F6, A3, A1, EXA. cbn [fst snd].
        replace (N.to_nat rem) with (N.to_nat (n / 4) + N.to_nat (rem - n / 4))%nat by lia.
        rewrite dev_read_app by assumption.
        replace (N.of_nat (N.to_nat (n / 4))) with (n / 4) by lia.
        destruct (dev_read D rd (fst A) a (N.to_nat (n / 4)) inc) as [d1 l1] eqn:R1. cbn [fst snd] in *.
        assert (RL2 := dev_read_length D rd d1 (if inc then add32 a (n / 4) else a) (N.to_nat (rem - n / 4)) inc).
        destruct (dev_read D rd d1 _ (N.to_nat (rem - n / 4)) inc) as [d2 l2]. cbn [fst snd] in *.
        f_equal. replace (off + n / 4) with (off + N.of_nat (length l1)) by lia.
        rewrite (fill_vec_app _ _ _ _ _ _ _ l0 q) by (assumption || lia). reflexivity.
    + exists s3, go1, p3, b3. split; [reflexivity|].
      split; [assumption|]. split; [congruence|]. split; [assumption|]. split; [assumption|].
      rewrite A3, A1, EXA. replace (n / 4) with rem by (unfold pos_i32 in POS; lia). reflexivity.
Qed.

Lemma read_empty_ok s rep dr gr go gc a (inc : bool) d c : inv s rep dr gr go gc ->
  (c < length (s_heap s))%nat ->
  nth_error (snd (alpha (s_heap s) d gr go gc)) c = Some (CVec false []) ->
  exists s' go' p b,
    read_loop 1 g s (if inc then READ else NI_READ) inc c 0 a 0 0 = Ok s' tt /\
    inv s' rep dr gr go' (Some p) /\ s_heap s' = s_heap s /\ s_cur s' = Some b /\ fst p <> [] /\
    alpha (s_heap s') d gr go' (Some p) = alpha (s_heap s) d gr go gc.
Proof.
  intros I Hc Hn. cbn [read_loop]. change (add32 4 0) with 4.
  destruct (check_space_ok s rep dr gr go gc 8 4 d I)
    as (s1 & av & b & go1 & p & E1 & I1 & C1 & H1 & A1 & AV).
  rewrite E1. cbn [bind].
  pose proof (i_cur _ _ _ _ _ _ I1) as Q; rewrite C1 in Q. destruct Q as (_ & _ & Q1 & Q2 & _).
  assert (AE : av = (8, 4)) by (destruct AV as [(-> & ? & ?)|(-> & ? & ? & ?)]; [reflexivity|lia]).
  assert (SP : 8 <= g_maxsend g - send_counter b /\ 4 <= g_maxreply g - reply_counter b)
    by (destruct AV as [(_ & ? & ?)|(_ & ? & ? & ?)]; lia).
  subst av. cbn [snd].
  assert (NN : chunk_bytes v 4 4 = 0) by (rewrite chunk_bytes_eq by lia; cbn; lia).
  rewrite NN. change (0 <? 0 + 0 / 4) with false. cbv iota.
  set (y := XRead inc (s_ctr s1) a 0 (DVec c 0 0)).
  destruct (push_tx_ok s1 rep dr gr go1 p b y d I1) as (s3 & p3 & b3 & E3 & I3 & H3 & C3 & N3 & A3).
  - exact C1.
  - split; [destruct v, inc; discriminate|]. split; [cbn; lia|reflexivity].
  - discriminate.
  - reflexivity.
  - constructor; [cbn [dest_lt]; congruence|constructor].
  - cbn [y enc length x_body]. lia.
  - cbn [y dsts x_dst dests_words dest_words]. lia.
  - assert (PX : push_tx g s1 (if inc then READ else NI_READ) (0 / 4) [a] [DHdr; DVec c 0 (0 / 4)]
               = push_tx g s1 (x_type y) (x_wc y) (x_body y) (dsts y)).
    { destruct inc; reflexivity. }
    rewrite PX, E3. cbn [bind]. change (pos_i32 (sub32 0 0)) with false. cbv iota.
    exists s3, go1, p3, b3. split; [reflexivity|].
    split; [assumption|]. split; [congruence|]. split; [assumption|]. split; [assumption|].
    rewrite A3, A1. unfold exec_a. cbn [y Tx.exec_tx fill_tx x_dst fill_cell dev_read].
    change (N.to_nat 0) with 0%nat. cbn [dev_read].
    destruct (alpha (s_heap s) d gr go gc) as [d0 h0]. cbn [fst snd fill_cell] in *. f_equal.
    transitivity (upd h0 c (fun x => x)).
    + apply upd_ext. intros x Hx. rewrite Hn in Hx. injection Hx as <-. reflexivity.
    + clear. revert c. induction h0; intros [|c]; cbn; congruence.
Qed.

Lemma implement_read_block_ok s rep dr gr go gc d a n inc :
  inv s rep dr gr go gc -> a < W32 -> n < 2 ^ 29 ->
  sim s rep dr gr d (implement_read_block g s a n inc)
    (let A := alpha (s_heap s) d gr go gc in
     let R := dev_read D rd (fst A) a (N.to_nat n) inc in
     (fst R, snd A ++ [CVec true (snd R)])).
Proof.
  intros I Ha Hl. unfold implement_read_block.
  set (k0 := CVec false (repeat 0 (N.to_nat n))).
  assert (I0 := inv_alloc s rep dr gr go gc k0 I).
  set (A := alpha (s_heap s) d gr go gc).
  assert (HA : alpha (s_heap (fst (alloc s k0))) d gr go gc = (fst A, snd A ++ [k0])).
  { unfold alloc. cbn [fst s_heap]. destruct I. apply alpha_alloc; assumption. }
  destruct (alloc s k0) as [s0 c] eqn:EA. cbn [fst] in I0, HA.
  assert (HL : s_heap s0 = s_heap s ++ [k0] /\ c = length (s_heap s)).
  { unfold alloc in EA. injection EA as <- <-. split; reflexivity. }
  destruct HL as (HL & ->).
  assert (AL : length (s_heap s) = length (snd A)) by (symmetry; apply alpha_heap_length).
  assert (NA : nth_error (snd (alpha (s_heap s0) d gr go gc)) (length (s_heap s)) = Some k0).
  { rewrite HA. cbn [snd]. rewrite AL, nth_error_app2, Nat.sub_diag by lia. reflexivity. }
  assert (X : exists s' go' p b,
    read_loop (S (N.to_nat n)) g s0 (if inc then READ else NI_READ) inc (length (s_heap s)) n a 0
      (wrap32 (4 * n)) = Ok s' tt /\
    inv s' rep dr gr go' (Some p) /\ s_heap s' = s_heap s0 /\ s_cur s' = Some b /\ fst p <> [] /\
    alpha (s_heap s') d gr go' (Some p) =
      (let R := dev_read D rd (fst A) a (N.to_nat n) inc in
       (fst R, snd A ++ [CVec false (snd R)]))).
  { destruct (N.eq_dec n 0) as [->|NZ].
    - destruct (read_empty_ok s0 rep dr gr go gc a inc d (length (s_heap s)) I0) as (s' & go' & p & b & F1 & F2 & F3 & F4 & F5 & F6).
      { rewrite HL, app_length. cbn. lia. }
      { exact NA. }
      exists s', go', p, b. repeat (split; [assumption|]). rewrite F6, HA. reflexivity.
    - replace (wrap32 (4 * n)) with (4 * n)
        by (symmetry; apply N.mod_small; unfold W32; lia).
      destruct (read_loop_ok rep dr gr d inc (length (s_heap s)) n (S (N.to_nat n)) s0 go gc a 0 n (repeat 0 (N.to_nat n)) false I0)
        as (s' & go' & p & b & F1 & F2 & F3 & F4 & F5 & F6).
      + assumption.
      + lia.
      + lia.
      + lia.
      + rewrite HL, app_length. cbn. lia.
      + exact NA.
      + apply repeat_length.
      + exists s', go', p, b. repeat (split; [assumption|]). rewrite F6, HA. cbn [fst snd].
        f_equal. cbn [fill_cell]. rewrite AL, upd_app_last. unfold k0. f_equal. f_equal. f_equal.
        unfold overwrite. change (N.to_nat 0) with 0%nat. cbn [firstn app Nat.add].
        rewrite skipn_all2; [apply app_nil_r|]. rewrite repeat_length, dev_read_length. lia. }
  destruct X as (s' & go' & p & b & F1 & F2 & F3 & F4 & F5 & F6).
  rewrite F1. cbn [bind].
  destruct (add_val_ok s' rep dr gr go' p b (length (s_heap s)) d F2 F4) as (p5 & b5 & I5 & H5 & C5 & P5 & A5).
  { rewrite F3, HL, app_length. cbn. lia. }
  exists (add_val s' (length (s_heap s))), (length (s_heap s)), go', p5, b5.
  split; [reflexivity|]. split; [assumption|]. split; [assumption|].
  split; [congruence|]. split; [reflexivity|].
  rewrite H5, A5, F6. cbn [fst snd]. f_equal. rewrite AL. rewrite upd_app_last; reflexivity.
Qed.

(** One public operation. *)
Definition op_result (r : res nat) (n : nat) (k : option cell) : Prop :=
  match k with
  | Some _ => exists s, r = Ok s n
  | None => exists s e, r = Exc s e
  end.

Definition res_state (s : st) (r : res nat) : st :=
  match r with Ok s' _ => s' | Exc s' _ => s' | Bad => s end.

Definition bdy (gr : list grep) (go : list pk) (gc : option pk) : Prop :=
  (gc = None -> go = [] /\ gr = []) /\ (forall p, gc = Some p -> fst p <> []).

Definition add_cell (h : list cell) (k : option cell) : list cell :=
  match k with Some c => h ++ [c] | None => h end.

Lemma sim_result s rep dr gr d r A k : sim s rep dr gr d r (fst A, snd A ++ [k]) ->
  op_result r (length (s_heap s)) (Some k) /\
  exists go' gc', inv (res_state s r) rep dr gr go' gc' /\ bdy gr go' gc' /\
     alpha (s_heap (res_state s r)) d gr go' gc' = (fst A, add_cell (snd A) (Some k)).
Proof.
  intros (s' & h & go' & p & b & -> & I & C & N0 & -> & AL). split; [eexists; reflexivity|].
  exists go', (Some p). split; [exact I|]. split; [|exact AL].
  split; [discriminate|]. intros q Q. injection Q as <-. exact N0.
Qed.

Lemma word_sim A c0 d1 w mask h x :
  c0 = length (snd A) -> exec_tx v (fst A) x = (d1, [w]) -> x_dst x = [DWord c0] ->
  h = snd A ++ [CWord false 0 mask] ->
  (let E := exec_a x (fst A, h) in (fst E, upd (snd E) c0 cell_validate)) =
  (d1, snd A ++ [CWord true w mask]).
Proof.
  intros -> E X ->. unfold exec_a, fill_tx. cbn [fst snd]. rewrite E, X. cbn [fst snd fill_cell].
  f_equal. rewrite upd_app_last. rewrite upd_app_last. reflexivity.
Qed.

Lemma run_op_ok s rep dr gr go gc d o : 
  inv s rep dr gr go gc -> op_ok o -> bdy gr go gc ->
  (strict = true -> v = V1 -> forall a m, o <> OReadCfg a m) ->
  let A := alpha (s_heap s) d gr go gc in
  let R := atomic_op D rd wr cf rm v (fst A) o in
  op_result (run_op g s o) (length (s_heap s)) (snd R) /\
  exists go' gc', inv (res_state s (run_op g s o)) rep dr gr go' gc' /\ bdy gr go' gc' /\
     alpha (s_heap (res_state s (run_op g s o))) d gr go' gc' =
       (fst R, add_cell (snd A) (snd R)).
Proof.
  intros I OK BD SR A. destruct o as [a x|a x m|a l inc|a m|a n inc|a x y|a x|a m]; cbn [run_op atomic_op].
  - cbn [fst snd]. apply (sim_result s rep dr gr d _ (wr (fst A) a x, snd A)).
    apply implement_write_ok. assumption.
  - cbn [op_ok] in OK. destruct OK as (Hx & Hm).
    assert (M := masked_write_direct x m Hx Hm). unfold masked_write.
    destruct (mask_fits x m).
    + destruct M as (y & z & -> & MU).
      pose (x0 := fun id c => XBits id a y z (DWord c)).
      assert (W := implement_word_ok s rep dr gr go gc d RMW_BITS a [y; z] 0xFFFFFFFF x0 I).
      rewrite <- (RE v (fst A) a _ _ MU).
      destruct (rm v (fst A) a (fun old => rmw_bits_word old y z)) as [d1 w] eqn:E.
      cbn [fst snd]. apply (sim_result s rep dr gr d _ (d1, snd A)). cbn [fst snd].
      erewrite <- (word_sim A (length (s_heap s)) d1 w _ _ (x0 0 (length (s_heap s)))).
      * apply W; [|cbn; lia]. intros id c.
        repeat (split; [reflexivity|]). split; [unfold x0; destruct v; discriminate|].
        split; [cbn; destruct v; cbn; lia|reflexivity].
      * symmetry. apply alpha_heap_length.
      * cbn [x0 Tx.exec_tx]. rewrite E. reflexivity.
      * reflexivity.
      * reflexivity.
    + rewrite M. cbn [fst snd op_result res_state add_cell]. split; [eauto|].
      exists go, gc. split; [assumption|]. split; [assumption|].
      fold A. destruct A; reflexivity.
  - cbn [op_ok] in OK. cbn [fst snd].
    apply (sim_result s rep dr gr d _ (_, snd A)). cbn [fst snd].
    rewrite <- dev_write_spec by apply OK.
    apply implement_write_block_ok; tauto.
  - pose (x0 := fun id c => XRead true id a 1 (DWord c)).
    assert (W := implement_word_ok s rep dr gr go gc d READ a [] m x0 I).
    destruct (rd (fst A) a) as [d1 w] eqn:E.
    cbn [fst snd]. apply (sim_result s rep dr gr d _ (d1, snd A)). cbn [fst snd].
    erewrite <- (word_sim A (length (s_heap s)) d1 w _ _ (x0 0 (length (s_heap s)))).
    + apply W; [|cbn; lia]. intros id c.
      repeat (split; [reflexivity|]). split; [unfold x0; destruct v; discriminate|].
      split; [cbn; destruct v; cbn; lia|reflexivity].
    + symmetry. apply alpha_heap_length.
    + cbn [x0 Tx.exec_tx]. change (N.to_nat 1) with 1%nat. cbn [dev_read]. rewrite E. reflexivity.
    + reflexivity.
    + reflexivity.
  - cbn [op_ok] in OK. cbn [fst snd].
    assert (W := implement_read_block_ok s rep dr gr go gc d a n inc I (proj1 OK) (proj2 OK)).
    cbv zeta in W. fold A in W. rewrite dev_read_spec in W by apply OK.
    destruct (read_all D rd (fst A) (block_addrs a (N.to_nat n) inc)) as [d1 xs].
    apply (sim_result s rep dr gr d _ (d1, snd A)). exact W.
  - pose (x0 := fun id c => XBits id a x y (DWord c)).
    assert (W := implement_word_ok s rep dr gr go gc d RMW_BITS a [x; y] 0xFFFFFFFF x0 I).
    rewrite <- (RE v (fst A) a (fun old => rmw_bits_word old x y)) by reflexivity.
    destruct (rm v (fst A) a (fun old => rmw_bits_word old x y)) as [d1 w] eqn:E.
    cbn [fst snd]. apply (sim_result s rep dr gr d _ (d1, snd A)). cbn [fst snd].
    erewrite <- (word_sim A (length (s_heap s)) d1 w _ _ (x0 0 (length (s_heap s)))).
    + apply W; [|cbn; lia]. intros id c.
      repeat (split; [reflexivity|]). split; [unfold x0; destruct v; discriminate|].
      split; [cbn; destruct v; cbn; lia|reflexivity].
    + symmetry. apply alpha_heap_length.
    + cbn [x0 Tx.exec_tx]. rewrite E. reflexivity.
    + reflexivity.
    + reflexivity.
  - pose (x0 := fun id c => XSum id a x (DWord c)).
    assert (W := implement_word_ok s rep dr gr go gc d RMW_SUM a [x] 0xFFFFFFFF x0 I).
    rewrite <- (RE v (fst A) a (fun old => add32 old x)) by reflexivity.
    destruct (rm v (fst A) a (fun old => add32 old x)) as [d1 w] eqn:E.
    cbn [fst snd]. apply (sim_result s rep dr gr d _ (d1, snd A)). cbn [fst snd].
    erewrite <- (word_sim A (length (s_heap s)) d1 w _ _ (x0 0 (length (s_heap s)))).
    + apply W; [|cbn; lia]. intros id c.
      repeat (split; [reflexivity|]). split; [unfold x0; destruct v; discriminate|].
      split; [cbn; destruct v; cbn; lia|reflexivity].
    + symmetry. apply alpha_heap_length.
    + cbn [x0 Tx.exec_tx]. rewrite E. reflexivity.
    + reflexivity.
    + reflexivity.
  - destruct v eqn:V.
    + (* refused in IPbus 1.3, after a transaction number has been used *)
      unfold implement_word.
      destruct (check_space_ok s rep dr gr go gc (8 + 4 * N.of_nat (length (@nil N))) 8 d I)
        as (s1 & av & b & go1 & p & E1 & I1 & C1 & H1 & A1 & AV).
      rewrite E1. cbn [bind]. unfold push_tx. rewrite C1, V.
      change (calc_header V1 CONFIG_SPACE_READ 1 (s_ctr s1) (req_info V1)) with (@None N).
      cbn [bind fst snd op_result res_state add_cell]. split; [eauto|].
      exists go1, (Some p). split; [|split].
      * destruct I1. constructor; try assumption.
        intros ST. destruct (SR ST eq_refl a m eq_refl).
      * split; [discriminate|]. intros q Q. injection Q as <-.
        pose proof (i_cur _ _ _ _ _ _ I1) as X. rewrite C1 in X. destruct X as (_ & (_ & X) & _).
        apply X. exact V.
      * cbn [inc_ctr s_heap]. rewrite A1. fold A. destruct A; reflexivity.
    + pose (x0 := fun id c => XCfg id a (DWord c)).
      assert (W := implement_word_ok s rep dr gr go gc d CONFIG_SPACE_READ a [] m x0 I).
      destruct (cf (fst A) a) as [d1 w] eqn:E.
      cbn [fst snd]. apply (sim_result s rep dr gr d _ (d1, snd A)). cbn [fst snd].
      erewrite <- (word_sim A (length (s_heap s)) d1 w _ _ (x0 0 (length (s_heap s)))).
      * apply W; [|cbn; lia]. intros id c.
        repeat (split; [reflexivity|]). rewrite V. split; [discriminate|].
        split; [cbn; lia|reflexivity].
      * symmetry. apply alpha_heap_length.
      * cbn [x0 Tx.exec_tx dev_cfg_read]. rewrite E. reflexivity.
      * reflexivity.
      * reflexivity.
Qed.

(** ** The system *)
Lemma direct_app d0 os o :
  atomic D rd wr cf rm v d0 (os ++ [o]) =
  let A := atomic D rd wr cf rm v d0 os in
  let R := atomic_op D rd wr cf rm v (fst A) o in
  (fst R, add_cell (snd A) (snd R)).
Proof.
  revert d0. induction os as [|q t IH]; intros d0.
  - cbn [app atomic fst snd]. destruct (atomic_op D rd wr cf rm v d0 o) as [d1 [k|]]; reflexivity.
  - cbn [app atomic]. destruct (atomic_op D rd wr cf rm v d0 q) as [d1 r].
    rewrite IH. cbv zeta. destruct (atomic D rd wr cf rm v d1 t) as [d2 rs]. cbn [fst snd].
    destruct (atomic_op D rd wr cf rm v d2 o) as [d3 k]. cbn [fst snd].
    f_equal. destruct r, k; reflexivity.
Qed.

(** A client with nothing queued that already has the handles [hb]. *)
Variable hb : list cell.
Definition start (d : D) : sys D := mkSys D (mkSt 0 None hb [] None) [] d false false.

Definition above (r : D * list cell) : D * list cell := (fst r, hb ++ snd r).

Definition Sinv (d0 : D) (os : list op) (y : sys D) : Prop :=
  exists dr gr go gc,
    inv (y_c D y) (y_rep D y) dr gr go gc /\ y_bad D y = false /\
    alpha (s_heap (y_c D y)) (y_dev D y) gr go gc = above (atomic D rd wr cf rm v d0 os) /\
    (if y_wait D y then gc = None else bdy gr go gc).

Lemma init_inv d0 : Sinv d0 [] (start d0).
Proof.
  exists [], [], [], None.
  split; [|split; [reflexivity|split; [unfold above, alpha; cbn; rewrite app_nil_r; reflexivity|]]].
  - constructor; cbn; trivial; try constructor.
    intros _. exists []. split; [reflexivity|]. split; [reflexivity|]. intros [|k] x; discriminate.
  - split; [auto|discriminate].
Qed.

Lemma step_inv_rm d0 os y l y' :
  Sinv d0 os y -> (forall o, l = LOp o -> op_ok o) ->
  (strict = true -> v = V1 -> forall a m, l <> LOp (OReadCfg a m)) ->
  step_rm y l = Some y' ->
  Sinv d0 (os ++ calls [l]) y'.
Proof.
  intros (dr & gr & go & gc & I & B & AL & BD) OK SR ST. destruct y as [s rep d w bad].
  cbn [y_c y_rep y_dev y_wait y_bad] in *. subst bad.
  destruct l as [o| | | |]; cbn [TargetRm.step_rm calls y_c y_rep y_dev y_wait y_bad] in ST |- *;
    rewrite ?app_nil_r.
  - destruct w; [discriminate|].
    destruct (run_op_ok s rep dr gr go gc d o I (OK o eq_refl) BD) as (R & go' & gc' & I' & BD' & AL').
    { intros S1 S2 a m E. apply (SR S1 S2 a m). congruence. }
    assert (X : Some (mkSys D (res_state s (run_op g s o)) rep d false false) = Some y').
    { destruct (snd (atomic_op D rd wr cf rm v (fst (alpha (s_heap s) d gr go gc)) o)).
      - destruct R as (s' & R). rewrite R in *. exact ST.
      - destruct R as (s' & e & R). rewrite R in *. exact ST. }
    injection X as <-. exists dr, gr, go', gc'. cbn [y_c y_rep y_dev y_wait y_bad].
    split; [assumption|]. split; [reflexivity|]. split; [|assumption].
    rewrite AL', direct_app, AL. unfold above. cbn [fst snd]. f_equal.
    destruct (snd (atomic_op D rd wr cf rm v (fst (atomic D rd wr cf rm v d0 os)) o)); cbn [add_cell];
      [rewrite app_assoc|]; reflexivity.
  - destruct w; [discriminate|].
    destruct (s_cur s) as [b|] eqn:C.
    + destruct gc as [p|]; [|pose proof (i_cur _ _ _ _ _ _ I) as X; rewrite C in X; contradiction].
      unfold dispatch_send in ST. rewrite C in ST.
      destruct (send_current_ok s rep dr gr go b p I C) as (s' & n & E & I' & H' & C').
      { apply BD. reflexivity. }
      rewrite E in ST. injection ST as <-.
      exists dr, gr, (go ++ [padded p n]), None. cbn [y_c y_rep y_dev y_wait y_bad].
      split; [assumption|]. split; [reflexivity|]. split; [|reflexivity].
      rewrite H', alpha_send. exact AL.
    + injection ST as <-. exists dr, gr, go, gc. auto.
  - destruct w; [|discriminate].
    destruct (s_out s) eqn:O; [|discriminate]. destruct rep; [|discriminate].
    injection ST as <-. exists dr, gr, go, gc. cbn [y_c y_rep y_dev y_wait y_bad].
    split; [assumption|]. split; [reflexivity|]. split; [assumption|].
    subst gc. destruct I. rewrite O in i_out0. inversion i_out0. inversion i_rep0.
    split; [auto|discriminate].
  - destruct (s_out s) as [|b q] eqn:O; [discriminate|].
    assert (I2 := I). destruct I2. rewrite O in i_out0.
    inversion i_out0 as [|b1 p q1 go1 RO ROs]; subst b1 q1 go.
    inversion i_wfo0 as [|? ? [W N0] Ws]; subst.
    inversion i_bout0 as [|? ? Bp Bs]; subst.
    destruct (target_repr b p d RO W N0) as (r & E & RC).
    rewrite E in ST. injection ST as <-.
    exists dr, (gr ++ [(p, d)]), go1, gc. cbn [y_c y_rep y_dev y_wait y_bad].
    split; [|split; [reflexivity|split]].
    + constructor; cbn [set_out s_out s_cur s_heap s_budget]; trivial.
      * apply Forall2_app; [assumption|]. constructor; [exact RC|constructor].
      * apply Forall_app. auto.
      * rewrite O in i_sz0. inversion i_sz0. assumption.
      * intros SS. destruct (i_ids0 SS) as (qs & Q1 & Q2). exists qs. split; [|assumption].
        rewrite map_app, <- app_assoc. exact Q1.
    + rewrite <- AL. cbn [set_out s_heap]. unfold alpha. rewrite fold_left_app. reflexivity.
    + destruct w; [assumption|]. destruct BD as (BD1 & BD2). split; [|assumption].
      intros Q. destruct (BD1 Q). discriminate.
  - destruct rep as [|[b r] q]; [discriminate|].
    assert (I2 := I). destruct I2.
    inversion i_rep0 as [|br [p dd] q1 gr1 RO ROs]; subst br q1 gr.
    inversion i_brep0 as [|? ? Bp Bs]; subst. cbn [fst snd] in *.
    rewrite RO in ST. injection ST as <-.
    assert (LH := run_pk_length (dd, s_heap s) p). unfold run_pk in LH. cbn [fst snd] in LH.
    assert (IDS : exists dr', strict = true -> exists qs,
      map fst gr1 ++ go = map (fun q => padded (fst q) (snd q)) qs /\
      ids_ok (dr' ++ real_txs qs ++ cur_txs gc) (s_ctr s)).
    { destruct strict; [|exists []; discriminate].
      destruct (i_ids0 eq_refl) as ([|q0 qs] & Q1 & Q2); [discriminate|].
      cbn [map app] in Q1. injection Q1 as Q0 Q1.
      exists (dr ++ fst (fst q0)). intros _. exists qs. split; [assumption|].
      cbn [real_txs flat_map] in Q2. rewrite <- !app_assoc in *. exact Q2. }
    destruct IDS as (dr' & IDS).
    exists dr', gr1, go, gc. cbn [y_c y_rep y_dev y_wait y_bad].
    split; [|split; [reflexivity|split]].
    + constructor; cbn [set_heap s_out s_cur s_heap s_budget]; trivial; try assumption; rewrite LH; assumption.
    + rewrite <- AL. cbn [set_heap s_heap]. reflexivity.
    + destruct w; [assumption|]. destruct BD as (BD1 & BD2). split; [|assumption].
      intros Q. destruct (BD1 Q). discriminate.
Qed.

Lemma calls_app l1 l2 : calls (l1 ++ l2) = calls l1 ++ calls l2.
Proof. induction l1 as [|[] t IH]; cbn; congruence. Qed.

Lemma run_inv_rm d0 : forall ls os y y',
  Sinv d0 os y -> Forall op_ok (calls ls) ->
  (strict = true -> v = V1 -> forall a m, ~ In (OReadCfg a m) (calls ls)) -> run_rm y ls = Some y' ->
  Sinv d0 (os ++ calls ls) y'.
Proof.
  induction ls as [|l t IH]; intros os y y' S F SR R.
  - injection R as <-. rewrite app_nil_r. exact S.
  - cbn [TargetRm.run_rm] in R. destruct (step_rm y l) as [y1|] eqn:E; [|discriminate].
    change (l :: t) with ([l] ++ t) in F, SR |- *. rewrite calls_app in F, SR |- *.
    apply Forall_app in F. destruct F as (F1 & F2). rewrite app_assoc.
    apply (IH _ y1); trivial.
    + apply (step_inv_rm d0 os y l); trivial.
      * intros o ->. cbn in F1. inversion F1. assumption.
      * intros S1 S2 a m ->. apply (SR S1 S2 a m). left. reflexivity.
    + intros S1 S2 a m X. apply (SR S1 S2 a m). apply in_or_app. right. exact X.
Qed.


Lemma quiescent_rm d0 ls y :
  Forall op_ok (calls ls) ->
  (strict = true -> v = V1 -> forall a m, ~ In (OReadCfg a m) (calls ls)) ->
  run_rm (start d0) ls = Some y ->
  y_bad D y = false /\
  (s_cur (y_c D y) = None -> s_out (y_c D y) = [] -> y_rep D y = [] ->
   (y_dev D y, s_heap (y_c D y)) = above (atomic D rd wr cf rm v d0 (calls ls))).
Proof.
  intros F SR R.
  destruct (run_inv_rm d0 ls [] _ _ (init_inv d0) F SR R) as (dr & gr & go & gc & I & B & AL & BD).
  split; [exact B|]. intros C O P. cbn [app] in AL. rewrite <- AL.
  destruct I. rewrite C in i_cur0. rewrite O in i_out0. rewrite P in i_rep0.
  destruct gc; [contradiction|]. inversion i_out0. inversion i_rep0. reflexivity.
Qed.
End E2E.

Lemma dev_ext D rd wr : rm_ext D (dev_rmw D rd wr).
Proof. intros v d a f f' E. unfold dev_rmw. destruct (rd d a). rewrite E. reflexivity. Qed.

(** With a read followed by a write. *)
Lemma run_inv D rd wr cf g (G : cfg_ok g) strict hb d0 ls os y y' :
  Sinv D rd wr cf (dev_rmw D rd wr) g strict hb d0 os y -> Forall op_ok (calls ls) ->
  (strict = true -> g_ver g = V1 -> forall a m, ~ In (OReadCfg a m) (calls ls)) -> run D rd wr cf g y ls = Some y' ->
  Sinv D rd wr cf (dev_rmw D rd wr) g strict hb d0 (os ++ calls ls) y'.
Proof.
  rewrite <- run_real. apply run_inv_rm; [apply dev_ext|exact G].
Qed.

Lemma quiescent_direct D rd wr cf g (G : cfg_ok g) strict hb d0 ls y :
  Forall op_ok (calls ls) ->
  (strict = true -> g_ver g = V1 -> forall a m, ~ In (OReadCfg a m) (calls ls)) ->
  run D rd wr cf g (start D hb d0) ls = Some y ->
  y_bad D y = false /\
  (s_cur (y_c D y) = None -> s_out (y_c D y) = [] -> y_rep D y = [] ->
   (y_dev D y, s_heap (y_c D y)) = above D hb (direct D rd wr cf (g_ver g) d0 (calls ls))).
Proof.
  rewrite <- run_real. apply (quiescent_rm D rd wr cf (dev_rmw D rd wr)); [apply dev_ext|exact G].
Qed.
