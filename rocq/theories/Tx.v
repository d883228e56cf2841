(** Proof layer: packets as lists of abstract transactions. *)
From Verif Require Import Word Bits Header WordLemmas HeaderProofs ValMem Client
  Validate Target Spec System TargetRm.
From Coq Require Import NArith ZArith List Lia Bool ZifyBool ZifyNat ZifyN.
Import ListNotations.
Open Scope N_scope.
Ltac Zify.zify_post_hook ::= Z.div_mod_to_equations.

(** A transaction of a packet: what it asks for, and where its results go. *)
Inductive tx :=
| XBot (id : N)
| XRead (inc : bool) (id a n : N) (e : dest)
| XCfg (id a : N) (e : dest)
| XWrite (inc : bool) (id a : N) (ws : list N)
| XSum (id a x : N) (e : dest)
| XBits (id a m o : N) (e : dest).

(** Its type, identifier, number of words, words after the header, and destinations. *)
Definition x_type (x : tx) : ttype :=
  match x with
  | XBot _ => BOT
  | XRead inc _ _ _ _ => if inc then READ else NI_READ
  | XCfg _ _ _ => CONFIG_SPACE_READ
  | XWrite inc _ _ _ => if inc then WRITE else NI_WRITE
  | XSum _ _ _ _ => RMW_SUM
  | XBits _ _ _ _ _ => RMW_BITS
  end.

Definition x_id (x : tx) : N :=
  match x with
  | XBot id => id | XRead _ id _ _ _ => id | XCfg id _ _ => id
  | XWrite _ id _ _ => id | XSum id _ _ _ => id | XBits id _ _ _ _ => id
  end.

Definition x_wc (x : tx) : N :=
  match x with
  | XBot _ => 0
  | XRead _ _ _ n _ => n
  | XWrite _ _ _ ws => N.of_nat (length ws)
  | _ => 1
  end.

Definition x_body (x : tx) : list N :=
  match x with
  | XBot _ => []
  | XRead _ _ a _ _ => [a]
  | XCfg _ a _ => [a]
  | XWrite _ _ a ws => a :: ws
  | XSum _ a y _ => [a; y]
  | XBits _ a m o _ => [a; m; o]
  end.

Definition x_dst (x : tx) : list dest :=
  match x with
  | XBot _ => []
  | XWrite _ _ _ _ => []
  | XRead _ _ _ _ e => [e]
  | XCfg _ _ e => [e]
  | XSum _ _ _ e => [e]
  | XBits _ _ _ _ e => [e]
  end.

(** Request header; and the words of a transaction in a packet. *)
Definition hdrw (v : version) (t : ttype) (wc id : N) : N :=
  match calc_header v t wc id (req_info v) with Some h => h | None => 0 end.

Definition enc (v : version) (x : tx) : list N :=
  hdrw v (x_type x) (x_wc x) (x_id x) :: x_body x.

(** Destinations of the words of the reply: the header's and the data's. *)
Definition dsts (x : tx) : list dest := DHdr :: x_dst x.

(** Transactions the protocol has. *)
Definition wf_tx (v : version) (x : tx) : Prop :=
  type_code v (x_type x) <> None /\ x_wc x <= max_wc v /\
  match x with
  | XBot _ => True
  | XWrite _ _ _ _ => True
  | XRead _ _ _ n e => dest_words e = n
  | XCfg _ _ e => dest_words e = 1
  | XSum _ _ _ e => dest_words e = 1
  | XBits _ _ _ _ e => dest_words e = 1
  end.

Section Exec.
Variable D : Type.
Variable rd : D -> N -> D * N.
Variable wr : D -> N -> N -> D.
Variable cf : D -> N -> D * N.
(** Read-modify-writes as one operation of the device. *)
Variable rm : version -> D -> N -> (N -> N) -> D * N.

(** What the device does for a transaction, and the data of the reply. *)
Definition exec_tx (v : version) (d : D) (x : tx) : D * list N :=
  match x with
  | XBot _ => (d, [])
  | XRead inc _ a n _ => dev_read D rd d a (N.to_nat n) inc
  | XCfg _ a _ => dev_cfg_read D cf d a 1
  | XWrite inc _ a ws => (dev_write D wr d a ws inc, [])
  | XSum _ a y _ =>
      let (d', r) := rm v d a (fun old => add32 old y) in (d', [r])
  | XBits _ a m o _ =>
      let (d', r) := rm v d a (fun old => rmw_bits_word old m o) in
      (d', [r])
  end.

(** The reply: its number of words, its header, all of it. *)
Definition reply_wc (v : version) (x : tx) : N :=
  match x, v with XWrite _ _ _ _, V1 => 0 | _, _ => x_wc x end.

Definition rhdr (v : version) (x : tx) : N :=
  match expected_header v (x_type x) (reply_wc v x) (x_id x mod id_mod v) 0 with
  | Some h => h | None => 0 end.

Definition reply_tx (v : version) (x : tx) (data : list N) : list N :=
  rhdr v x :: data.

(** What the device does for a packet. *)
Fixpoint exec_txs (v : version) (d : D) (xs : list tx) : D * list N :=
  match xs with
  | [] => (d, [])
  | x :: t =>
      let (d1, data) := exec_tx v d x in
      let (d2, r) := exec_txs v d1 t in
      (d2, reply_tx v x data ++ r)
  end.

Lemma dev_read_length d a n inc : length (snd (dev_read D rd d a n inc)) = n.
Proof.
  revert d a. induction n as [|n IH]; intros d a; [reflexivity|].
  cbn [dev_read]. destruct (rd d a) as [d1 x].
  specialize (IH d1 (if inc then add32 a 1 else a)).
  destruct (dev_read D rd d1 _ n inc) as [d2 l]. cbn in *. congruence.
Qed.

Lemma exec_tx_length v d x : wf_tx v x ->
  dests_words (x_dst x) = N.of_nat (length (snd (exec_tx v d x))).
Proof.
  intros (_ & _ & H). destruct x; cbn [exec_tx x_dst dests_words snd length];
    try reflexivity.
  - rewrite dev_read_length, H. lia.
  - cbn [dev_cfg_read]. destruct (cf d a). cbn. lia.
  - destruct (rm _ _ _ _). cbn. lia.
  - destruct (rm _ _ _ _). cbn. lia.
Qed.

Lemma id_mod_pos v : id_mod v <> 0. Proof. destruct v; discriminate. Qed.

Lemma mod_wc v n : n <= max_wc v -> n mod wc_mod v = n.
Proof. unfold max_wc, wc_mod. intros. apply N.mod_small. destruct v; lia. Qed.

Lemma hdrw_extract v t wc id :
  type_code v t <> None -> wc <= max_wc v ->
  extract_header v (hdrw v t wc id) = Some (mkHdr t wc (id mod id_mod v) (req_info v)).
Proof.
  intros T W. unfold hdrw. destruct (type_code v t) as [ty|] eqn:E; [|congruence].
  destruct (calc_header v t wc id (req_info v)) as [h|] eqn:C.
  - destruct (extract_calc _ _ _ _ _ _ C) as [X _]. rewrite X.
    rewrite mod_wc by assumption. f_equal. f_equal. destruct v; reflexivity.
  - unfold calc_header in C. rewrite E in C. discriminate.
Qed.

Lemma rhdr_extract v x : wf_tx v x ->
  extract_header v (rhdr v x) =
    Some (mkHdr (x_type x) (reply_wc v x) (x_id x mod id_mod v) 0).
Proof.
  intros (T & W & _). unfold rhdr. destruct (type_code v (x_type x)) as [ty|] eqn:E; [|congruence].
  assert (W' : reply_wc v x <= max_wc v).
  { unfold reply_wc. destruct x, v; cbn in *; lia. }
  assert (M : forall y, (y mod id_mod v) mod id_mod v = y mod id_mod v)
    by (intros; apply N.mod_mod, id_mod_pos).
  destruct (expected_header v (x_type x) (reply_wc v x) (x_id x mod id_mod v) 0) as [h|] eqn:C.
  - unfold expected_header in C. destruct v.
    + destruct (extract_calc _ _ _ _ _ _ C) as [X _]. rewrite X, M, mod_wc by assumption.
      reflexivity.
    + destruct (extract_calc _ _ _ _ _ _ C) as [X _]. rewrite X, M, mod_wc by assumption.
      reflexivity.
  - unfold expected_header, calc_header in C. destruct v; rewrite E in C; discriminate.
Qed.

Lemma rhdr_reply_header v x wc id : wf_tx v x ->
  wc = reply_wc v x -> id = x_id x mod id_mod v ->
  reply_header v (x_type x) wc id = [rhdr v x].
Proof.
  intros (T & _) -> ->. unfold reply_header, rhdr.
  destruct (type_code v (x_type x)) as [ty|] eqn:E; [|congruence].
  unfold expected_header, calc_header. destruct v; rewrite E; reflexivity.
Qed.

(** The target interprets a list of encoded transactions one after the other. *)
Lemma target_loop_enc v : forall xs fuel d,
  xs <> [] -> Forall (wf_tx v) xs -> (length xs <= fuel)%nat ->
  loop_rm D rd wr cf rm fuel v d (flat_map (enc v) xs) =
    (fst (exec_txs v d xs), snd (exec_txs v d xs), true).
Proof.
  induction xs as [|x t IH]; intros fuel d N0 W F; [congruence|].
  destruct fuel as [|fuel]; [cbn in F; lia|].
  inversion W as [|? ? Wx Wt]; subst.
  assert (Tail : forall d1 rep,
    match flat_map (enc v) t with
    | [] => (d1, rep, true)
    | _ :: _ => let '(d', r, ok) := loop_rm D rd wr cf rm fuel v d1 (flat_map (enc v) t) in
                (d', rep ++ r, ok)
    end = (fst (exec_txs v d1 t), rep ++ snd (exec_txs v d1 t), true)).
  { intros d1 rep. destruct t as [|y t'].
    - cbn. rewrite app_nil_r. reflexivity.
    - rewrite IH; [|discriminate|assumption|cbn in F |- *; lia].
      cbn [flat_map enc app]. reflexivity. }
  cbn [flat_map enc app loop_rm].
  rewrite hdrw_extract by (apply Wx).
  cbn [h_info h_id h_wc h_type]. rewrite N.eqb_refl. cbn [negb].
  assert (RH := rhdr_reply_header v x). cbn [exec_txs].
  destruct x as [id|inc id a n e|id a e|inc id a ws|id a y e|id a m o e];
    cbn [x_type x_wc x_id x_body exec_tx app reply_wc] in *.
  - rewrite (RH 0 _ Wx) by (destruct v; reflexivity). rewrite Tail.
    destruct (exec_txs v d t). reflexivity.
  - destruct inc.
    + rewrite (surjective_pairing (dev_read D rd d a (N.to_nat n) true)).
      rewrite (RH n _ Wx) by (destruct v; reflexivity). rewrite Tail.
      rewrite (surjective_pairing (exec_txs v _ t)). reflexivity.
    + rewrite (surjective_pairing (dev_read D rd d a (N.to_nat n) false)).
      rewrite (RH n _ Wx) by (destruct v; reflexivity). rewrite Tail.
      rewrite (surjective_pairing (exec_txs v _ t)). reflexivity.
  - change (N.to_nat 1) with 1%nat.
    rewrite (surjective_pairing (dev_cfg_read D cf d a 1)).
    rewrite (RH 1 _ Wx) by (destruct v; reflexivity). rewrite Tail.
    rewrite (surjective_pairing (exec_txs v _ t)). reflexivity.
  - destruct inc.
    + rewrite Nat2N.id.
      replace (Nat.ltb (length (ws ++ flat_map (enc v) t)) (length ws)) with false
        by (rewrite app_length; lia).
      rewrite firstn_app, skipn_app, firstn_all, skipn_all, Nat.sub_diag.
      cbn [firstn skipn app]. rewrite app_nil_r.
      rewrite (RH _ _ Wx) by (destruct v; reflexivity). rewrite Tail.
      rewrite (surjective_pairing (exec_txs v _ t)). reflexivity.
    + rewrite Nat2N.id.
      replace (Nat.ltb (length (ws ++ flat_map (enc v) t)) (length ws)) with false
        by (rewrite app_length; lia).
      rewrite firstn_app, skipn_app, firstn_all, skipn_all, Nat.sub_diag.
      cbn [firstn skipn app]. rewrite app_nil_r.
      rewrite (RH _ _ Wx) by (destruct v; reflexivity). rewrite Tail.
      rewrite (surjective_pairing (exec_txs v _ t)). reflexivity.
  - rewrite (surjective_pairing (rm v d a _)).
    rewrite (RH 1 _ Wx) by (destruct v; reflexivity). rewrite Tail.
    rewrite (surjective_pairing (exec_txs v _ t)). reflexivity.
  - rewrite (surjective_pairing (rm v d a _)).
    rewrite (RH 1 _ Wx) by (destruct v; reflexivity). rewrite Tail.
    rewrite (surjective_pairing (exec_txs v _ t)). reflexivity.
Qed.

(** Received slots of a list of transactions. *)
Fixpoint slots_txs (v : version) (d : D) (xs : list tx) : list (dest * list N) :=
  match xs with
  | [] => []
  | x :: t =>
      let (d1, data) := exec_tx v d x in
      (DHdr, [rhdr v x]) :: map (fun e => (e, data)) (x_dst x) ++ slots_txs v d1 t
  end.

Lemma scatter_txs v : forall xs d, Forall (wf_tx v) xs ->
  scatter (flat_map dsts xs) (snd (exec_txs v d xs)) = slots_txs v d xs.
Proof.
  induction xs as [|x t IH]; intros d W; [reflexivity|].
  inversion W as [|? ? Wx Wt]; subst.
  cbn [flat_map exec_txs slots_txs].
  assert (L := exec_tx_length v d x Wx).
  destruct (exec_tx v d x) as [d1 data] eqn:E.
  specialize (IH d1 Wt). destruct (exec_txs v d1 t) as [d2 r] eqn:F.
  cbn [snd] in *. unfold dsts at 1. cbn [app scatter reply_tx dest_words].
  change (N.to_nat 1) with 1%nat. cbn [firstn skipn app]. f_equal.
  destruct (x_dst x) as [|e [|? ?]] eqn:X.
  - cbn [dests_words] in L. destruct data; [|cbn in L; lia]. cbn. exact IH.
  - cbn [dests_words] in L. cbn [app map scatter].
    replace (N.to_nat (dest_words e)) with (length data) by lia.
    rewrite firstn_app, skipn_app, firstn_all, skipn_all, Nat.sub_diag.
    cbn [firstn skipn app]. rewrite app_nil_r. f_equal. exact IH.
  - destruct x; cbn in X; discriminate.
Qed.

Lemma send_advance_enc v x : wf_tx v x ->
  N.to_nat (send_advance (x_type x) (x_wc x)) = length (enc v x).
Proof.
  intros _. unfold enc.
  destruct x; try destruct inc; cbn [x_type x_wc send_advance x_body length]; lia.
Qed.

Lemma reply_advance_dst x : reply_advance (x_type x) = length (dsts x).
Proof. destruct x; cbn; try destruct inc; reflexivity. Qed.

Lemma ttype_eqb_refl t : ttype_eqb t t = true. Proof. destruct t; reflexivity. Qed.

Lemma validate_core_txs v : forall xs fuel d,
  xs <> [] -> Forall (wf_tx v) xs -> (length xs <= fuel)%nat ->
  validate_core fuel v (flat_map (enc v) xs) (slots_txs v d xs) = VOk.
Proof.
  induction xs as [|x t IH]; intros fuel d N0 W F; [congruence|].
  destruct fuel as [|fuel]; [cbn in F; lia|].
  inversion W as [|? ? Wx Wt]; subst.
  cbn [slots_txs flat_map].
  destruct (exec_tx v d x) as [d1 data] eqn:E.
  set (S1 := flat_map (enc v) t). set (S2 := slots_txs v d1 t).
  assert (A1 : enc v x ++ S1 = hdrw v (x_type x) (x_wc x) (x_id x) :: x_body x ++ S1)
    by reflexivity.
  cbn [validate_core]. rewrite A1.
  rewrite hdrw_extract by apply Wx.
  cbn [slot_word snd hd]. unfold slot_word; cbn [snd hd].
  rewrite rhdr_extract by assumption.
  cbn [h_id h_type h_info h_wc]. rewrite N.eqb_refl, ttype_eqb_refl. cbn [negb orb N.eqb].
  rewrite (send_advance_enc v) by assumption. rewrite reply_advance_dst.
  rewrite <- A1.
  set (R1 := (DHdr, [rhdr v x]) :: map (fun e => (e, data)) (x_dst x)).
  change ((DHdr, [rhdr v x]) :: map (fun e => (e, data)) (x_dst x) ++ S2) with (R1 ++ S2).
  replace (length (dsts x)) with (length R1)
    by (unfold R1, dsts; cbn; rewrite map_length; reflexivity).
  replace (Nat.ltb (length (enc v x ++ S1)) (length (enc v x))) with false
    by (rewrite app_length; lia).
  replace (Nat.ltb (length (R1 ++ S2)) (length R1)) with false
    by (rewrite app_length; lia).
  cbn [orb]. rewrite !skipn_app, !skipn_all, !Nat.sub_diag. cbn [skipn app].
  destruct t as [|y t'].
  - reflexivity.
  - assert (IH' := IH fuel d1 ltac:(discriminate) Wt ltac:(cbn in F |- *; lia)).
    fold S1 S2 in IH'. destruct S1 as [|s1 s1'] eqn:Q1; [discriminate|].
    destruct S2 as [|s2 s2'] eqn:Q2; [reflexivity|]. exact IH'.
Qed.

(** Effect of executing transactions on the handles. *)
Definition fill_tx (h : list cell) (x : tx) (data : list N) : list cell :=
  match x_dst x with [] => h | e :: _ => fill_cell h (e, data) end.

(** The memory of the user after the replies of a packet. *)
Fixpoint fill_txs (v : version) (d : D) (h : list cell) (xs : list tx) : list cell :=
  match xs with
  | [] => h
  | x :: t => let (d1, data) := exec_tx v d x in fill_txs v d1 (fill_tx h x data) t
  end.

Lemma fill_slots v : forall xs d h, fill h (slots_txs v d xs) = fill_txs v d h xs.
Proof.
  induction xs as [|x t IH]; intros d h; [reflexivity|].
  cbn [slots_txs fill_txs]. destruct (exec_tx v d x) as [d1 data].
  rewrite <- IH. unfold fill. cbn [fold_left fill_cell]. rewrite fold_left_app.
  f_equal. unfold fill_tx. destruct x; reflexivity.
Qed.

Lemma exec_txs_app v xs ys d :
  fst (exec_txs v d (xs ++ ys)) = fst (exec_txs v (fst (exec_txs v d xs)) ys).
Proof.
  revert d. induction xs as [|x t IH]; intros d; [reflexivity|].
  cbn [app exec_txs]. destruct (exec_tx v d x) as [d1 data].
  specialize (IH d1). destruct (exec_txs v d1 (t ++ ys)). destruct (exec_txs v d1 t).
  exact IH.
Qed.

Lemma fill_txs_app v xs ys d h :
  fill_txs v d h (xs ++ ys) = fill_txs v (fst (exec_txs v d xs)) (fill_txs v d h xs) ys.
Proof.
  revert d h. induction xs as [|x t IH]; intros d h; [reflexivity|].
  cbn [app exec_txs fill_txs]. destruct (exec_tx v d x) as [d1 data].
  rewrite IH. destruct (exec_txs v d1 t). reflexivity.
Qed.

End Exec.

(** Updates of different kinds commute. *)
Lemma upd_length {A} (l : list A) i f : length (upd l i f) = length l.
Proof. revert i; induction l; intros [|i]; cbn; congruence. Qed.

Lemma upd_app_lt {A} (l : list A) k i f : (i < length l)%nat ->
  upd (l ++ k) i f = upd l i f ++ k.
Proof.
  revert i; induction l; intros [|i] H; cbn in *; try lia; try reflexivity.
  f_equal. apply IHl. lia.
Qed.

Lemma upd_app_last {A} (l : list A) x f : upd (l ++ [x]) (length l) f = l ++ [f x].
Proof. induction l; cbn; congruence. Qed.

Lemma upd_comm {A} (l : list A) i j f g :
  (forall x, f (g x) = g (f x)) -> upd (upd l i f) j g = upd (upd l j g) i f.
Proof.
  intros H. revert i j. induction l as [|x t IH]; intros [|i] [|j]; cbn; try reflexivity.
  - rewrite H. reflexivity.
  - f_equal. apply IH.
Qed.

Lemma fill_cell_length h e : length (fill_cell h e) = length h.
Proof. destruct e as [[| | |c|c off n] [|w ws]]; cbn; rewrite ?upd_length; reflexivity. Qed.

Lemma fill_cell_mark h e c :
  upd (fill_cell h e) c cell_validate = fill_cell (upd h c cell_validate) e.
Proof.
  destruct e as [[| | |k|k off n] [|w ws]]; cbn; try reflexivity;
    rewrite upd_comm; try reflexivity; intros []; reflexivity.
Qed.

Lemma fill_cell_marks h e cs : mark_valid (fill_cell h e) cs = fill_cell (mark_valid h cs) e.
Proof.
  unfold mark_valid. revert h. induction cs as [|c t IH]; intros h; [reflexivity|].
  cbn [fold_left]. rewrite fill_cell_mark. apply IH.
Qed.

Lemma fill_tx_marks h x data cs :
  mark_valid (fill_tx h x data) cs = fill_tx (mark_valid h cs) x data.
Proof. unfold fill_tx. destruct (x_dst x); [reflexivity|]. apply fill_cell_marks. Qed.

(** A destination in the first [n] cells. *)
Definition dest_lt (n : nat) (e : dest) : Prop :=
  match e with DWord c => (c < n)%nat | DVec c _ _ => (c < n)%nat | _ => True end.

Lemma fill_cell_app h k e : dest_lt (length h) (fst e) ->
  fill_cell (h ++ k) e = fill_cell h e ++ k.
Proof.
  destruct e as [[| | |c|c off n] [|w ws]]; cbn; intros H; try reflexivity;
    apply upd_app_lt; assumption.
Qed.

Lemma mark_valid_app h k cs : Forall (fun c => (c < length h)%nat) cs ->
  mark_valid (h ++ k) cs = mark_valid h cs ++ k.
Proof.
  unfold mark_valid. revert h. induction cs as [|c t IH]; intros h F; [reflexivity|].
  inversion F; subst. cbn [fold_left]. rewrite upd_app_lt by assumption.
  apply IH. eapply Forall_impl; [|eassumption]. intros ? ?; rewrite upd_length; assumption.
Qed.

Lemma mark_valid_length h cs : length (mark_valid h cs) = length h.
Proof.
  unfold mark_valid. revert h. induction cs as [|c t IH]; intros h; [reflexivity|].
  cbn [fold_left]. rewrite IH. apply upd_length.
Qed.

Lemma mark_valid_snoc h cs c : mark_valid h (cs ++ [c]) = upd (mark_valid h cs) c cell_validate.
Proof. unfold mark_valid. rewrite fold_left_app. reflexivity. Qed.

Lemma dests_words_app l m : dests_words (l ++ m) = dests_words l + dests_words m.
Proof. induction l; cbn; lia. Qed.

Lemma scatter_app_exact l m ws us :
  dests_words l = N.of_nat (length ws) ->
  scatter (l ++ m) (ws ++ us) = scatter l ws ++ scatter m us.
Proof.
  revert ws. induction l as [|e t IH]; intros ws H.
  - destruct ws; [reflexivity|cbn in H; lia].
  - cbn [app scatter]. cbn [dests_words] in H. f_equal.
    + f_equal. rewrite firstn_app.
      replace (N.to_nat (dest_words e) - length ws)%nat with 0%nat by lia.
      cbn. apply app_nil_r.
    + rewrite skipn_app.
      replace (N.to_nat (dest_words e) - length ws)%nat with 0%nat by lia.
      cbn. apply IH. rewrite skipn_length. lia.
Qed.
