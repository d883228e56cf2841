(** Proof layer: reply validation of the packets the client builds. *)
From Verif Require Import Word Bits Header WordLemmas HeaderProofs ValMem Client
  Validate Target Spec SpecLemmas System Tx E2E Sent WireSpec SentProofs ReplySpec Prop_Headers.
From Coq Require Import NArith ZArith List Lia Bool ZifyBool ZifyNat ZifyN.
Import ListNotations.
Open Scope N_scope.

Lemma skipn_skipn {A} n : forall m (l : list A), skipn m (skipn n l) = skipn (m + n) l.
Proof.
  induction n as [|n IH]; intros m l; [rewrite Nat.add_0_r; reflexivity|].
  destruct l as [|a l]; [rewrite !skipn_nil; reflexivity|].
  rewrite Nat.add_succ_r. cbn [skipn]. apply IH.
Qed.

Lemma scatter_app l : forall m ws,
  scatter (l ++ m) ws = scatter l ws ++ scatter m (skipn (N.to_nat (dests_words l)) ws).
Proof.
  induction l as [|d t IH]; intros m ws; [reflexivity|].
  cbn [app scatter dests_words]. rewrite IH, skipn_skipn.
  replace (N.to_nat (dests_words t) + N.to_nat (dest_words d))%nat
    with (N.to_nat (dest_words d + dests_words t)) by lia. reflexivity.
Qed.

Lemma scatter_length l : forall ws, length (scatter l ws) = length l.
Proof. induction l as [|d t IH]; intros ws; [reflexivity|]. cbn. rewrite IH. reflexivity. Qed.

Lemma hd_firstn1 (ws : list N) : hd 0 (firstn 1 ws) = hd 0 ws.
Proof. destruct ws; reflexivity. Qed.

Lemma hfault_none v x h : hfault v x h None <-> header_matches v x h.
Proof. split; [intros H; inversion H; assumption|apply hf_none]. Qed.

Lemma hfault_some v x h e : hfault v x h (Some e) -> ~ header_matches v x h.
Proof. intros H (A & B & C & D). inversion H; tauto. Qed.

Lemma first_fault_none v xs : forall ws, first_fault v xs ws None <-> reply_matches v xs ws.
Proof.
  induction xs as [|x t IH]; intros ws; cbn [reply_matches].
  - split; [auto|constructor].
  - split.
    + intros H. inversion H; subst. split; [apply hfault_none; assumption|apply IH; assumption].
    + intros (A & B). apply ff_later; [apply hf_none, A|apply IH, B].
Qed.

Lemma first_fault_some v xs : forall ws e, first_fault v xs ws (Some e) -> ~ reply_matches v xs ws.
Proof.
  induction xs as [|x t IH]; intros ws e H; cbn [reply_matches]; inversion H; subst.
  - intros (A & _). match goal with Q : hfault _ _ _ (Some _) |- _ => exact (hfault_some _ _ _ _ Q A) end.
  - intros (_ & B). match goal with Q : first_fault _ t _ _ |- _ => exact (IH _ _ Q B) end.
Qed.

Lemma is_header_extract v h : is_header v h <-> exists x, extract_header v h = Some x.
Proof.
  rewrite (extract_some_iff v h). unfold is_header.
  assert (Q : word_version h = version_number v <-> (h / 2 ^ 28) mod 16 = vnum v)
    by (destruct v; reflexivity).
  rewrite Q. clear Q.
  assert (T : forall t, spec_type v t = Some (word_type v h) <-> type_code v t = Some (type_field v h)).
  { intros t. rewrite type_code_spec, type_field_word. destruct (spec_type v t) as [n|]; cbn [option_map].
    - split; intros E; injection E as E; f_equal; [subst; reflexivity|]. destruct v; lia.
    - split; discriminate. }
  split; intros (A & t & B); (split; [exact A|exists t; apply T, B]).
Qed.

Lemma ttype_eqb_spec a b : ttype_eqb a b = true <-> a = b.
Proof. split; [destruct a, b; (reflexivity||discriminate)|intros ->; destruct b; reflexivity]. Qed.

Lemma spec_type_inj v t u n : spec_type v t = Some n -> spec_type v u = Some n -> t = u.
Proof. destruct v, t, u; cbn; congruence. Qed.

Lemma extract_word v h x : extract_header v h = Some x ->
  is_header v h /\ spec_type v (h_type x) = Some (word_type v h) /\ h_id x = word_id v h /\
  h_info x = word_info v h.
Proof.
  intros E. split; [apply is_header_extract; eauto|].
  assert (TY := extract_type v h x E). destruct (extract_fields v h x E) as (A & B & C).
  split; [|split].
  - rewrite type_code_spec, type_field_word in TY. destruct (spec_type v (h_type x)) as [n|]; [|discriminate].
    cbn in TY. injection TY as TY. f_equal. destruct v; lia.
  - rewrite B. destruct v; reflexivity.
  - rewrite C. destruct v; reflexivity.
Qed.

Lemma hub_code_swap ws : swap16 (nth 2 ws 0 / 65536) = hub_code ws.
Proof.
  unfold swap16, hub_code. change (2 ^ 16) with 65536. change (2 ^ 24) with (65536 * 256).
  rewrite <- N.div_div by discriminate. reflexivity.
Qed.

Section R.
Variable g : cfg.
Notation v := (g_ver g).

Lemma skipn_app_exact {A} (l m : list A) n : length l = n -> skipn n (l ++ m) = m.
Proof. intros <-. rewrite skipn_app, skipn_all, Nat.sub_diag. reflexivity. Qed.

Lemma validate_core_step v0 fuel send slots sh s1 rslot s2 :
  send = sh :: s1 -> slots = rslot :: s2 ->
  validate_core (S fuel) v0 send slots =
          match extract_header v0 sh with
          | None => VErr VUnparsable
          | Some hs =>
              match extract_header v0 (slot_word rslot) with
              | None => VErr VUnparsable
              | Some hr =>
                  if negb (h_id hs =? h_id hr)
                     || negb (ttype_eqb (h_type hs) (h_type hr))
                  then VErr VFields
                  else if negb (h_info hr =? 0) then VErr VInfoCode
                  else
                    let ns := N.to_nat (send_advance (h_type hs) (h_wc hs)) in
                    let nr := reply_advance (h_type hr) in
                    if Nat.ltb (length send) ns || Nat.ltb (length slots) nr
                    then VBad
                    else
                      let send' := skipn ns send in
                      let slots' := skipn nr slots in
                      match send', slots' with
                      | _ :: _, _ :: _ => validate_core fuel v0 send' slots'
                      | _, _ => VOk
                      end
              end
          end.
Proof. intros -> ->. reflexivity. Qed.

Lemma validate_core_fault : forall xs fuel ws,
  xs <> [] -> (length xs <= fuel)%nat -> Forall (wf_tx v) xs ->
  exists r, first_fault v (map to_w xs) ws r /\
    validate_core fuel v (flat_map (enc v) xs) (scatter (flat_map dsts xs) ws) =
    match r with None => VOk | Some e => VErr e end.
Proof.
  induction xs as [|x t IH]; intros fuel ws N0 L F; [congruence|].
  inversion F as [|? ? Wx Wt]; subst. destruct fuel as [|fuel]; [cbn in L; lia|].
  cbn [flat_map map]. set (E := enc v x ++ flat_map (enc v) t).
  set (SL := scatter (dsts x ++ flat_map dsts t) ws).
  assert (HE : E = hdrw v (x_type x) (x_wc x) (x_id x) :: x_body x ++ flat_map (enc v) t) by reflexivity.
  assert (HS : SL = (DHdr, firstn 1 ws) :: scatter (x_dst x ++ flat_map dsts t) (skipn 1 ws)) by reflexivity.
  rewrite (validate_core_step v fuel E SL _ _ _ _ HE HS).
  assert (EX := hdrw_extract unit (fun d _ => (d, 0)) (fun d _ _ => d) (fun d _ => (d, 0)) v (x_type x) (x_wc x) (x_id x)).
  destruct Wx as (T & C & Hd). assert (Wx : wf_tx v x) by (split; [|split]; assumption).
  specialize (EX T C). rewrite EX.
  unfold slot_word at 1. cbn [snd]. rewrite hd_firstn1.
  destruct (extract_header v (hd 0 ws)) as [hr|] eqn:ER.
  2:{ exists (Some VUnparsable). split; [|reflexivity]. apply ff_here. apply hf_parse.
      rewrite is_header_extract. intros (y & Y). congruence. }
  destruct (extract_word v _ _ ER) as (IH1 & IT & II & IF).
  cbn [h_id h_type h_wc].
  assert (IDM : id_mod v = spec_ids v) by (destruct v; reflexivity).
  destruct (negb (x_id x mod id_mod v =? h_id hr) || negb (ttype_eqb (x_type x) (h_type hr))) eqn:EQ.
  { exists (Some VFields). split; [|reflexivity]. apply ff_here. apply hf_fields; [exact IH1|].
    cbn [to_w wt_type wt_id]. apply orb_true_iff in EQ. destruct EQ as [EQ|EQ].
    - right. rewrite <- II, <- IDM. apply negb_true_iff, N.eqb_neq in EQ. congruence.
    - left. intros Q. apply negb_true_iff in EQ.
      assert (x_type x = h_type hr) by (eapply spec_type_inj; eassumption).
      apply ttype_eqb_spec in H. congruence. }
  apply orb_false_iff in EQ. destruct EQ as (EQ1 & EQ2).
  apply negb_false_iff in EQ1, EQ2. apply N.eqb_eq in EQ1. apply ttype_eqb_spec in EQ2.
  assert (M1 : spec_type v (wt_type (to_w x)) = Some (word_type v (hd 0 ws)))
    by (cbn [to_w wt_type]; rewrite EQ2; exact IT).
  assert (M2 : word_id v (hd 0 ws) = wt_id (to_w x) mod spec_ids v)
    by (cbn [to_w wt_id]; rewrite <- II, <- IDM; congruence).
  destruct (negb (h_info hr =? 0)) eqn:EI.
  { exists (Some VInfoCode). split; [|reflexivity]. apply ff_here. apply hf_info; trivial.
    rewrite <- IF. apply negb_true_iff, N.eqb_neq in EI. exact EI. }
  apply negb_false_iff, N.eqb_eq in EI.
  assert (M : hfault v (to_w x) (hd 0 ws) None).
  { apply hf_none. split; [exact IH1|]. split; [exact M1|]. split; [exact M2|]. rewrite <- IF. exact EI. }
  assert (SA : N.to_nat (send_advance (x_type x) (x_wc x)) = length (enc v x)).
  { rewrite (send_advance_enc unit (fun d _ => (d, 0)) (fun d _ _ => d) (fun d _ => (d, 0)) (fun _ d _ _ => (d, 0)) v x Wx). reflexivity. }
  rewrite <- EQ2. rewrite SA, reply_advance_dst.
  assert (SE : skipn (length (enc v x)) E = flat_map (enc v) t) by (apply skipn_app_exact; reflexivity).
  assert (SS : skipn (length (dsts x)) SL = scatter (flat_map dsts t) (skipn (N.to_nat (dests_words (dsts x))) ws)).
  { unfold SL. rewrite scatter_app. apply skipn_app_exact. apply scatter_length. }
  assert (DR : dests_words (dsts x) = reply_words (wt_type (to_w x)) (wt_count (to_w x)))
    by (apply (dsts_reply g); exact Wx).
  rewrite SE, SS, DR.
  replace (Nat.ltb (length E) (length (enc v x))) with false
    by (symmetry; apply Nat.ltb_ge; unfold E; rewrite app_length; lia).
  replace (Nat.ltb (length SL) (length (dsts x))) with false
    by (symmetry; apply Nat.ltb_ge; unfold SL; rewrite scatter_length, app_length; lia).
  cbn [orb].
  set (ws' := skipn (N.to_nat (reply_words (wt_type (to_w x)) (wt_count (to_w x)))) ws) in *.
  destruct t as [|x' t'].
  - exists None. split; [|reflexivity]. apply ff_later; [exact M|]. constructor.
  - destruct (IH fuel ws') as (r & R1 & R2); [discriminate|cbn in *; lia|exact Wt|].
    exists r. split; [apply ff_later; assumption|].
    cbn [flat_map] in R2 |- *. unfold enc at 1. unfold dsts at 1. cbn [app scatter].
    unfold enc at 1 in R2. unfold dsts at 1 in R2. cbn [app scatter] in R2. exact R2.
Qed.

Lemma validate_ipbus_fault xs ws : xs <> [] -> Forall (wf_tx v) xs ->
  (v = V2 /\ [hd 0 ws] <> packet_header V2 /\
   validate_ipbus v (pkw g ++ flat_map (enc v) xs) (scatter (pkd g ++ flat_map dsts xs) ws) = VErr VPacketHeader) \/
  ((v = V2 -> [hd 0 ws] = packet_header V2) /\ exists r,
   first_fault v (map to_w xs) (skipn (length (packet_header v)) ws) r /\
   validate_ipbus v (pkw g ++ flat_map (enc v) xs) (scatter (pkd g ++ flat_map dsts xs) ws) =
   match r with None => VOk | Some e => VErr e end).
Proof.
  intros N0 F. assert (L : (length xs <= length (flat_map (enc v) xs))%nat).
  { clear. induction xs; cbn; [lia|]. rewrite app_length. lia. }
  unfold validate_ipbus, pkw, pkd. destruct v eqn:V.
  - right. split; [discriminate|]. cbn [app].
    assert (X := validate_core_fault xs (length (flat_map (enc V1) xs)) ws N0). rewrite V in X.
    apply X; assumption.
  - cbn [app scatter dest_words]. change (N.to_nat 1) with 1%nat.
    unfold slot_word at 1 2. cbn [snd]. rewrite hd_firstn1.
    destruct (N.eqb_spec 0x200000F0 (hd 0 ws)) as [E|E].
    + right. cbn [negb]. split; [intros _; rewrite <- E; reflexivity|].
      assert (X := validate_core_fault xs (length (flat_map (enc V2) xs)) (skipn 1 ws) N0). rewrite V in X.
      cbn [packet_header length]. apply X; assumption.
    + left. cbn [negb]. split; [reflexivity|]. split; [|reflexivity].
      intros Q. apply E. injection Q as ->. reflexivity.
Qed.

Lemma nth_hd_skipn (ws : list N) n : nth n ws 0 = hd 0 (skipn n ws).
Proof. revert ws. induction n as [|n IH]; intros [|w t]; cbn; auto. Qed.

Lemma receive_verdict h b ws :
  snd (receive_packet g h b ws) = validate_packet g b (scatter (b_reply b) ws).
Proof. unfold receive_packet. destruct (validate_packet g b (scatter (b_reply b) ws)); reflexivity. Qed.

Lemma receive_fault b p h ws : repr_out g b p -> wf_pk g p -> fst p <> [] ->
  exists r, packet_fault g (map to_w (fst p)) ws r /\
    snd (receive_packet g h b ws) = match r with None => VOk | Some e => VErr e end.
Proof.
  intros ((hw & HW & S) & R & V) (W & _) N0. destruct p as [xs vals]. cbn [fst snd] in *.
  rewrite receive_verdict. unfold validate_packet. rewrite R, S.
  unfold hub_ok, hubd in *. destruct (g_hub g) as [[ip port]|] eqn:H.
  - destruct HW as (w & -> & Hw & _). cbn [app scatter dest_words]. change (N.to_nat 1) with 1%nat.
    unfold slot_word. cbn [snd]. rewrite !hd_firstn1, !skipn_skipn. cbn [plus].
    rewrite <- !nth_hd_skipn.
    destruct (N.eqb_spec (nth 1 ws 0) ip) as [E1|E1]; cbn [negb].
    2:{ exists (Some VHubAddress). split; [|reflexivity]. apply (pf_addr _ _ _ ip port H). auto. }
    destruct (N.eqb_spec (nth 2 ws 0 mod 65536) port) as [E2|E2]; cbn [negb].
    2:{ exists (Some VHubAddress). split; [|reflexivity]. apply (pf_addr _ _ _ ip port H). auto. }
    rewrite hub_code_swap. destruct (N.eqb_spec (hub_code ws) 0) as [E3|E3]; cbn [negb].
    2:{ eexists. split; [apply (pf_code _ _ _ ip port H E1 E2 E3)|].
        destruct ((hub_code ws =? 1) || (hub_code ws =? 3) || (hub_code ws =? 4)); reflexivity. }
    assert (HH : forall ip0 port0, g_hub g = Some (ip0, port0) ->
      nth 1 ws 0 = ip0 /\ nth 2 ws 0 mod 65536 = port0 /\ hub_code ws = 0).
    { intros i0 p0 Q. rewrite H in Q. injection Q as <- <-. auto. }
    assert (HN : hub_words g = 3%nat) by (unfold hub_words; rewrite H; reflexivity).
    destruct (validate_ipbus_fault xs (skipn 3 ws) N0 W) as [(V2e & P & E)|(P & r & F & E)].
    + exists (Some VPacketHeader). split; [|exact E]. apply pf_packet; [exact HH|exact V2e|].
      rewrite HN, nth_hd_skipn. exact P.
    + exists r. split; [|exact E]. apply pf_core; [exact HH| |].
      * rewrite HN, nth_hd_skipn. exact P.
      * rewrite HN. rewrite skipn_skipn in F. rewrite Nat.add_comm. exact F.
  - subst hw. cbn [app].
    assert (HH : forall ip0 port0, g_hub g = Some (ip0, port0) ->
      nth 1 ws 0 = ip0 /\ nth 2 ws 0 mod 65536 = port0 /\ hub_code ws = 0) by congruence.
    assert (HN : hub_words g = 0%nat) by (unfold hub_words; rewrite H; reflexivity).
    destruct (validate_ipbus_fault xs ws N0 W) as [(V2e & P & E)|(P & r & F & E)].
    + exists (Some VPacketHeader). split; [|exact E]. apply pf_packet; [exact HH|exact V2e|].
      rewrite HN, nth_hd_skipn. exact P.
    + exists r. split; [|exact E]. apply pf_core; [exact HH| |].
      * rewrite HN, nth_hd_skipn. exact P.
      * rewrite HN. exact F.
Qed.

Lemma reply_matches_at v0 xs : forall ws, reply_matches v0 xs ws <->
  forall i x, nth_error xs i = Some x -> header_matches v0 x
    (nth (N.to_nat (fold_right (fun x n => reply_words (wt_type x) (wt_count x) + n) 0 (firstn i xs))) ws 0).
Proof.
  induction xs as [|x t IH]; intros ws; cbn [reply_matches].
  - split; [intros _ [|i] x; discriminate|trivial].
  - rewrite IH. split.
    + intros (A & B) [|i] y E; cbn [nth_error firstn fold_right] in *.
      * injection E as <-. change (N.to_nat 0) with 0%nat. destruct ws; exact A.
      * specialize (B i y E). rewrite nth_hd_skipn, skipn_skipn in B. rewrite nth_hd_skipn.
        rewrite Nat.add_comm, <- N2Nat.inj_add in B. exact B.
    + intros H. split.
      * specialize (H O x eq_refl). destruct ws; exact H.
      * intros i y E. specialize (H (S i) y E). cbn [firstn fold_right] in H.
        rewrite nth_hd_skipn in H. rewrite nth_hd_skipn, skipn_skipn, Nat.add_comm, <- N2Nat.inj_add. exact H.
Qed.

Lemma answers_iff xs ws : packet_fault g xs ws None <-> answers g xs ws.
Proof.
  unfold answers, reply_offset.
  assert (Q : first_fault v xs (skipn (hub_words g + length (packet_header v)) ws) None <->
    forall i x, nth_error xs i = Some x -> header_matches v x
      (nth (hub_words g + length (packet_header v) +
            N.to_nat (fold_right (fun x n => reply_words (wt_type x) (wt_count x) + n) 0 (firstn i xs))) ws 0)).
  { rewrite first_fault_none, reply_matches_at. split; intros H i x E; specialize (H i x E).
    - rewrite nth_hd_skipn, skipn_skipn in H. rewrite nth_hd_skipn, Nat.add_comm. exact H.
    - rewrite nth_hd_skipn, skipn_skipn. rewrite nth_hd_skipn, Nat.add_comm in H. exact H. }
  split.
  - intros H. inversion H; subst. split; [assumption|]. split; [assumption|]. apply Q. assumption.
  - intros (A & B & C). apply pf_core; [exact A|exact B|apply Q, C].
Qed.

Lemma faulty_not_answers xs ws e : packet_fault g xs ws (Some e) -> ~ answers g xs ws.
Proof.
  intros H (A & B & C). inversion H; subst.
  - match goal with Q : g_hub g = Some _ |- _ => destruct (A _ _ Q) as (A1 & A2 & _) end. tauto.
  - match goal with Q : g_hub g = Some _ |- _ => destruct (A _ _ Q) as (_ & _ & A3) end. tauto.
  - auto.
  - match goal with F : first_fault _ _ _ (Some e) |- _ => apply (first_fault_some _ _ _ _ F) end.
    apply first_fault_none. assert (X : packet_fault g xs ws None).
    { apply answers_iff. split; [exact A|]. split; assumption. }
    inversion X; assumption.
Qed.

(** Acceptance, in one statement. *)
Lemma receive_answers b p h ws : repr_out g b p -> wf_pk g p -> fst p <> [] ->
  (snd (receive_packet g h b ws) = VOk <-> answers g (map to_w (fst p)) ws) /\
  snd (receive_packet g h b ws) <> VBad.
Proof.
  intros R W N0. destruct (receive_fault b p h ws R W N0) as ([e|] & F & E); rewrite E.
  - split; [|discriminate]. split; [discriminate|]. intros A. destruct (faulty_not_answers _ _ _ F A).
  - split; [|discriminate]. split; [|reflexivity]. intros _. apply answers_iff, F.
Qed.
End R.
