(** One round of the recovery in [Hub.v] without a loss. *)
From Coq Require Import NArith ZArith List Bool Lia PeanoNat ZifyBool ZifyNat ZifyN.
From Verif Require Import Hub HubSpec HubProofs HubInv.
Import ListNotations.
Open Scope N_scope.

Lemma nth_mid {A} (l : list A) x t : nth_error (l ++ x :: t) (length l) = Some x.
Proof. rewrite nth_error_app2, Nat.sub_diag by lia. reflexivity. Qed.
Lemma drop_mid {A} (l : list A) x t : drop (length l) (l ++ x :: t) = l ++ t.
Proof.
  unfold drop. rewrite firstn_app, Nat.sub_diag, firstn_all. cbn [firstn]. rewrite app_nil_r. f_equal.
  rewrite skipn_app. rewrite skipn_all2 by lia. replace (S (length l) - length l)%nat with 1%nat by lia. reflexivity.
Qed.

(** The status request is delivered, then its reply, then the first of the packets
    sent again or asked for again, then its reply; [u], [d]: where they are. *)
Definition round (u d : nat) : list label := [LUp u false; LDown d false; LUp u false; LDown d false].

Section R.
Variable D : Type.
Variable exec : D -> bytes -> D * bytes.
Variable hack : bool.
Variable depth absmax : nat.
Hypothesis D1 : (1 <= depth)%nat.
Notation K := (window depth absmax).
Hypothesis SMALL : N.of_nat (K + depth) < 65534.
Variable d0 : D.
Variable b : N.
Hypothesis B : id_ok b.
Notation step := (step D exec hack depth absmax).
Notation run := (run D exec hack depth absmax).
Notation receive := (receive D exec hack depth).
Notation world := (world D).

Lemma up_first (w : world) u g t v r x : w_up D w = u ++ g :: t -> receive (w_dev D w) (g_bytes g) = (v, r, x) ->
  step w (LUp (length u) false) =
  Some (mkW _ (w_hub D w) (w_sock D w) (w_sent D w) (u ++ t) (w_down D w ++ match r with Some p => [mkDg (g_sock g) (w_sent D w) p] | None => [] end) v,
        match x with Some (b, r) => [EExec b r] | None => [] end).
Proof using. intros U R. cbn [Hub.step]. rewrite U, nth_mid, R, drop_mid. reflexivity. Qed.
Lemma down_last (w : world) d g o : w_down D w = d ++ [g] -> g_sock g = w_sock D w -> recv absmax (w_hub D w) (g_bytes g) = Some o ->
  step w (LDown (length d) false) = Some (apply_hub _ (mkW _ (w_hub D w) (w_sock D w) (w_sent D w) (w_up D w) d (w_dev D w)) o).
Proof using. intros U S R. cbn [Hub.step]. rewrite U, nth_mid, S, Nat.eqb_refl, R, drop_mid, app_nil_r. reflexivity. Qed.

(** The target answers the repeated packet of the oldest request in flight. *)
Lemma repeat_answer w tr m n f : inv D exec hack depth absmax d0 b w tr m n -> nth_error (sent tr) m = Some f ->
  let t := if idn b n =? idn b m then LRequest else LResponse in
  exists v r x, receive (w_dev D w) (match t with LRequest => f_hdr f ++ f_body f | LResponse => resend_pkt (f_hdr f) end) = (v, Some (f_hdr f ++ r), x) /\
    nth_error (execs tr ++ execs (match x with Some (b, r) => [EExec b r] | None => [] end)) m = Some (f_body f, r) /\ x = (if Nat.eqb n m then Some (f_body f, r) else None).
Proof using D1 SMALL B.
  intros I F t. assert (LAG : N.of_nat (0 + K + depth) < 65534) by lia.
  assert (X : length (execs tr) = n) by (eapply inv_execs with (lag := 0%nat); eauto). destruct I. assert (FH := i_hdr m f F). assert (ML : (m < length (sent tr))%nat) by (apply nth_error_Some; congruence).
  unfold t. destruct (N.eqb_spec (idn b n) (idn b m)) as [E|E].
  - apply idn_inj in E; [|lia|lia]. subst m. rewrite FH. setoid_rewrite receive_ctl; [|apply idn_ok]. rewrite i_next, N.eqb_refl.
    destruct (exec (v_d D (w_dev D w)) (f_body f)) as [d r]. eexists _, r, _. split; [reflexivity|]. cbn [execs flat_map app].
    rewrite nth_error_app2 by (rewrite X; lia). rewrite X, Nat.sub_diag, Nat.eqb_refl. auto.
  - assert (MN : (m < n)%nat) by (destruct (Nat.eq_dec m n); [subst; congruence|lia]).
    assert (WD : (K <= depth)%nat) by (unfold window; lia).
    assert (FR : exists r, find_reply (v_hist D (w_dev D w)) (idn b m) = Some (f_hdr f ++ r) /\ nth_error (map snd (execs tr)) m = Some r).
    { unfold find_reply. destruct (find _ _) as [[id q]|] eqn:FI.
      - apply find_some in FI. destruct FI as (FI & ID). cbn [fst] in ID. apply N.eqb_eq in ID. subst id. apply In_nth_error in FI. destruct FI as (j & FI).
        assert (JL : (j < depth)%nat) by (rewrite <- i_len, <- rev_length; apply nth_error_Some; congruence).
        destruct (i_hist _ _ _ FI) as [(H1 & H2 & f' & r' & H3 & H4 & H5)|(H1 & [H2|(j' & H2 & H3)])].
        + apply idn_inj in H2; [|lia|lia]. rewrite <- H2 in *. rewrite F in H3. injection H3 as <-. exists r'. cbn. rewrite H5. auto.
        + pose proof (idn_ok b m) as [? ?]. lia.
        + exfalso. apply (dec_ids_far b j' m B); [lia|symmetry; exact H3].
      - exfalso. assert (NI : (n - 1 - m < length (rev (v_hist D (w_dev D w))))%nat) by (rewrite rev_length, i_len; lia).
        apply nth_error_Some in NI. destruct (nth_error (rev (v_hist D (w_dev D w))) (n - 1 - m)) as [[id q]|] eqn:NE; [|congruence].
        destruct (i_hist _ _ _ NE) as [(H1 & H2 & _)|(H1 & _)]; [|lia].
        apply find_none with (x := (id, q)) in FI; [|eapply nth_error_In, NE]. cbn [fst] in FI. subst id. replace (n - 1 - (n - 1 - m))%nat with m in FI by lia. rewrite N.eqb_refl in FI. discriminate. }
    destruct FR as (r & FR & NR). rewrite FH in *. setoid_rewrite receive_resend; [|apply idn_ok]. rewrite FR. eexists _, r, _. split; [reflexivity|].
    cbn [execs flat_map]. rewrite app_nil_r. replace (Nat.eqb n m) with false by lia. split; [|reflexivity].
    assert (NB : nth_error (map fst (execs tr)) m = Some (f_body f)).
    { rewrite i_ex. assert (NF : nth_error (map f_body (sent tr)) m = Some (f_body f)) by (apply map_nth_error, F).
      rewrite <- (firstn_skipn n (map f_body (sent tr))) in NF. rewrite nth_error_app1 in NF; [exact NF|]. rewrite firstn_length, map_length. lia. }
    rewrite nth_error_map in NB, NR. destruct (nth_error (execs tr) m) as [[b0 r0]|]; [|discriminate]. injection NB as NB. injection NR as NR. subst. reflexivity.
Qed.

Theorem recover w tr m n u f fl k togo : inv D exec hack depth absmax d0 b w tr m n ->
  h_mode (w_hub D w) = MStat k togo -> h_fl (w_hub D w) = f :: fl -> w_up D w = u ++ [mkDg (w_sock D w) (w_sent D w) status_req] ->
  exists w2 e r, run w (round (length u) (length (w_down D w))) = Some (w2, e) /\
    along step (timely hack 0) w (round (length u) (length (w_down D w))) /\
    answers e = [(f_pid f, f_orig f ++ r)] /\ sent e = [] /\ execs e = (if Nat.eqb n m then [(f_body f, r)] else []) /\
    nth_error (execs (tr ++ e)) m = Some (f_body f, r) /\
    h_mode (w_hub D w2) = MLoop /\ h_fl (w_hub D w2) = fl.
Proof using D1 SMALL B.
  intros I MD FL UP. assert (LAG : N.of_nat (0 + K + depth) < 65534) by lia.
  assert (DB : N.of_nat depth < 2 ^ 32) by (change (2 ^ 32) with 4294967296; lia).
  pose proof (i_mode _ _ _ _ _ _ _ _ _ _ _ I) as MO. unfold mode_ok in MO. rewrite MD in MO. destruct MO as (FS & NX & MX).
  assert (FS' := FS). rewrite FL in FS'. symmetry in FS'. apply skipn_cons in FS'. destruct FS' as (F & FS').
  assert (FH := i_hdr _ _ _ _ _ _ _ _ _ _ _ I m f F). pose proof (i_win _ _ _ _ _ _ _ _ _ _ _ I) as WN. pose proof (i_mn _ _ _ _ _ _ _ _ _ _ _ I) as MN.
  assert (ML : (m < length (sent tr))%nat) by (apply nth_error_Some; congruence).
  assert (RS : receive (w_dev D w) status_req = (w_dev D w, Some (status_with depth (idn b n)), None)).
  { rewrite receive_status. unfold status_reply, status_with. rewrite (i_next _ _ _ _ _ _ _ _ _ _ _ I). reflexivity. }
  assert (S1 := up_first w u _ [] _ _ _ UP RS). cbn [g_sock] in S1. rewrite app_nil_r in S1.
  set (w1 := mkW _ (w_hub D w) (w_sock D w) (w_sent D w) u (w_down D w ++ [mkDg (w_sock D w) (w_sent D w) (status_with depth (idn b n))]) (w_dev D w)) in S1.
  set (t := if idn b n =? idn b m then LRequest else LResponse).
  assert (RV : recv absmax (w_hub D w1) (status_with depth (idn b n)) = Some (set_mode (w_hub D w) (MWait k t), repeat_pkts (w_hub D w) t, [])).
  { unfold w1. cbn [w_hub]. unfold recv. rewrite MD, hdr_status_with. change (same [0x20; 0; 0; 0xF1] [0x20; 0; 0; 0xF1]) with true. cbn beta iota.
    rewrite parse_status_with by (try apply idn_ok; assumption).
    assert (DI : dec_ids (h_next (w_hub D w)) (length (h_fl (w_hub D w))) = idn b m).
    { rewrite NX, FS, skipn_length. replace (length (sent tr)) with (m + (length (sent tr) - m))%nat at 1 by lia. apply dec_ids_idn. }
    rewrite DI. fold t. rewrite FL. reflexivity. }
  assert (S2 := down_last w1 (w_down D w) (mkDg (w_sock D w) (w_sent D w) (status_with depth (idn b n))) _ eq_refl eq_refl RV).
  destruct (repeat_answer w tr m n f I F) as (v & r & x & RP & EX & XE). fold t in RP.
  assert (RQ : exists rest, repeat_pkts (w_hub D w) t = match t with LRequest => f_hdr f ++ f_body f | LResponse => resend_pkt (f_hdr f) end :: rest).
  { unfold repeat_pkts. rewrite FL. destruct t; eexists; reflexivity. }
  destruct RQ as (rest & RQ). rewrite RQ in S2. unfold apply_hub in S2. cbn [sends filter length map] in S2. unfold w1 in S2. cbn [w_hub w_sock w_sent w_up w_dev] in S2. rewrite Nat.add_0_r in S2. fold w1 in S2.
  match type of S2 with _ = Some (?x, _) => set (w2 := x) in S2 end.
  assert (S3 := up_first w2 u (mkDg (w_sock D w) (w_sent D w) match t with LRequest => f_hdr f ++ f_body f | LResponse => resend_pkt (f_hdr f) end) _ v (Some (f_hdr f ++ r)) x eq_refl RP).
  cbn [g_sock] in S3. unfold w2 in S3 at 2 3 4 5. cbn [w_hub w_sock w_sent w_down] in S3.
  match type of S3 with _ = Some (?x, _) => set (w3 := x) in S3 end.
  assert (RF : recv absmax (w_hub D w3) (f_hdr f ++ r) = Some (mkHub MLoop (h_next (w_hub D w)) fl (h_max (w_hub D w)) (h_box (w_hub D w)), [], [VResp (f_pid f) E_OK (f_orig f ++ r)])).
  { assert (SM : same (f_hdr f) (f_hdr f) = true) by (apply same_spec; reflexivity).
    unfold w3. cbn [w_hub]. unfold recv, set_mode. cbn [h_mode h_fl]. rewrite FL. rewrite FH at 1. rewrite hdr_ctl, <- FH, SM. unfold forward_reply. cbn [h_fl].
    destruct (Nat.ltb_spec (length (f_hdr f ++ r)) 4) as [L|_].
    { exfalso. destruct (ctl_header_form (idn b m) (order hack)) as (? & ? & ? & ? & E). rewrite FH, E in L. cbn in L. lia. }
    rewrite FH at 1. rewrite hdr_ctl, <- FH, SM. rewrite FH, body_ctl. reflexivity. }
  assert (S4 := down_last w3 (w_down D w) (mkDg (w_sock D w) (w_sent D w) (f_hdr f ++ r)) _ eq_refl eq_refl RF).
  match type of S4 with _ = Some (apply_hub _ ?a ?o) => set (w4 := fst (apply_hub D a o)) end.
  exists w4, (match x with Some (b, r) => [EExec b r] | None => [] end ++ [EHub (VResp (f_pid f) E_OK (f_orig f ++ r))]), r.
  assert (RN : run w (round (length u) (length (w_down D w))) = Some (w4, match x with Some (b, r) => [EExec b r] | None => [] end ++ [EHub (VResp (f_pid f) E_OK (f_orig f ++ r))])).
  { unfold round. cbn [Hub.run]. rewrite S1. change (length (w_down D w)) with (length (w_down D w)). rewrite S2, S3, S4. reflexivity. }
  split; [exact RN|].
  assert (AN : forall y, answers (match x with Some (b, r) => [EExec b r] | None => [] end ++ y) = answers y) by (intros y; destruct x as [[? ?]|]; reflexivity).
  assert (SN : forall y, sent (match x with Some (b, r) => [EExec b r] | None => [] end ++ y) = sent y) by (intros y; destruct x as [[? ?]|]; reflexivity).
  rewrite AN, SN. split.
  { unfold round. cbn [along]. rewrite S1, S2, S3, S4. split; [|split; [|split; [|split]]].
    - intros g G. rewrite UP, nth_mid in G. injection G as <-. cbn [g_sock g_born]. split; [reflexivity|lia].
    - intros g G. unfold w1 in G. cbn [w_down] in G. rewrite nth_mid in G. injection G as <-. unfold w1. cbn [w_sent g_born]. lia.
    - intros g G. unfold w2 in G. cbn [w_up] in G. rewrite nth_mid in G. injection G as <-. unfold w2. cbn [w_sent w_sock g_sock g_born]. split; [reflexivity|lia].
    - intros g G. unfold w3 in G. cbn [w_down] in G. rewrite nth_mid in G. injection G as <-. unfold w3. cbn [w_sent g_born]. lia.
    - destruct (apply_hub _ _ _). exact Logic.I. }
  split; [reflexivity|]. split; [reflexivity|]. split; [rewrite XE; destruct (Nat.eqb n m); reflexivity|]. split; [|split; reflexivity].
  rewrite !execs_app. change (execs [EHub (VResp (f_pid f) E_OK (f_orig f ++ r))]) with (@nil (bytes * bytes)). rewrite app_nil_r. exact EX.
Qed.
End R.
