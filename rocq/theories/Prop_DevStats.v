(** C112: statistics of device clients. *)
From Coq Require Import NArith List Bool PeanoNat Lia ZifyBool ZifyNat.
From Verif Require Import Hub Hub13 DevStats DevStatsSpec.
Import ListNotations.
Open Scope nat_scope.

(** ** One device client *)
Definition cnt (c : ctr) (l : list ctr) : nat := length (filter (ctr_eqb c) l).
Lemma cnt_app c a b : cnt c (a ++ b) = cnt c a + cnt c b.
Proof. unfold cnt. rewrite filter_app, app_length. reflexivity. Qed.
Lemma cnt_sent {A} (l : list A) : cnt CSent (map (fun _ => CSent) l) = length l.
Proof. induction l; cbn; auto. Qed.
Lemma cnt_other {A} c (l : list A) : c <> CSent -> cnt c (map (fun _ => CSent) l) = 0.
Proof. intros H. induction l; [reflexivity|]. destruct c; try congruence; exact IHl. Qed.

Record good (p : proc) (l : dlab) (p' : proc) (ps : list bytes) (vs : list hev) (cs : list ctr) : Prop := mkGood {
  g_kind : is20 p' = is20 p;
  g_sent : cnt CSent cs = length ps;
  g_rcvd : b2n (used l ps vs) <= cnt CRcvd cs <= b2n (used l ps vs) + b2n (over p');
  g_recov : cnt CRecovered cs + b2n (recovering p') <= b2n (recovering p) + cnt CNormal cs <= cnt CRecovered cs + b2n (recovering p') + b2n (over p');
  g_lost : cnt CLostReq cs + cnt CLostResp cs + b2n (asking p') <= b2n (asking p) + cnt CNormal cs <= cnt CLostReq cs + cnt CLostResp cs + b2n (asking p') + b2n (over p');
  g_time : is20 p = true -> cnt CNormal cs + cnt CResend cs + cnt CStatus cs <= b2n (match l with DTime => true | _ => false end) <= cnt CNormal cs + cnt CResend cs + cnt CStatus cs + b2n (over p') }.

Ltac fin := cbn; repeat rewrite ?existsb_app, ?orb_true_r, ?cnt_app, ?cnt_sent; cbn; try lia.

Lemma good_cast h r p' ps vs cs absmax : pstep absmax (P20 h) (DCast r) = Some (p', ps, vs, cs) -> good (P20 h) (DCast r) p' ps vs cs.
Proof. intros Q. cbn in Q. injection Q as <- <- <- <-. split; cbn; try reflexivity; destruct (h_mode h) as [| | |[|k] togo| |]; cbn; lia. Qed.

Lemma send_good h r (P : outcome -> Prop) :
  (forall h', h_mode h' = MDead \/ h_mode h' = h_mode h -> forall ps vs, length ps = cnt CSent (send_ctrs r) ->
     (length ps = 0 -> exists q c b, vs = [VResp q c b]) -> P (h', ps, vs)) -> P (send_request h r).
Proof.
  intros H. unfold send_request, send_ctrs in *. destruct (parse_ctl (q_pkt r)).
  - destruct (N.eqb (h_next h) 0).
    + cbn. apply H; cbn; auto. discriminate.
    + apply H; cbn; auto. discriminate.
  - apply H; cbn; auto. intros _. eauto.
Qed.
Lemma send_ctrs_is r : send_ctrs r = [CSent] \/ send_ctrs r = [].
Proof. unfold send_ctrs. destruct (parse_ctl (q_pkt r)); auto. Qed.

Lemma good_take absmax h p' ps vs cs : pstep absmax (P20 h) DTake = Some (p', ps, vs, cs) -> good (P20 h) DTake p' ps vs cs.
Proof.
  cbn [pstep]. unfold take, take_ctrs. destruct (h_box h) as [|r t]; [discriminate|]. destruct (h_mode h) eqn:M; try discriminate.
  - destruct (first_version (q_pkt r)) as [v2|]; cbn; intros Q; injection Q as <- <- <- <-; split; cbn; rewrite ?M; cbn; try reflexivity; try lia.
  - destruct (Nat.ltb (length (h_fl h)) (h_max h)); [|discriminate]. intros Q.
    pose proof (send_ctrs_is r) as SC.
    revert Q. apply (send_good _ _ (fun o => out20 (Some o) (send_ctrs r) = Some (p', ps, vs, cs) -> good (P20 h) DTake p' ps vs cs)).
    intros h' M' ps0 vs0 L _ Q. cbn in Q. injection Q as <- <- <- <-. cbn in M'.
    destruct SC as [SC|SC]; rewrite SC in *; destruct M' as [M'|M'];
      split; cbn in L |- *; rewrite ?M', ?M; cbn; try reflexivity; try lia.
Qed.

Lemma good_time absmax h p' ps vs cs : pstep absmax (P20 h) DTime = Some (p', ps, vs, cs) -> good (P20 h) DTime p' ps vs cs.
Proof.
  cbn [pstep]. unfold expire, expire_ctrs. destruct (h_mode h) eqn:M; try discriminate.
  - destruct (Nat.leb togo 1).
    + cbn. intros Q; injection Q as <- <- <- <-; split; cbn; rewrite ?M; cbn; try reflexivity; try lia.
    + destruct v2; cbn; intros Q; injection Q as <- <- <- <-; split; cbn; rewrite ?M; cbn; try reflexivity; try lia.
  - destruct (Nat.ltb_spec (length (h_fl h)) (h_max h)).
    + destruct (h_box h) as [|r t]; [|discriminate]. destruct (h_fl h) as [|f fl] eqn:FL.
      * destruct (Nat.ltb_spec 0 (h_max h)); [|cbn in *; lia]. cbn; intros Q; injection Q as <- <- <- <-; split; cbn; rewrite ?M; cbn; try reflexivity; try lia.
      * cbn; intros Q; injection Q as <- <- <- <-; split; cbn; rewrite ?M; cbn; try reflexivity; try lia.
    + destruct (h_fl h) as [|f fl] eqn:FL.
      * destruct (Nat.ltb_spec 0 (h_max h)); [cbn in *; lia|]. cbn; intros Q; injection Q as <- <- <- <-; split; cbn; rewrite ?M; cbn; try reflexivity; try lia.
      * cbn; intros Q; injection Q as <- <- <- <-; split; cbn; rewrite ?M; cbn; try reflexivity; try lia.
  - destruct (Nat.leb togo 1); cbn; intros Q; injection Q as <- <- <- <-; split; cbn; rewrite ?M; destruct k; cbn; try reflexivity; try lia.
  - destruct (Nat.eqb (k + 1) 5); cbn; intros Q; injection Q as <- <- <- <-; split; cbn; rewrite ?M; cbn; try reflexivity; replace (k + 1) with (S k) by lia; cbn; try lia.
Qed.

Lemma existsb_resp (l : list pid) code : existsb (fun v => match v with VResp _ _ _ => true | _ => false end) (map (fun p => VResp p code []) l) = negb (Nat.eqb (length l) 0).
Proof. destruct l; reflexivity. Qed.

Lemma forward_good (h : hub) p (P : outcome -> list ctr -> Prop) :
  (forall h' ps vs, (ps = [] /\ ((h' = h /\ vs = [] /\ forward_ctrs h p = []) \/ (h_mode h' = h_mode h /\ (exists q c b, vs = [VResp q c b]) /\ forward_ctrs h p = [CRcvd]) \/ (h_mode h' = MDead /\ vs = [VCrash] /\ forward_ctrs h p = []))) -> P (h', ps, vs) (forward_ctrs h p)) ->
  P (forward_reply h p) (forward_ctrs h p).
Proof.
  intros H. unfold forward_reply, forward_ctrs in *. destruct (h_fl h) as [|f fl]; [apply H; auto|].
  destruct (Nat.ltb (length p) 4); [apply H; split; [reflexivity|]; right; right; repeat split; reflexivity|].
  destruct (same (hdr p) (f_hdr f)); apply H; split; [reflexivity| |reflexivity|left; repeat split; reflexivity]. right. left. split; [reflexivity|]. split; [eauto|reflexivity].
Qed.

Lemma good_in absmax h b p' ps vs cs : pstep absmax (P20 h) (DIn b) = Some (p', ps, vs, cs) -> good (P20 h) (DIn b) p' ps vs cs.
Proof.
  cbn [pstep]. unfold recv, recv_ctrs. destruct (h_mode h) eqn:M; try discriminate.
  - cbn; intros Q; injection Q as <- <- <- <-; split; cbn; rewrite ?M; cbn; try reflexivity; try lia.
  - destruct (same (hdr b) [0x20%N; 0%N; 0%N; 0xF1%N]); [|discriminate]. destruct (parse_status b) as [nbuf next| |].
    + pose proof (send_ctrs_is r) as SC.
      match goal with |- out20 (Some (send_request ?a r)) _ = _ -> _ =>
        apply (send_good a r (fun o => out20 (Some o) (CRcvd :: send_ctrs r) = Some (p', ps, vs, cs) -> good (P20 h) (DIn b) p' ps vs cs)) end.
      intros h' M' ps0 vs0 L W Q. cbn in Q. injection Q as <- <- <- <-. cbn in M'.
      destruct SC as [SC|SC]; rewrite SC in *; cbn in L.
      * destruct M' as [M'|M']; split; cbn; rewrite ?M', ?M, ?L; cbn; try reflexivity; try lia.
      * destruct (W L) as (q & c & d & ->). destruct M' as [M'|M']; split; cbn; rewrite ?M', ?M, ?L; cbn; try reflexivity; try lia.
    + cbn; intros Q; injection Q as <- <- <- <-; split; cbn; rewrite ?M; cbn; try reflexivity; try lia.
    + cbn; intros Q; injection Q as <- <- <- <-; split; cbn; rewrite ?M; cbn; try reflexivity; try lia.
  - apply (forward_good h b (fun o c => out20 (Some o) c = Some (p', ps, vs, cs) -> good (P20 h) (DIn b) p' ps vs cs)).
    intros h' ps0 vs0 (-> & [(-> & -> & ->)|[(M' & (q & c & d & ->) & ->)|(M' & -> & ->)]]) Q; cbn in Q; injection Q as <- <- <- <-;
      split; cbn; rewrite ?M', ?M; cbn; try reflexivity; try lia.
  - destruct (same (hdr b) [0x20%N; 0%N; 0%N; 0xF1%N]); [|discriminate]. destruct (parse_status b) as [nbuf next| |].
    + destruct (h_fl h) as [|f fl] eqn:FL.
      * cbn. destruct k; cbn; [destruct (N.eqb next (h_next h))|]; intros Q; injection Q as <- <- <- <-; split; cbn; rewrite ?M; cbn; try reflexivity; try lia.
      * set (t := if N.eqb next _ then LRequest else LResponse).
        assert (LP : length (repeat_pkts h t) = length (h_fl h)) by (unfold repeat_pkts; destruct t; apply map_length).
        cbn [out20]. intros Q. injection Q as <- <- <- <-. change (CSent :: map (fun _ : flight => CSent) fl) with (map (fun _ : flight => CSent) (f :: fl)). split.
        -- reflexivity.
        -- rewrite LP. change (cnt CSent (CRcvd :: ?l)) with (cnt CSent l). rewrite cnt_app, cnt_sent, FL.
           destruct k; cbn; [|lia]. destruct (N.eqb next _); cbn; lia.
        -- unfold used. rewrite LP, FL. cbn [length Nat.eqb negb orb b2n]. change (cnt CRcvd (CRcvd :: ?l)) with (S (cnt CRcvd l)). rewrite cnt_app, cnt_other by discriminate.
           destruct k; cbn; [destruct (N.eqb next _); cbn; lia|lia].
        -- change (cnt ?c (CRcvd :: ?l)) with (cnt c l). rewrite !cnt_app, !cnt_other by discriminate. cbn. rewrite M.
           destruct k; cbn; [destruct (N.eqb next _); cbn; lia|lia].
        -- change (cnt CLostReq (CRcvd :: ?l)) with (cnt CLostReq l). change (cnt CLostResp (CRcvd :: ?l)) with (cnt CLostResp l). change (cnt CNormal (CRcvd :: ?l)) with (cnt CNormal l).
           rewrite !cnt_app, !cnt_other by discriminate. cbn. rewrite M.
           destruct k; cbn; [destruct (N.eqb next _); cbn; lia|lia].
        -- intros _. change (cnt CResend (CRcvd :: ?l)) with (cnt CResend l). change (cnt CStatus (CRcvd :: ?l)) with (cnt CStatus l). change (cnt CNormal (CRcvd :: ?l)) with (cnt CNormal l).
           rewrite !cnt_app, !cnt_other by discriminate.
           destruct k; cbn; [destruct (N.eqb next _); cbn; lia|lia].
    + cbn. intros Q; injection Q as <- <- <- <-; split; cbn; rewrite ?M, ?existsb_resp; destruct k; cbn; try reflexivity; try lia;
        destruct (Nat.eqb _ 0); cbn; lia.
    + cbn; intros Q; injection Q as <- <- <- <-; split; cbn; rewrite ?M; destruct k; cbn; try reflexivity; try lia.
  - destruct (h_fl h) as [|f fl] eqn:FL; [discriminate|]. destruct (same (hdr b) (f_hdr f)) eqn:SM; [|discriminate].
    unfold forward_reply, forward_ctrs, set_mode. cbn [h_fl h_mode h_next h_max h_box]. rewrite FL, SM.
    destruct (Nat.ltb (length b) 4); cbn; intros Q; injection Q as <- <- <- <-; split; cbn; rewrite ?M; cbn; try reflexivity; try lia.
Qed.

Lemma good_13 absmax h l p' ps vs cs : pstep absmax (P13 h) l = Some (p', ps, vs, cs) -> good (P13 h) l p' ps vs cs.
Proof.
  destruct l as [r| | |b]; cbn [pstep].
  - intros Q; injection Q as <- <- <- <-; split; cbn; try reflexivity; try lia.
  - unfold take13, take_ctrs13. destruct (k_box h) as [|r t]; [discriminate|]. destruct (k_mode h) eqn:M; try discriminate.
    + destruct (first_version (q_pkt r)); cbn; intros Q; injection Q as <- <- <- <-; split; cbn; rewrite ?M; cbn; try reflexivity; try lia.
    + destruct (k_fl h); [discriminate|]. unfold send13, send_ctrs13. destruct (ctl13 (q_pkt r)); cbn; intros Q; injection Q as <- <- <- <-; split; cbn; rewrite ?M; cbn; try reflexivity; try lia.
  - unfold expire13, expire_ctrs13. destruct (k_mode h) eqn:M; try discriminate.
    + destruct (Nat.leb togo 1); [|destruct v2]; cbn; intros Q; injection Q as <- <- <- <-; split; cbn; rewrite ?M; cbn; try reflexivity; try lia; discriminate.
    + destruct (k_fl h) as [[q pk]|]; [|destruct (k_box h); [|discriminate]]; cbn; intros Q; injection Q as <- <- <- <-; split; cbn; rewrite ?M; cbn; try reflexivity; try lia; discriminate.
    + destruct (Nat.eqb (k + 1) 3); cbn; intros Q; injection Q as <- <- <- <-; split; cbn; rewrite ?M; cbn; try reflexivity; try lia; discriminate.
  - unfold recv13, recv_ctrs13. destruct (k_mode h) eqn:M; try discriminate.
    + cbn; intros Q; injection Q as <- <- <- <-; split; cbn; rewrite ?M; cbn; try reflexivity; try lia.
    + destruct (same (hdr b) _); [|discriminate]. unfold send13, send_ctrs13. destruct (ctl13 (q_pkt r)); cbn; intros Q; injection Q as <- <- <- <-; split; cbn; rewrite ?M; cbn; try reflexivity; try lia.
    + unfold forward13, forward_ctrs13. destruct (k_fl h) as [[q pk]|]; cbn; intros Q; injection Q as <- <- <- <-; split; cbn; rewrite ?M; cbn; try reflexivity; try lia.
    + unfold forward13, forward_ctrs13. cbn [k_fl]. destruct (k_fl h) as [[q pk]|]; cbn; intros Q; injection Q as <- <- <- <-; split; cbn; rewrite ?M; cbn; try reflexivity; try lia.
Qed.

Lemma pstep_good absmax p l p' ps vs cs : pstep absmax p l = Some (p', ps, vs, cs) -> good p l p' ps vs cs.
Proof.
  destruct p as [h|h]; [|apply good_13]. destruct l; [apply good_cast|apply good_take|apply good_time|apply good_in].
Qed.

(** ** All device clients *)
Lemma put_cli_len l i x : i < length l -> length (put_cli l i x) = length l.
Proof. intros H. unfold put_cli. rewrite app_length, firstn_length. cbn [length]. rewrite skipn_length. lia. Qed.
Lemma put_cli_same l i x : i < length l -> nth_error (put_cli l i x) i = Some x.
Proof.
  intros H. unfold put_cli. rewrite nth_error_app2; rewrite firstn_length; [|lia]. replace (i - Nat.min i (length l)) with 0 by lia. reflexivity.
Qed.
Lemma put_cli_other l i x j : i < length l -> j <> i -> nth_error (put_cli l i x) j = nth_error l j.
Proof.
  revert i j. induction l as [|a r IH]; intros i j H D; [cbn in H; lia|].
  destruct i as [|i], j as [|j]; try lia; try reflexivity. cbn. apply (IH i j); cbn in H; lia.
Qed.

Lemma put_cons a r i x : put_cli (a :: r) (S i) x = a :: put_cli r i x.
Proof. reflexivity. Qed.
Lemma skip_cons {A} (a : A) r i : skipn (S (S i)) (a :: r) = skipn (S i) r.
Proof. reflexivity. Qed.

(** Messages about a device client, and how often it is in the list of tables. *)
Definition about (i : nat) (m : smsg) : bool := match m with SNew j | STransfer j => Nat.eqb j i end.
Definition mail (i : nat) (b : list smsg) : list smsg := filter (about i) b.
Definition listed (i : nat) (l : list nat) : nat := length (filter (Nat.eqb i) l).
Lemma mail_app i a b : mail i (a ++ b) = mail i a ++ mail i b.
Proof. apply filter_app. Qed.
Lemma mail_snoc i b m : mail i (b ++ [m]) = mail i b ++ (if about i m then [m] else []).
Proof. rewrite mail_app. reflexivity. Qed.
Lemma listed_cons i j l : listed i (j :: l) = (if Nat.eqb i j then 1 else 0) + listed i l.
Proof. unfold listed. cbn. destruct (Nat.eqb i j); reflexivity. Qed.
Lemma listed_delete i j l : listed i (keydelete j l) = listed i l - (if Nat.eqb i j then 1 else 0).
Proof.
  induction l as [|k r IH]; [reflexivity|]. cbn [keydelete]. rewrite listed_cons. destruct (Nat.eqb_spec k j) as [->|D].
  - destruct (Nat.eqb i j); lia.
  - rewrite listed_cons, IH. destruct (Nat.eqb_spec i k) as [->|]; [|lia]. destruct (Nat.eqb_spec k j); [contradiction|]. lia.
Qed.

(** [tot]: the counters each device client has had, also those whose table is gone. *)
Definition placed (s : dsys) (i : nat) (c : cli) : Prop :=
  match c_phase c, c_tab c with
  | FMade, Some _ | FHeir, Some _ => mail i (d_box s) = [] /\ listed i (d_cur s) = 0
  | FTold, Some _ => (mail i (d_box s) = [SNew i] /\ listed i (d_cur s) = 0) \/ (mail i (d_box s) = [] /\ listed i (d_cur s) = 1)
  | FEnd, None => mail i (d_box s) = [] /\ listed i (d_cur s) = 0
  | FEnd, Some _ => (mail i (d_box s) = [STransfer i] /\ listed i (d_cur s) <= 1) \/ (mail i (d_box s) = [SNew i; STransfer i] /\ listed i (d_cur s) = 0)
  | _, None => False
  end.
Definition early (f : phase) : bool := match f with FMade | FHeir => true | _ => false end.

Fixpoint gone (cl : list cli) (tot : list table) (c : ctr) : nat :=
  match cl, tot with
  | x :: cl, t :: tot => (match c_tab x with None => t c | Some _ => 0 end) + gone cl tot c
  | _, _ => 0
  end.

Record inv (s : dsys) (e : list seen) (tot : list table) : Prop := mkInv {
  i_len : length tot = length (d_cl s);
  i_out : forall i, length (d_cl s) <= i -> mail i (d_box s) = [] /\ listed i (d_cur s) = 0;
  i_seen : forall j l ps vs, In (j, l, ps, vs) e -> j < length (d_cl s);
  i_cl : forall i c t, nth_error (d_cl s) i = Some c -> nth_error tot i = Some t ->
    true_counters t (c_proc c) i e /\ placed s i c /\ (early (c_phase c) = true -> c_proc c = new20 \/ c_proc c = new13) /\
    (early (c_phase c) = true -> forall x, t x = 0) /\
    match c_tab c with Some t' => forall x, t' x = t x | None => True end;
  i_old : forall x, d_old s x = gone (d_cl s) tot x }.

Lemma true_ext t t' p i e : (forall x, t' x = t x) -> true_counters t p i e -> true_counters t' p i e.
Proof. intros H []. constructor; rewrite !H; assumption. Qed.
Lemma filter_len_app {A} (f : A -> bool) a b : length (filter f (a ++ b)) = length (filter f a) + length (filter f b).
Proof. rewrite filter_app, app_length. reflexivity. Qed.
Lemma true_other t p i e j l ps vs : j <> i -> true_counters t p i e -> true_counters t p i (e ++ [(j, l, ps, vs)]).
Proof.
  intros D []. assert (F : Nat.eqb j i = false) by (apply Nat.eqb_neq; exact D).
  assert (S0 : sent_by i (e ++ [(j, l, ps, vs)]) = sent_by i e) by (unfold sent_by; rewrite flat_map_app; cbn; rewrite F, app_nil_r; reflexivity).
  assert (U0 : used_by i (e ++ [(j, l, ps, vs)]) = used_by i e) by (unfold used_by; rewrite filter_len_app; cbn; rewrite F; cbn; lia).
  assert (T0 : timeouts i (e ++ [(j, l, ps, vs)]) = timeouts i e) by (unfold timeouts; rewrite filter_len_app; cbn; destruct l; cbn; rewrite ?F; cbn; lia).
  constructor; rewrite ?S0, ?U0, ?T0; assumption.
Qed.
Lemma true_step t p i e l p' ps vs cs : over p = false -> good p l p' ps vs cs -> true_counters t p i e -> true_counters (bump t cs) p' i (e ++ [(i, l, ps, vs)]).
Proof.
  intros O [GK GS GR GV GL GT] [TS TR TV TL TT].
  assert (S0 : length (sent_by i (e ++ [(i, l, ps, vs)])) = length (sent_by i e) + length ps) by (unfold sent_by; rewrite flat_map_app; cbn; rewrite Nat.eqb_refl, app_nil_r, app_length; reflexivity).
  assert (U0 : used_by i (e ++ [(i, l, ps, vs)]) = used_by i e + b2n (used l ps vs)) by (unfold used_by; rewrite filter_len_app; cbn; rewrite Nat.eqb_refl; cbn; destruct (used l ps vs); cbn; lia).
  assert (T0 : timeouts i (e ++ [(i, l, ps, vs)]) = timeouts i e + b2n (match l with DTime => true | _ => false end)) by (unfold timeouts; rewrite filter_len_app; cbn; destruct l; cbn; rewrite ?Nat.eqb_refl; cbn; lia).
  rewrite O in *. cbn [b2n] in *. unfold bump. fold cnt.
  constructor; rewrite ?S0, ?U0, ?T0; unfold bump; change (fun x => length (filter (ctr_eqb x) cs)) with (fun x => cnt x cs).
  - rewrite TS. unfold cnt in GS. lia.
  - unfold cnt in GR. lia.
  - unfold cnt in GV. lia.
  - unfold cnt in GL. lia.
  - intros K. rewrite GK in K. specialize (GT K). specialize (TT K). unfold cnt in GT. lia.
Qed.

Lemma gone_put cl tot i c c' x : nth_error cl i = Some c -> c_tab c' = c_tab c \/ (exists a b, c_tab c' = Some a /\ c_tab c = Some b) -> gone (put_cli cl i c') tot x = gone cl tot x.
Proof.
  revert tot i. induction cl as [|a r IH]; intros tot [|i] N H; try discriminate.
  - injection N as ->. unfold put_cli. cbn [firstn skipn app gone]. destruct tot as [|t tot]; [reflexivity|].
    destruct H as [->|(u & v & -> & ->)]; reflexivity.
  - cbn in N. rewrite put_cons. cbn [gone]. destruct tot as [|t tot]; [reflexivity|]. rewrite (IH tot i N H). reflexivity.
Qed.
Lemma gone_drop cl tot i c c' t t' x : nth_error cl i = Some c -> nth_error tot i = Some t -> c_tab c = Some t' -> c_tab c' = None -> gone (put_cli cl i c') tot x = gone cl tot x + t x.
Proof.
  revert tot i. induction cl as [|a r IH]; intros tot [|i] N M H H'; try discriminate.
  - injection N as ->. destruct tot as [|u tot]; [discriminate|]. injection M as ->. unfold put_cli. cbn [firstn skipn app gone]. rewrite H, H'. lia.
  - cbn in N. destruct tot as [|u tot]; [discriminate|]. cbn in M. rewrite put_cons. cbn [gone]. rewrite (IH tot i N M H H'). lia.
Qed.
Lemma gone_tot cl tot tot' i c t' x : nth_error cl i = Some c -> c_tab c <> None -> tot' = firstn i tot ++ t' :: skipn (S i) tot -> i < length tot -> gone cl tot' x = gone cl tot x.
Proof.
  intros N H ->. revert tot i N. induction cl as [|a r IH]; intros tot [|i] N L; try discriminate.
  - injection N as ->. destruct tot as [|u tot]; [cbn in L; lia|]. cbn [firstn skipn app gone]. destruct (c_tab c); [reflexivity|congruence].
  - cbn in N. destruct tot as [|u tot]; [cbn in L; lia|]. rewrite skip_cons. cbn [firstn app gone]. cbn in L. rewrite (IH tot i N ltac:(lia)). reflexivity.
Qed.
Lemma gone_snoc cl tot c t x : length tot = length cl -> c_tab c <> None -> gone (cl ++ [c]) (tot ++ [t]) x = gone cl tot x.
Proof.
  revert tot. induction cl as [|a r IH]; intros [|u tot] L H; try discriminate.
  - cbn. destruct (c_tab c); [reflexivity|congruence].
  - cbn [app gone]. rewrite IH; [reflexivity|cbn in L; lia|exact H].
Qed.

(** A step that changes one device client, its messages and its place in the list. *)
Lemma inv_put s e tot i c c' box cur : inv s e tot -> nth_error (d_cl s) i = Some c ->
  c_proc c' = c_proc c -> (c_tab c' = c_tab c) -> (early (c_phase c') = true -> early (c_phase c) = true) ->
  (forall j, j <> i -> mail j box = mail j (d_box s) /\ listed j cur = listed j (d_cur s)) ->
  placed (mkD (put_cli (d_cl s) i c') box cur (d_old s)) i c' ->
  inv (mkD (put_cli (d_cl s) i c') box cur (d_old s)) e tot.
Proof.
  intros [IL IO IS IC IOLD] N EP ET EE EM PL. assert (B : i < length (d_cl s)) by (apply nth_error_Some; rewrite N; discriminate).
  constructor; cbn [d_cl d_box d_cur d_old].
  - rewrite put_cli_len by exact B. exact IL.
  - rewrite put_cli_len by exact B. intros j J. destruct (EM j ltac:(lia)) as [-> ->]. apply IO. exact J.
  - rewrite put_cli_len by exact B. exact IS.
  - intros j d t ND NT. destruct (Nat.eq_dec j i) as [->|D].
    + rewrite put_cli_same in ND by exact B. injection ND as <-. destruct (IC i c t N NT) as (A1 & A2 & A3 & A3' & A4). rewrite EP, ET. split; [exact A1|]. split; [exact PL|]. auto.
    + rewrite put_cli_other in ND by assumption. destruct (IC j d t ND NT) as (A1 & A2 & A3 & A3' & A4). split; [exact A1|]. split; [|auto].
      unfold placed in *. cbn [d_box d_cur]. destruct (EM j D) as [-> ->]. exact A2.
  - intros x. rewrite (gone_put _ _ _ c) by auto. apply IOLD.
Qed.

Lemma inv_step absmax s e tot l s' e' : fresh l -> inv s e tot -> sstep absmax s l = Some (s', e') -> exists tot', inv s' (e ++ e') tot'.
Proof.
  intros FR V. destruct l as [p|i|i l|i|i|]; cbn [sstep].
  - (* spawn *)
    intros Q. assert (Q1 : s' = mkD (d_cl s ++ [mkCli FMade p (Some empty_table)]) (d_box s) (d_cur s) (d_old s)) by congruence. assert (Q2 : e' = []) by congruence. subst s' e'. clear Q. rewrite app_nil_r.
    exists (tot ++ [empty_table]). destruct V as [IL IO IS IC IOLD]. constructor; cbn [d_cl d_box d_cur d_old].
    + rewrite !app_length, IL. reflexivity.
    + rewrite app_length. cbn. intros i J. apply IO. lia.
    + rewrite app_length. cbn. intros j l ps vs J. apply IS in J. lia.
    + intros i c t NC NT. destruct (Nat.lt_ge_cases i (length (d_cl s))) as [B|B].
      * rewrite nth_error_app1 in NC by exact B. rewrite nth_error_app1 in NT by lia. apply (IC i c t NC NT).
      * rewrite nth_error_app2 in NC by exact B. rewrite nth_error_app2 in NT by lia. rewrite IL in NT.
        destruct (i - length (d_cl s)) as [|k] eqn:K; [|destruct k; discriminate]. injection NC as <-. injection NT as <-. assert (i = length (d_cl s)) by lia. subst i.
        assert (Z1 : sent_by (length (d_cl s)) e = []).
        { unfold sent_by. clear - IS. induction e as [|[[[j l] ps] vs] r IH]; [reflexivity|]. cbn [flat_map]. rewrite IH; [|intros; eapply IS; right; eassumption].
          assert (j < length (d_cl s)) by (eapply IS; left; reflexivity). destruct (Nat.eqb_spec j (length (d_cl s))); [lia|reflexivity]. }
        assert (Z2 : used_by (length (d_cl s)) e = 0).
        { unfold used_by. clear - IS. induction e as [|[[[j l] ps] vs] r IH]; [reflexivity|]. cbn [filter].
          assert (j < length (d_cl s)) by (eapply IS; left; reflexivity). destruct (Nat.eqb_spec j (length (d_cl s))); [lia|]. cbn. apply IH. intros; eapply IS; right; eassumption. }
        assert (Z3 : timeouts (length (d_cl s)) e = 0).
        { unfold timeouts. clear - IS. induction e as [|[[[j l] ps] vs] r IH]; [reflexivity|]. cbn [filter].
          assert (j < length (d_cl s)) by (eapply IS; left; reflexivity). destruct (Nat.eqb_spec j (length (d_cl s))); [lia|]. destruct l; apply IH; intros; eapply IS; right; eassumption. }
        cbn in FR. destruct (IO (length (d_cl s)) ltac:(lia)) as [M0 L0].
        split; [|split; [|split; [|split]]].
        -- destruct FR as [->| ->]; constructor; rewrite ?Z1, ?Z2, ?Z3; cbv; auto.
        -- unfold placed. cbn. auto.
        -- auto.
        -- intros _ x. reflexivity.
        -- intros x. reflexivity.
    + intros x. rewrite gone_snoc; [apply IOLD|exact IL|discriminate].
  - (* new_device_client_table goes on *)
    destruct (nth_error (d_cl s) i) as [[f p t]|] eqn:N; [|discriminate].
    assert (B : i < length (d_cl s)) by (apply nth_error_Some; rewrite N; discriminate).
    assert (TT : exists u, nth_error tot i = Some u).
    { destruct (nth_error tot i) eqn:X; [eauto|]. apply nth_error_None in X. rewrite (i_len _ _ _ V) in X. lia. }
    destruct TT as [u NU]. destruct (i_cl _ _ _ V i _ u N NU) as (_ & PL & _). unfold placed in PL. cbn [c_phase c_tab] in PL.
    destruct f; try discriminate; intros Q; injection Q as <- <-; rewrite app_nil_r; exists tot.
    + eapply inv_put with (c := mkCli FMade p t); eauto. 
    + eapply inv_put with (c := mkCli FHeir p t); eauto; try (cbn; discriminate).
      * intros j D. rewrite mail_snoc. cbn [about]. destruct (Nat.eqb_spec i j); [congruence|]. rewrite app_nil_r. auto.
      * unfold placed. cbn [c_phase c_tab d_box d_cur]. destruct t; [|contradiction]. destruct PL as [P1 P2]. rewrite mail_snoc, P1. cbn [about]. rewrite Nat.eqb_refl. auto.
  - (* it does something *)
    destruct (nth_error (d_cl s) i) as [[f p [t|]]|] eqn:N; try discriminate; destruct f; try discriminate.
    destruct (over p) eqn:O; [discriminate|]. destruct (pstep absmax p l) as [[[[p' ps] vs] cs]|] eqn:PS; [|discriminate].
    intros Q. injection Q as <- <-. apply pstep_good in PS. destruct V as [IL IO IS IC IOLD].
    assert (B : i < length (d_cl s)) by (apply nth_error_Some; rewrite N; discriminate).
    assert (TT : exists u, nth_error tot i = Some u).
    { destruct (nth_error tot i) eqn:X; [eauto|]. apply nth_error_None in X. rewrite IL in X. lia. }
    destruct TT as [u NU]. exists (firstn i tot ++ bump u cs :: skipn (S i) tot).
    assert (LT : length (firstn i tot ++ bump u cs :: skipn (S i) tot) = length tot).
    { rewrite app_length, firstn_length. cbn [length]. rewrite skipn_length. lia. }
    destruct (IC i _ u N NU) as (A1 & A2 & A3 & A3' & A4). cbn [c_proc c_tab c_phase] in *.
    constructor; cbn [d_cl d_box d_cur d_old].
    + rewrite LT, put_cli_len by exact B. exact IL.
    + rewrite put_cli_len by exact B. exact IO.
    + rewrite put_cli_len by exact B. intros j l0 ps0 vs0 J. apply in_app_iff in J. destruct J as [J|[J|[]]]; [eapply IS; exact J|]. injection J as <- _ _ _. exact B.
    + intros j c t0 NC NT. destruct (Nat.eq_dec j i) as [->|D].
      * rewrite put_cli_same in NC by exact B. injection NC as <-. rewrite nth_error_app2 in NT; rewrite firstn_length in *; [|lia].
        replace (i - Nat.min i (length tot)) with 0 in NT by lia. injection NT as <-. cbn [c_proc c_phase c_tab]. split; [|split; [|split; [|split]]].
        -- eapply true_step; eassumption.
        -- exact A2.
        -- discriminate.
        -- discriminate.
        -- intros x. unfold bump. rewrite A4. reflexivity.
      * rewrite put_cli_other in NC by assumption.
        assert (NT' : nth_error tot j = Some t0).
        { rewrite <- NT. destruct (Nat.lt_ge_cases j i) as [J|J].
          - rewrite nth_error_app1 by (rewrite firstn_length; lia). rewrite <- (firstn_skipn i tot) at 1. rewrite nth_error_app1 by (rewrite firstn_length; lia). reflexivity.
          - rewrite nth_error_app2 by (rewrite firstn_length; lia). rewrite firstn_length. replace (j - Nat.min i (length tot)) with (S (j - S i)) by lia. cbn [nth_error].
            rewrite <- (firstn_skipn (S i) tot) at 1. rewrite nth_error_app2 by (rewrite firstn_length; lia). rewrite firstn_length. f_equal. lia. }
        destruct (IC j c t0 NC NT') as (C1 & C2 & C3 & C4). split; [apply true_other; [congruence|exact C1]|]. auto.
    + intros x. rewrite (gone_tot _ tot _ i (mkCli FTold p' (Some (bump t cs))) (bump u cs) x); [|apply put_cli_same; exact B|discriminate|reflexivity|lia].
      rewrite (gone_put _ _ _ (mkCli FTold p (Some t))); [apply IOLD|exact N|right; do 2 eexists; split; reflexivity].
  - (* it ends *)
    destruct (nth_error (d_cl s) i) as [[f p t]|] eqn:N; [|discriminate]. cbn [c_phase c_proc]. destruct f; try discriminate.
    destruct (over p) eqn:O; [|discriminate]. intros Q. injection Q as <- <-. rewrite app_nil_r. exists tot. cbn [ends c_phase c_proc c_tab].
    assert (TT : exists u, nth_error tot i = Some u).
    { destruct (nth_error tot i) eqn:X; [eauto|]. apply nth_error_None in X. rewrite (i_len _ _ _ V) in X. assert (i < length (d_cl s)) by (apply nth_error_Some; rewrite N; discriminate). lia. }
    destruct TT as [u NU]. destruct (i_cl _ _ _ V i _ u N NU) as (_ & PL & _). unfold placed in PL. cbn [c_phase c_tab] in PL. destruct t as [t|]; [|contradiction].
    unfold ends. cbn [c_phase c_proc c_tab]. eapply inv_put with (c := mkCli FTold p (Some t)); eauto; try (cbn; discriminate).
    + intros j D. rewrite mail_snoc. cbn [about]. destruct (Nat.eqb_spec i j); [congruence|]. rewrite app_nil_r. auto.
    + unfold placed. cbn [c_phase c_tab d_box d_cur]. rewrite mail_snoc. cbn [about]. rewrite Nat.eqb_refl. destruct PL as [[-> ->]|[-> ->]]; cbn [app]; auto.
  - (* it is killed *)
    destruct (nth_error (d_cl s) i) as [[f p t]|] eqn:N; [|discriminate]. cbn [c_phase c_proc].
    assert (B : i < length (d_cl s)) by (apply nth_error_Some; rewrite N; discriminate).
    assert (TT : exists u, nth_error tot i = Some u).
    { destruct (nth_error tot i) eqn:X; [eauto|]. apply nth_error_None in X. rewrite (i_len _ _ _ V) in X. lia. }
    destruct TT as [u NU]. destruct (i_cl _ _ _ V i _ u N NU) as (TC & PL & ER & Z0 & TE). unfold placed in PL. cbn [c_phase c_tab c_proc] in *. unfold ends. cbn [c_phase c_proc c_tab].
    destruct f; try discriminate; intros Q; injection Q as <- <-; rewrite app_nil_r; exists tot; destruct t as [t|]; try contradiction.
    + destruct PL as [P1 P2]. specialize (Z0 eq_refl). destruct V as [IL IO IS IC IOLD].
      constructor; cbn [d_cl d_box d_cur d_old].
      * rewrite put_cli_len by exact B. exact IL.
      * rewrite put_cli_len by exact B. exact IO.
      * rewrite put_cli_len by exact B. exact IS.
      * intros j d t0 ND NT. destruct (Nat.eq_dec j i) as [->|D].
        -- rewrite put_cli_same in ND by exact B. injection ND as <-. rewrite NU in NT. injection NT as <-. cbn [c_proc c_phase c_tab early]. split; [exact TC|]. split; [split; assumption|]. split; [discriminate|]. split; [discriminate|exact I].
        -- rewrite put_cli_other in ND by assumption. apply (IC j d t0 ND NT).
      * intros x. rewrite (gone_drop _ _ _ (mkCli FMade p (Some t)) _ u t) by auto. rewrite Z0, Nat.add_0_r. apply IOLD.
    + eapply inv_put with (c := mkCli FHeir p (Some t)); eauto; try (cbn; discriminate).
      * intros j D. rewrite mail_snoc. cbn [about]. destruct (Nat.eqb_spec i j); [congruence|]. rewrite app_nil_r. auto.
      * unfold placed. cbn [c_phase c_tab d_box d_cur]. rewrite mail_snoc. cbn [about]. rewrite Nat.eqb_refl. destruct PL as [-> ->]; cbn [app]; auto.
    + eapply inv_put with (c := mkCli FTold p (Some t)); eauto; try (cbn; discriminate).
      * intros j D. rewrite mail_snoc. cbn [about]. destruct (Nat.eqb_spec i j); [congruence|]. rewrite app_nil_r. auto.
      * unfold placed. cbn [c_phase c_tab d_box d_cur]. rewrite mail_snoc. cbn [about]. rewrite Nat.eqb_refl. destruct PL as [[-> ->]|[-> ->]]; cbn [app]; auto.
  - (* the statistics process takes a message *)
    destruct (d_box s) as [|[i|i] r] eqn:BX; [discriminate| |].
    + intros Q. injection Q as <- <-. rewrite app_nil_r. exists tot. destruct V as [IL IO IS IC IOLD]. constructor; cbn [d_cl d_box d_cur d_old]; auto.
      * intros j J. destruct (IO j J) as [O1 O2]. rewrite BX in O1. cbn in O1. rewrite listed_cons, O2. rewrite (Nat.eqb_sym j i). destruct (Nat.eqb i j); [discriminate|]. auto.
      * intros j c t NC NT. destruct (IC j c t NC NT) as (C1 & C2 & C3). split; [exact C1|]. split; [|exact C3].
        unfold placed in *. cbn [d_box d_cur]. rewrite BX in C2. cbn [mail filter about] in C2. rewrite listed_cons, (Nat.eqb_sym j i). fold (mail j r) in C2.
        destruct (Nat.eqb_spec i j) as [->|D]; [|exact C2].
        destruct (c_phase c), (c_tab c); try contradiction; try (destruct C2; discriminate).
        -- destruct C2 as [[M L]|[M L]]; [|discriminate]. injection M as ->. rewrite L. auto.
        -- destruct C2 as [[M L]|[M L]]; [discriminate|]. injection M as ->. rewrite L. left. cbn. auto.
    + destruct (nth_error (d_cl s) i) as [[f p [t|]]|] eqn:N; try discriminate. intros Q. injection Q as <- <-. rewrite app_nil_r. exists tot.
      assert (B : i < length (d_cl s)) by (apply nth_error_Some; rewrite N; discriminate).
      assert (TT : exists u, nth_error tot i = Some u).
      { destruct (nth_error tot i) eqn:X; [eauto|]. apply nth_error_None in X. rewrite (i_len _ _ _ V) in X. lia. }
      destruct TT as [u NU]. destruct V as [IL IO IS IC IOLD]. destruct (IC i _ u N NU) as (TC & PL & ER & Z0 & TE). cbn [c_phase c_tab c_proc] in *.
      constructor; cbn [d_cl d_box d_cur d_old].
      * rewrite put_cli_len by exact B. exact IL.
      * rewrite put_cli_len by exact B. intros j J. destruct (IO j J) as [O1 O2]. rewrite BX in O1. cbn in O1. rewrite listed_delete, O2. destruct (Nat.eqb i j); [discriminate|]. auto.
      * rewrite put_cli_len by exact B. exact IS.
      * intros j d t0 ND NT. destruct (Nat.eq_dec j i) as [->|D].
        -- rewrite put_cli_same in ND by exact B. injection ND as <-. rewrite NU in NT. injection NT as <-. cbn [c_proc c_phase c_tab].
           unfold placed in PL |- *. cbn [c_phase c_tab] in *. rewrite BX in PL. cbn [mail filter about] in PL. rewrite Nat.eqb_refl in PL. fold (mail i r) in PL. cbn [d_box d_cur]. rewrite listed_delete, Nat.eqb_refl.
           assert (PP : f = FEnd /\ mail i r = [] /\ listed i (d_cur s) <= 1).
           { destruct f; try (destruct PL; discriminate); [destruct PL as [[M L]|[M L]]; discriminate|]. destruct PL as [[M L]|[M L]]; [|discriminate]. injection M as ->. auto. }
           destruct PP as (-> & -> & L). split; [exact TC|]. split; [split; [reflexivity|lia]|]. repeat split; try discriminate.
        -- rewrite put_cli_other in ND by assumption. destruct (IC j d t0 ND NT) as (C1 & C2 & C3). split; [exact C1|]. split; [|exact C3].
           unfold placed in *. cbn [d_box d_cur]. rewrite BX in C2. cbn [mail filter about] in C2. fold (mail j r) in C2. rewrite listed_delete.
           destruct (Nat.eqb_spec i j) as [->|D']; [congruence|]. destruct (Nat.eqb_spec j i); [congruence|]. rewrite Nat.sub_0_r. exact C2.
      * intros x. rewrite (gone_drop _ _ _ (mkCli f p (Some t)) _ u t) by auto. unfold add_table. rewrite IOLD, TE. reflexivity.
Qed.

Lemma inv_start : inv stats_start [] [].
Proof.
  constructor; cbn.
  - reflexivity.
  - auto.
  - contradiction.
  - intros [|i]; discriminate.
  - reflexivity.
Qed.
Lemma inv_run absmax ls : Forall fresh ls -> forall s e tot s' e', inv s e tot -> srun absmax s ls = Some (s', e') -> exists tot', inv s' (e ++ e') tot'.
Proof.
  intros FR. induction FR as [|l r F _ IH]; intros s e tot s' e' V R; cbn [srun] in R.
  - injection R as <- <-. rewrite app_nil_r. eauto.
  - destruct (sstep absmax s l) as [[s1 e1]|] eqn:S1; [|discriminate]. destruct (srun absmax s1 r) as [[s2 e2]|] eqn:S2; [|discriminate].
    injection R as <- <-. destruct (inv_step _ _ _ _ _ _ _ F V S1) as [tot1 V1]. rewrite app_assoc. eapply IH; eassumption.
Qed.
Lemma inv_reached absmax ls s e : Forall fresh ls -> srun absmax stats_start ls = Some (s, e) -> exists tot, inv s e tot.
Proof. intros F R. destruct (inv_run _ _ F _ _ _ _ _ inv_start R) as [tot V]. exists tot. exact V. Qed.
Lemma inv_tot s e tot i c : inv s e tot -> nth_error (d_cl s) i = Some c -> exists t, nth_error tot i = Some t.
Proof.
  intros V N. destruct (nth_error tot i) eqn:X; [eauto|]. apply nth_error_None in X. rewrite (i_len _ _ _ V) in X.
  assert (i < length (d_cl s)) by (apply nth_error_Some; rewrite N; discriminate). lia.
Qed.

(** C112 (counters): after any run, the counters of each device client that still has a
    table are those of what it has done: datagrams sent, replies used, timeouts, lost
    requests and replies, recoveries.  (While a device client ends, the counters may be one
    ahead.) *)
Theorem C112_counts absmax ls s e i c t : Forall fresh ls -> srun absmax stats_start ls = Some (s, e) ->
  nth_error (d_cl s) i = Some c -> c_tab c = Some t -> true_counters t (c_proc c) i e.
Proof.
  intros F R N T. destruct (inv_reached _ _ _ _ F R) as [tot V]. destruct (inv_tot _ _ _ _ _ V N) as [u NU].
  destruct (i_cl _ _ _ V i c u N NU) as (A & _ & _ & _ & E). rewrite T in E. eapply true_ext; eassumption.
Qed.

(** Sums. *)
Lemma listed_in i l : In i l <-> 1 <= listed i l.
Proof.
  induction l as [|j r IH]; [cbn; lia|]. rewrite listed_cons. cbn [In]. rewrite IH. destruct (Nat.eqb_spec i j) as [->|D]; [|intuition lia].
  split; [lia|]. intros _. left. reflexivity.
Qed.
Lemma sum_add (f g : nat -> nat) l : list_sum (map (fun i => f i + g i) l) = list_sum (map f l) + list_sum (map g l).
Proof. induction l as [|a r IH]; [reflexivity|]. cbn [map list_sum fold_right]. unfold list_sum in *. cbn [fold_right]. lia. Qed.
Lemma sum_ext (f g : nat -> nat) l : (forall i, In i l -> f i = g i) -> list_sum (map f l) = list_sum (map g l).
Proof. intros H. f_equal. apply map_ext_in. exact H. Qed.
Lemma sum_le (f g : nat -> nat) l : (forall i, In i l -> f i <= g i) -> list_sum (map f l) <= list_sum (map g l).
Proof.
  induction l as [|a r IH]; intros H; [apply le_n|]. unfold list_sum in *. cbn [map fold_right]. pose proof (H a (or_introl eq_refl)). specialize (IH ltac:(intros; apply H; right; assumption)). lia.
Qed.
Lemma sum_one j v n : j < n -> list_sum (map (fun i => if Nat.eqb i j then v else 0) (seq 0 n)) = v.
Proof.
  induction n as [|n IH]; intros L; [lia|]. rewrite seq_S, map_app, list_sum_app. cbn [map list_sum fold_right Nat.add].
  destruct (Nat.eq_dec j n) as [->|D].
  - rewrite Nat.eqb_refl. replace (list_sum _) with 0; [unfold list_sum; cbn; lia|].
    assert (Z : forall k, k <= n -> list_sum (map (fun i => if Nat.eqb i n then v else 0) (seq 0 k)) = 0); [|rewrite Z; auto].
    induction k as [|k IHk]; intros K; [reflexivity|]. rewrite seq_S, map_app, list_sum_app, IHk by lia. cbn. destruct (Nat.eqb_spec k n); [lia|reflexivity].
  - rewrite IH by lia. destruct (Nat.eqb_spec n j); [congruence|]. unfold list_sum. cbn. lia.
Qed.
Lemma sum_listed (f : nat -> nat) l n : (forall i, In i l -> i < n) -> list_sum (map f l) = list_sum (map (fun i => listed i l * f i) (seq 0 n)).
Proof.
  induction l as [|j r IH]; intros H.
  - cbn [map]. replace (list_sum (map _ (seq 0 n))) with (list_sum (map (fun _ => 0) (seq 0 n))) by (apply sum_ext; reflexivity).
    generalize (seq 0 n). induction l as [|a l IH]; [reflexivity|exact IH].
  - change (list_sum (map f (j :: r))) with (f j + list_sum (map f r)). rewrite IH by (intros; apply H; right; assumption).
    rewrite <- (sum_one j (f j) n) by (apply H; left; reflexivity). rewrite <- sum_add. apply sum_ext. intros i _. rewrite listed_cons.
    destruct (Nat.eqb_spec i j) as [->|]; lia.
Qed.
Definition ith (tot : list table) (i : nat) (x : ctr) : nat := match nth_error tot i with Some t => t x | None => 0 end.
Lemma sum_gone cl tot x : length tot = length cl ->
  gone cl tot x = list_sum (map (fun i => match nth_error cl i with Some (mkCli _ _ None) => ith tot i x | _ => 0 end) (seq 0 (length cl))).
Proof.
  revert tot. induction cl as [|c r IH]; intros [|t tot] L; try discriminate; [reflexivity|].
  cbn [gone length seq map]. rewrite <- seq_shift, map_map. cbn in L. rewrite IH by lia.
  change (list_sum (?a :: ?b)) with (a + list_sum b). cbn [nth_error]. f_equal. destruct c as [f p [?|]]; reflexivity.
Qed.
Lemma sum_sent e n : (forall j l ps vs, In (j, l, ps, vs) e -> j < n) -> length (all_sent e) = list_sum (map (fun i => length (sent_by i e)) (seq 0 n)).
Proof.
  induction e as [|[[[j l] ps] vs] r IH]; intros H.
  - cbn. generalize (seq 0 n). induction l as [|a l IH]; [reflexivity|exact IH].
  - cbn [all_sent flat_map]. rewrite app_length. fold (all_sent r). rewrite IH by (intros; eapply H; right; eassumption).
    rewrite <- (sum_one j (length ps) n) by (eapply H; left; reflexivity). rewrite <- sum_add. apply sum_ext. intros i _.
    cbn [sent_by flat_map]. rewrite app_length. rewrite (Nat.eqb_sym i j). destruct (Nat.eqb j i); reflexivity.
Qed.
Lemma rows_some cl cur : (forall i, In i cur -> exists c t, nth_error cl i = Some c /\ c_tab c = Some t) ->
  exists l, rows cl cur = Some l /\ map fst l = cur /\ forall i t, In (i, t) l -> exists c, nth_error cl i = Some c /\ c_tab c = Some t.
Proof.
  induction cur as [|i r IH]; intros H; [exists []; cbn; intuition|].
  destruct IH as (l & R & M & T); [intros; apply H; right; assumption|]. destruct (H i (or_introl eq_refl)) as ([f p t] & t' & N & E). cbn in E. subst t.
  exists ((i, t') :: l). cbn [rows]. rewrite N, R. cbn [map fst]. rewrite M. repeat split.
  intros j u [Q|I]; [injection Q as <- <-; eauto|eauto].
Qed.
Lemma listed_tab s e tot i : inv s e tot -> In i (d_cur s) -> exists c t, nth_error (d_cl s) i = Some c /\ c_tab c = Some t.
Proof.
  intros V I. apply listed_in in I. destruct (nth_error (d_cl s) i) as [c|] eqn:N.
  - destruct (inv_tot _ _ _ _ _ V N) as [u NU]. destruct (i_cl _ _ _ V i c u N NU) as (_ & P & _). unfold placed in P. exists c.
    destruct (c_tab c) as [t|]; [eauto|]. destruct (c_phase c); try contradiction. destruct P. lia.
  - apply nth_error_None in N. destruct (i_out _ _ _ V i N). lia.
Qed.
Lemma listed_once s e tot i : inv s e tot -> listed i (d_cur s) <= 1.
Proof.
  intros V. destruct (nth_error (d_cl s) i) as [c|] eqn:N.
  - destruct (inv_tot _ _ _ _ _ V N) as [u NU]. destruct (i_cl _ _ _ V i c u N NU) as (_ & P & _). unfold placed in P.
    destruct (c_phase c), (c_tab c); try contradiction; intuition lia.
  - apply nth_error_None in N. destruct (i_out _ _ _ V i N). lia.
Qed.
Lemma nodup_listed l : (forall i, listed i l <= 1) -> NoDup l.
Proof.
  induction l as [|j r IH]; intros H; constructor.
  - intros I. apply listed_in in I. specialize (H j). rewrite listed_cons, Nat.eqb_refl in H. lia.
  - apply IH. intros i. specialize (H i). rewrite listed_cons in H. lia.
Qed.

Lemma inv_report s e tot : inv s e tot -> exists l, report s = Some (l, d_old s) /\ map fst l = d_cur s /\ NoDup (map fst l) /\
  (forall i t, In (i, t) l -> exists c, nth_error (d_cl s) i = Some c /\ c_tab c = Some t).
Proof.
  intros V. destruct (rows_some (d_cl s) (d_cur s)) as (l & R & M & T); [intros i I; eapply listed_tab; eassumption|].
  exists l. unfold report. rewrite R. split; [reflexivity|]. split; [exact M|]. split; [|exact T].
  rewrite M. apply nodup_listed. intros i. eapply listed_once. exact V.
Qed.
Lemma inv_take absmax s e tot : inv s e tot -> d_box s <> [] -> sstep absmax s STake <> None.
Proof.
  intros V H. cbn [sstep]. destruct (d_box s) as [|[i|i] r] eqn:B; [congruence|discriminate|].
  destruct (nth_error (d_cl s) i) as [c|] eqn:N.
  - destruct (inv_tot _ _ _ _ _ V N) as [u NU]. destruct (i_cl _ _ _ V i c u N NU) as (_ & P & _). unfold placed in P. rewrite B in P. cbn [mail filter about] in P. rewrite Nat.eqb_refl in P.
    destruct c as [f p [t|]]; [discriminate|]. cbn in P. destruct f; try contradiction. destruct P. discriminate.
  - apply nth_error_None in N. destruct (i_out _ _ _ V i N) as [M _]. rewrite B in M. cbn in M. rewrite Nat.eqb_refl in M. discriminate.
Qed.

(** C112 (the report): after any run the report can be made and ch_stats can take its next
    message; no device client has two rows, and a row shows the counters of a device
    client.  When ch_stats has no message left, there is a row for each device client
    that has announced itself and not ended, and for no other. *)
Theorem C112_report absmax ls s e : Forall fresh ls -> srun absmax stats_start ls = Some (s, e) ->
  (d_box s <> [] -> sstep absmax s STake <> None) /\
  exists l, report s = Some (l, d_old s) /\ NoDup (map fst l) /\
    (forall i t, In (i, t) l -> exists c, nth_error (d_cl s) i = Some c /\ c_tab c = Some t) /\
    (d_box s = [] -> forall i, In i (map fst l) <-> exists c, nth_error (d_cl s) i = Some c /\ c_phase c = FTold).
Proof.
  intros F R. destruct (inv_reached _ _ _ _ F R) as [tot V]. split; [eapply inv_take; exact V|].
  destruct (inv_report _ _ _ V) as (l & A1 & A2 & A3 & A4). exists l. split; [exact A1|]. split; [exact A3|]. split; [exact A4|].
  intros B i. rewrite A2. split.
  - intros I. destruct (listed_tab _ _ _ _ V I) as (c & t & N & T). exists c. split; [exact N|]. apply listed_in in I.
    destruct (inv_tot _ _ _ _ _ V N) as [u NU]. destruct (i_cl _ _ _ V i c u N NU) as (_ & P & _). unfold placed in P. rewrite B, T in P. cbn in P.
    destruct (c_phase c); try reflexivity; exfalso; [destruct P; lia|destruct P; lia|destruct P as [[? _]|[? _]]; discriminate].
  - intros (c & N & T). apply listed_in. destruct (inv_tot _ _ _ _ _ V N) as [u NU]. destruct (i_cl _ _ _ V i c u N NU) as (_ & P & _). unfold placed in P. rewrite B, T in P. cbn in P.
    destruct (c_tab c); [|contradiction]. destruct P as [[? _]|[_ P]]; [discriminate|lia].
Qed.

(** C112 (totals): the rows and the row of those ended never show more datagrams sent than
    there were, and exactly these when ch_stats has no message left. *)
Theorem C112_total absmax ls s e : Forall fresh ls -> srun absmax stats_start ls = Some (s, e) ->
  exists l old, report s = Some (l, old) /\
    list_sum (map (fun r => snd r CSent) l) + old CSent <= length (all_sent e) /\
    (d_box s = [] -> list_sum (map (fun r => snd r CSent) l) + old CSent = length (all_sent e)).
Proof.
  intros F R. destruct (inv_reached _ _ _ _ F R) as [tot V]. destruct (inv_report _ _ _ V) as (l & A1 & A2 & A3 & A4).
  exists l, (d_old s). split; [exact A1|].
  assert (E1 : list_sum (map (fun r => snd r CSent) l) = list_sum (map (fun i => ith tot i CSent) (d_cur s))).
  { rewrite <- A2, map_map. f_equal. apply map_ext_in. intros [i t] I. cbn [fst snd]. destruct (A4 i t I) as (c & N & T). destruct (inv_tot _ _ _ _ _ V N) as [u NU].
    destruct (i_cl _ _ _ V i c u N NU) as (_ & _ & _ & _ & E). rewrite T in E. unfold ith. rewrite NU. apply E. }
  assert (BD : forall i, In i (d_cur s) -> i < length (d_cl s)).
  { intros i I. destruct (listed_tab _ _ _ _ V I) as (c & t & N & T). apply nth_error_Some. rewrite N. discriminate. }
  rewrite E1, (sum_listed _ _ _ BD), (i_old _ _ _ V), (sum_gone _ _ _ (i_len _ _ _ V)), (sum_sent e _ (i_seen _ _ _ V)), <- sum_add.
  assert (ONE : forall i, In i (seq 0 (length (d_cl s))) ->
    listed i (d_cur s) * ith tot i CSent + match nth_error (d_cl s) i with Some (mkCli _ _ None) => ith tot i CSent | _ => 0 end <= length (sent_by i e) /\
    (d_box s = [] -> listed i (d_cur s) * ith tot i CSent + match nth_error (d_cl s) i with Some (mkCli _ _ None) => ith tot i CSent | _ => 0 end = length (sent_by i e))).
  { intros i I. apply in_seq in I. destruct (nth_error (d_cl s) i) as [c|] eqn:N; [|apply nth_error_None in N; lia].
    destruct (inv_tot _ _ _ _ _ V N) as [u NU]. destruct (i_cl _ _ _ V i c u N NU) as (TC & P & _ & Z & _).
    pose proof (tc_sent _ _ _ _ TC) as S1. unfold ith. rewrite NU. rewrite <- S1. unfold placed in P. destruct c as [f p [t|]]; cbn [c_phase c_tab early] in *.
    - assert (L : listed i (d_cur s) <= 1) by (eapply listed_once; exact V). split; [nia|]. intros B. rewrite B in P. cbn in P.
      destruct f; [rewrite (Z eq_refl); lia|rewrite (Z eq_refl); lia|destruct P as [[? _]|[_ ->]]; [discriminate|lia]|destruct P as [[? _]|[? _]]; discriminate].
    - destruct f; try contradiction. destruct P as [_ ->]. lia. }
  split; [apply sum_le; intros i I; apply ONE; exact I|]. intros B. apply sum_ext. intros i I. apply ONE; [exact I|exact B].
Qed.

(** ch_stats gets there: its mailbox is empty after as many steps as there are messages. *)
Theorem C112_catches_up absmax ls s e : Forall fresh ls -> srun absmax stats_start ls = Some (s, e) ->
  exists s', srun absmax stats_start (ls ++ repeat STake (length (d_box s))) = Some (s', e) /\ d_box s' = [].
Proof.
  intros F R. assert (RA : forall a b s0, srun absmax s0 (a ++ b) = match srun absmax s0 a with Some (s1, e1) => match srun absmax s1 b with Some (s2, e2) => Some (s2, e1 ++ e2) | None => None end | None => None end).
  { induction a as [|l a IH]; intros b s0; cbn [app srun]; [destruct (srun absmax s0 b) as [[? ?]|]; reflexivity|]. destruct (sstep absmax s0 l) as [[s1 e1]|]; [|reflexivity].
    rewrite IH. destruct (srun absmax s1 a) as [[s2 e2]|]; [|reflexivity]. destruct (srun absmax s2 b) as [[s3 e3]|]; [rewrite app_assoc|]; reflexivity. }
  destruct (inv_reached _ _ _ _ F R) as [tot V]. rewrite RA, R. clear RA R F.
  assert (G : forall n s0 tot0, length (d_box s0) = n -> inv s0 e tot0 -> exists s', srun absmax s0 (repeat STake n) = Some (s', []) /\ d_box s' = []).
  { clear. induction n as [|n IH]; intros s0 tot0 L V.
    - exists s0. split; [reflexivity|]. apply length_zero_iff_nil. exact L.
    - cbn [repeat srun]. pose proof (inv_take absmax _ _ _ V) as K. destruct (sstep absmax s0 STake) as [[s1 e1]|] eqn:S1; [|exfalso; apply K; [intros B; rewrite B in L; discriminate|reflexivity]].
      assert (Q : e1 = [] /\ length (d_box s1) = n).
      { cbn [sstep] in S1. destruct (d_box s0) as [|[i|i] r]; [discriminate| |].
        - injection S1 as <- <-. cbn in L |- *. auto.
        - destruct (nth_error (d_cl s0) i) as [[f p [t|]]|]; try discriminate. injection S1 as <- <-. cbn in L |- *. auto. }
      destruct Q as [-> L1]. destruct (inv_step _ _ _ _ STake _ _ I V S1) as [tot1 V1]. rewrite app_nil_r in V1.
      destruct (IH s1 tot1 L1 V1) as (s' & -> & B). exists s'. auto. }
  destruct (G _ s tot eq_refl V) as (s' & -> & B). exists s'. rewrite app_nil_r. auto.
Qed.

(** *** What the counters do not say *)

Lemma run_each (Q : cli -> Prop) absmax :
  (forall p, p = new20 \/ p = new13 -> Q (mkCli FMade p (Some empty_table))) ->
  (forall f f' p t, Q (mkCli f p t) -> Q (mkCli f' p t)) ->
  (forall f p t, Q (mkCli f p t) -> Q (mkCli f p None)) ->
  (forall p t l p' ps vs cs, Q (mkCli FTold p (Some t)) -> pstep absmax p l = Some (p', ps, vs, cs) -> Q (mkCli FTold p' (Some (bump t cs)))) ->
  forall ls s e s0, Forall fresh ls -> Forall Q (d_cl s0) -> srun absmax s0 ls = Some (s, e) -> Forall Q (d_cl s).
Proof.
  intros H0 H1 H2 H3.
  assert (PUT : forall l i c c', nth_error l i = Some c -> Forall Q l -> (Q c -> Q c') -> Forall Q (put_cli l i c')).
  { intros l i c c' N A K. unfold put_cli. apply Forall_app. split; [apply Forall_forall; intros x I; rewrite Forall_forall in A; apply A; rewrite <- (firstn_skipn i l); apply in_app_iff; left; exact I|].
    constructor; [apply K; rewrite Forall_forall in A; apply A; eapply nth_error_In; exact N|].
    apply Forall_forall. intros x I. rewrite Forall_forall in A. apply A. rewrite <- (firstn_skipn (S i) l). apply in_app_iff. right. exact I. }
  induction ls as [|l r IH]; intros s e s0 F A R; cbn [srun] in R; [injection R as <- _; exact A|].
  destruct (sstep absmax s0 l) as [[s1 e1]|] eqn:S1; [|discriminate]. destruct (srun absmax s1 r) as [[s2 e2]|] eqn:S2; [|discriminate].
  injection R as <- _. inversion F as [|? ? F1 F2]; subst. apply (IH s2 e2 s1 F2); [|exact S2]. clear IH S2.
  destruct l as [p|i|i l|i|i|]; cbn [sstep] in S1.
  - injection S1 as <- _. cbn [d_cl]. apply Forall_app. split; [exact A|]. constructor; [apply H0; exact F1|constructor].
  - destruct (nth_error (d_cl s0) i) as [[f p t]|] eqn:N; [|discriminate]. destruct f; try discriminate; injection S1 as <- _; cbn [d_cl]; (eapply PUT; [exact N|exact A|apply H1]).
  - destruct (nth_error (d_cl s0) i) as [[f p [t|]]|] eqn:N; try discriminate; destruct f; try discriminate. destruct (over p); [discriminate|].
    destruct (pstep absmax p l) as [[[[p' ps] vs] cs]|] eqn:PS; [|discriminate]. injection S1 as <- _. cbn [d_cl]. eapply PUT; [exact N|exact A|]. intros K. eapply H3; [exact K|exact PS].
  - destruct (nth_error (d_cl s0) i) as [[f p t]|] eqn:N; [|discriminate]. cbn [c_phase c_proc] in S1. destruct f; try discriminate. destruct (over p); [|discriminate]. injection S1 as <- _. cbn [ends c_phase c_proc c_tab]. eapply PUT; [exact N|exact A|apply H1].
  - destruct (nth_error (d_cl s0) i) as [[f p t]|] eqn:N; [|discriminate]. cbn [c_phase c_proc] in S1. destruct f; try discriminate; injection S1 as <- _; cbn [ends c_phase c_proc c_tab]; (eapply PUT; [exact N|exact A|]); intros K; first [apply (H1 _ _ _ _ K)|apply (H1 FMade); apply (H2 _ _ _ K)].
  - destruct (d_box s0) as [|[i|i] b]; [discriminate|injection S1 as <- _; exact A|].
    destruct (nth_error (d_cl s0) i) as [[f p [t|]]|] eqn:N; try discriminate. injection S1 as <- _. cbn [d_cl]. eapply PUT; [exact N|exact A|apply H2].
Qed.

(** Timeouts of an IPbus 1.3 target are not counted once its first status is known: the
    columns of timeouts, losses, recoveries and resends are 0 in every run. *)
Theorem C112_silent13 absmax ls s e i c t : Forall fresh ls -> srun absmax stats_start ls = Some (s, e) ->
  nth_error (d_cl s) i = Some c -> c_tab c = Some t -> is20 (c_proc c) = false ->
  t CNormal = 0 /\ t CLostReq = 0 /\ t CLostResp = 0 /\ t CRecovered = 0 /\ t CResend = 0.
Proof.
  intros F R N T K.
  assert (G : Forall (fun c => is20 (c_proc c) = false -> forall t, c_tab c = Some t -> t CNormal = 0 /\ t CLostReq = 0 /\ t CLostResp = 0 /\ t CRecovered = 0 /\ t CResend = 0) (d_cl s)).
  { eapply (run_each _ absmax) with (s0 := stats_start); [..|exact F|constructor|exact R].
    - intros p _ _ t0 Q. injection Q as <-. repeat split.
    - intros f f' p t0 H. exact H.
    - intros f p t0 _ _ t1. discriminate.
    - intros p t0 l p' ps vs cs H PS K1 t1 Q. injection Q as <-. pose proof (g_kind _ _ _ _ _ _ (pstep_good _ _ _ _ _ _ _ PS)) as GK. cbn [c_proc c_tab] in *.
      rewrite GK in *. specialize (H K1 t0 eq_refl).
      assert (Z : forall x, In x cs -> x = CSent \/ x = CRcvd \/ x = CStatus).
      { destruct p as [h|h]; [destruct p'; discriminate|]. destruct l as [q| | |b]; cbn [pstep] in PS.
        - injection PS as _ _ _ <-. contradiction.
        - destruct (take13 h) as [[[? ?] ?]|]; [|discriminate]. injection PS as _ _ _ <-. unfold take_ctrs13, send_ctrs13. destruct (k_box h); [contradiction|].
          destruct (k_mode h); try contradiction; [destruct (first_version _)|destruct (ctl13 _)]; cbn; intuition.
        - destruct (expire13 h) as [[[? ?] ?]|]; [|discriminate]. injection PS as _ _ _ <-. unfold expire_ctrs13. destruct (k_mode h); try contradiction.
          cbn. destruct (Nat.leb _ _); [|destruct v2]; cbn; intuition.
        - destruct (recv13 h b) as [[[? ?] ?]|]; [|discriminate]. injection PS as _ _ _ <-. unfold recv_ctrs13, forward_ctrs13, send_ctrs13.
          destruct (k_mode h); try contradiction; try (destruct (k_fl h); cbn; intuition; fail). cbn. destruct (ctl13 _); cbn; intuition. }
      assert (W : forall x, x <> CSent -> x <> CRcvd -> x <> CStatus -> length (filter (ctr_eqb x) cs) = 0).
      { clear - Z. intros x X1 X2 X3. induction cs as [|y cs IH]; [reflexivity|]. cbn [filter]. assert (E : ctr_eqb x y = false).
        { destruct (Z y (or_introl eq_refl)) as [->|[->| ->]]; destruct x; try reflexivity; congruence. }
        rewrite E. apply IH. intros z I. apply Z. right. exact I. }
      unfold bump. rewrite !W by discriminate. rewrite !Nat.add_0_r. exact H. }
  rewrite Forall_forall in G. apply (G c); [eapply nth_error_In; exact N|exact K|exact T].
Qed.

(** *** Cases *)

(** An IPbus 2.0 target: a request is answered, the answer is repeated by the network, a
    second request gets no answer and the device client asks for the state of the target;
    a second device client is killed before ch_stats knows of it. *)
Definition st_reply (next : N) : bytes := ([0x20; 0; 0; 0xF1; 0; 6; 0x1A; 0x80; 0; 0; 0; 4; 0x20; 0] ++ [next; 0xF0] ++ repeat 0 48)%N.
Definition c112_ls : list slab :=
  [SSpawn new20; SOn 0; SSpawn new13; SOn 0; SDo 0 (DCast (mkReq 7 [0x20; 0x12; 0x34; 0xF0; 5]%N)); SDo 0 DTake; STake; SOn 1;
   SDo 0 (DIn (st_reply 101)); SDo 0 (DIn [0x20; 0; 101; 0xF0; 9]%N); SDo 0 (DIn [0x20; 0; 101; 0xF0; 9]%N); SKilled 1; STake;
   SDo 0 (DCast (mkReq 7 [0x20; 0x12; 0x35; 0xF0; 6]%N)); SDo 0 DTake; SDo 0 DTime].
Definition shown (t : table) : list nat := map t [CSent; CRcvd; CNormal; CLostReq; CLostResp; CRecovered; CResend; CStatus].
Definition told (r : option (list (nat * table) * table)) : option (list (nat * list nat) * list nat) :=
  option_map (fun r => (map (fun x => (fst x, shown (snd x))) (fst r), shown (snd r))) r.
Example C112_case_hyps : Forall fresh c112_ls.
Proof. unfold c112_ls. repeat (apply Forall_cons; [cbn; auto|]). apply Forall_nil. Qed.
Example C112_case : option_map (fun x => (d_box (fst x), map c_phase (d_cl (fst x)), told (report (fst x)), length (all_sent (snd x)), (used_by 0 (snd x), taken 0 (snd x), timeouts 0 (snd x)))) (srun 16 stats_start c112_ls) =
  Some ([], [FTold; FEnd], Some ([(0, [4; 2; 1; 0; 0; 0; 0; 0])], [0; 0; 0; 0; 0; 0; 0; 0]), 4, (2, 3, 1)).
Proof. vm_compute. reflexivity. Qed.
(** The first device client recovers from its timeout, then it is killed as well; ch_stats
    takes the messages that are left. *)
Definition c112_more : list slab := c112_ls ++ [SDo 0 (DIn (st_reply 102)); SDo 0 (DIn [0x20; 0; 102; 0xF0; 9]%N); SKilled 0; STake].
Example C112_case_more : option_map (fun x => (d_box (fst x), map c_phase (d_cl (fst x)), told (report (fst x)), length (all_sent (snd x)))) (srun 16 stats_start c112_more) =
  Some ([], [FEnd; FEnd], Some ([], [5; 4; 1; 1; 0; 1; 0; 0]), 5).
Proof. vm_compute. reflexivity. Qed.

(** It is false that "Packets In" is the number of datagrams received: in the case above the
    device client, which goes on, has taken three and counted two. *)
Theorem C112_received_refuted : ~ forall absmax ls s e i c t, Forall fresh ls -> srun absmax stats_start ls = Some (s, e) ->
  nth_error (d_cl s) i = Some c -> c_tab c = Some t -> over (c_proc c) = false -> t CRcvd = taken i e.
Proof.
  intros H. pose proof (C112_case_hyps) as F. pose proof C112_case as C.
  destruct (srun 16 stats_start c112_ls) as [[s e]|] eqn:R; [|discriminate]. specialize (H 16 c112_ls s e 0).
  assert (W : option_map (fun x => (taken 0 (snd x), option_map (fun c => (over (c_proc c), option_map (fun t => t CRcvd) (c_tab c))) (nth_error (d_cl (fst x)) 0))) (srun 16 stats_start c112_ls) = Some (3, Some (false, Some 2))) by (vm_compute; reflexivity).
  rewrite R in W. cbn [option_map fst snd] in W. destruct (nth_error (d_cl s) 0) as [c|]; [|discriminate]. cbn [option_map] in W. destruct (c_tab c) as [t|] eqn:T; [|discriminate]. cbn [option_map] in W.
  injection W as W1 W2 W3. specialize (H c t F R eq_refl T W2). congruence.
Qed.

(** An IPbus 1.3 target whose reply is lost: two timeouts, none counted. *)
Definition c112_ls13 : list slab :=
  [SSpawn new13; SOn 0; SOn 0; SDo 0 (DCast (mkReq 7 [0x10; 3; 0; 0xF8; 0; 0; 0; 3]%N)); SDo 0 DTake; SDo 0 (DIn (concat (repeat [0xFC; 0; 0; 0x10] 10))%N); SDo 0 DTime; SDo 0 DTime].
Example C112_silent13_hyps : Forall fresh c112_ls13.
Proof. unfold c112_ls13. repeat (apply Forall_cons; [cbn; auto|]). apply Forall_nil. Qed.
Example C112_silent13_case : option_map (fun x => (timeouts 0 (snd x), option_map (fun c => (is20 (c_proc c), over (c_proc c), option_map shown (c_tab c))) (nth_error (d_cl (fst x)) 0))) (srun 16 stats_start c112_ls13) =
  Some (2, Some (false, false, Some [2; 1; 0; 0; 0; 0; 0; 0])).
Proof. vm_compute. reflexivity. Qed.
(** So it is false, for targets of both versions, that the timeouts are counted. *)
Theorem C112_timeout13_refuted : ~ forall absmax ls s e i c t, Forall fresh ls -> srun absmax stats_start ls = Some (s, e) ->
  nth_error (d_cl s) i = Some c -> c_tab c = Some t -> over (c_proc c) = false -> t CNormal + t CResend + t CStatus = timeouts i e.
Proof.
  intros H. pose proof C112_silent13_hyps as F. pose proof C112_silent13_case as W.
  destruct (srun 16 stats_start c112_ls13) as [[s e]|] eqn:R; [|discriminate]. specialize (H 16 c112_ls13 s e 0).
  cbn [option_map fst snd] in W. destruct (nth_error (d_cl s) 0) as [c|]; [|discriminate]. cbn [option_map] in W. destruct (c_tab c) as [t|] eqn:T; [|discriminate]. cbn [option_map shown map] in W.
  injection W as W1 W2 W3 W4 W5 W6 W7 W8 W9 W10 W11. specialize (H c t F R eq_refl T W3). lia.
Qed.

Print Assumptions C112_counts.
Print Assumptions C112_report.
Print Assumptions C112_total.
Print Assumptions C112_catches_up.
Print Assumptions C112_silent13.
Print Assumptions C112_received_refuted.
Print Assumptions C112_timeout13_refuted.
