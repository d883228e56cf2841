(** Proof layer: executions against an arbitrary network. *)
From Verif Require Import Word Bits Header WordLemmas HeaderProofs ValMem Client
  Validate System Tx Net NetProofs.
From Coq Require Import NArith ZArith List Lia Bool ZifyBool ZifyNat ZifyN.
Import ListNotations.
Open Scope N_scope.

Lemma nth_upd {A} (l : list A) i f c :
  nth_error (upd l i f) c = if Nat.eqb c i then option_map f (nth_error l c) else nth_error l c.
Proof.
  revert i c. induction l as [|x t IH]; intros i c; cbn [upd].
  - destruct c, (Nat.eqb _ i); reflexivity.
  - destruct i as [|j]; destruct c as [|d]; cbn [nth_error Nat.eqb]; try reflexivity. apply IH.
Qed.

Lemma fill_cell_flag h e c : option_map cell_valid (nth_error (fill_cell h e) c) =
  option_map cell_valid (nth_error h c).
Proof.
  assert (U : forall i f, (forall k, cell_valid (f k) = cell_valid k) ->
    option_map cell_valid (nth_error (upd h i f) c) = option_map cell_valid (nth_error h c)).
  { intros i f F. rewrite nth_upd. destruct (Nat.eqb c i); [|reflexivity].
    destruct (nth_error h c); cbn; [rewrite F|]; reflexivity. }
  destruct e as [[| | |i|i off len] [|w ws]]; cbn [fill_cell]; try reflexivity; apply U; intros []; reflexivity.
Qed.

Lemma fill_cell_other h e c : ~ In c (dest_cells (fst e)) -> nth_error (fill_cell h e) c = nth_error h c.
Proof.
  intros N. destruct e as [[| | |i|i off len] [|w ws]]; cbn [fill_cell fst dest_cells] in *; try reflexivity;
    rewrite nth_upd; (destruct (Nat.eqb c i) eqn:E; [|reflexivity]);
    apply Nat.eqb_eq in E; subst; destruct N; left; reflexivity.
Qed.

Lemma fill_flag l : forall h c, option_map cell_valid (nth_error (fill h l) c) =
  option_map cell_valid (nth_error h c).
Proof.
  unfold fill. induction l as [|e t IH]; intros h c; [reflexivity|].
  cbn [fold_left]. rewrite IH. apply fill_cell_flag.
Qed.

Lemma fill_other l : forall h c, ~ In c (flat_map dest_cells (map fst l)) ->
  nth_error (fill h l) c = nth_error h c.
Proof.
  unfold fill. induction l as [|e t IH]; intros h c N; [reflexivity|].
  cbn [fold_left map flat_map] in *. rewrite in_app_iff in N. rewrite IH by tauto.
  apply fill_cell_other. tauto.
Qed.

Lemma fill_length l : forall h, length (fill h l) = length h.
Proof.
  unfold fill. induction l as [|e t IH]; intros h; [reflexivity|].
  cbn [fold_left]. rewrite IH. apply fill_cell_length.
Qed.

Lemma scatter_fst ds : forall ws, map fst (scatter ds ws) = ds.
Proof. induction ds as [|d t IH]; intros ws; [reflexivity|]. cbn. rewrite IH. reflexivity. Qed.

Lemma mark_valid_nth cs : forall h c,
  nth_error (mark_valid h cs) c =
  if in_dec Nat.eq_dec c cs then option_map cell_validate (nth_error h c) else nth_error h c.
Proof.
  unfold mark_valid. induction cs as [|a t IH]; intros h c; [reflexivity|].
  cbn [fold_left]. rewrite IH. rewrite nth_upd.
  assert (CV : forall k, cell_validate (cell_validate k) = cell_validate k) by (intros []; reflexivity).
  destruct (Nat.eqb c a) eqn:E.
  - apply Nat.eqb_eq in E. subst a.
    destruct (in_dec Nat.eq_dec c (c :: t)) as [_|N]; [|destruct N; left; reflexivity].
    destruct (in_dec Nat.eq_dec c t); [|reflexivity].
    destruct (nth_error h c); cbn; [rewrite CV|]; reflexivity.
  - apply Nat.eqb_neq in E.
    destruct (in_dec Nat.eq_dec c t) as [I|I]; destruct (in_dec Nat.eq_dec c (a :: t)) as [I'|I'];
      try reflexivity; exfalso; cbn in I'; intuition congruence.
Qed.

Definition valid_at (h : list cell) (c : nat) : Prop :=
  exists k, nth_error h c = Some k /\ cell_valid k = true.

Lemma valid_inval h c : valid_at h c -> inval h c -> False.
Proof. intros (k & E & V) (k' & E' & V'). congruence. Qed.

Lemma flag_dec h c : (c < length h)%nat -> valid_at h c \/ inval h c.
Proof.
  intros L. destruct (nth_error h c) as [k|] eqn:E; [|apply nth_error_None in E; lia].
  destruct (cell_valid k) eqn:V; [left|right]; exists k; auto.
Qed.

Lemma flag_inval h h' c : option_map cell_valid (nth_error h' c) = option_map cell_valid (nth_error h c) ->
  inval h c -> inval h' c.
Proof.
  intros E (k & N & V). rewrite N in E. cbn in E. destruct (nth_error h' c) as [k'|] eqn:N'; [|discriminate].
  injection E as E. exists k'. split; [assumption|congruence].
Qed.

(** ** The invariant *)
Definition Ninv (y : net) : Prop :=
  let s := n_c y in
  Wst s /\ (n_base y <= length (s_heap s))%nat /\
  (n_doom y = false -> forall c, (n_base y <= c < length (s_heap s))%nat -> valid_at (s_heap s) c \/ vocc (pend s) c) /\
  (n_exc y = 0%nat -> n_base y = 0%nat) /\ (n_doom y = true -> n_wait y = true).

Lemma Ninv_init : Ninv init_net.
Proof. split; [split; [intros b c []|exact I]|]. cbn. repeat split; intros; try lia; discriminate. Qed.

(** The event completes handle [c]. *)
Definition completes (g : cfg) (y : net) (l : nlabel) (c : nat) : Prop :=
  exists ws b q h, l = NReply ws /\ n_fail y = false /\ s_out (n_c y) = b :: q /\
    receive_packet g (s_heap (n_c y)) b ws = (h, VOk) /\ In c (b_vals b).

(** Effect of one event. *)
Definition step_ok (g : cfg) (y : net) (l : nlabel) (y' : net) : Prop :=
  let h := s_heap (n_c y) in let h' := s_heap (n_c y') in
  Ninv y' /\ (length h <= length h')%nat /\
  (forall c k, nth_error h c = Some k -> cell_valid k = true -> nth_error h' c = Some k) /\
  (forall c, inval h c -> inval h' c \/ completes g y l c /\ ~ occ (pend (n_c y')) c) /\
  (forall c, (c < length h)%nat -> occ (pend (n_c y')) c -> occ (pend (n_c y)) c) /\
  (n_exc y' = n_exc y /\ (n_fail y = true -> n_fail y' = true) \/
   n_exc y' = S (n_exc y) /\ n_fail y' = false /\ n_c y' = mkSt 0 None h' [] None /\ n_wait y' = false).

Lemma Wst_budget s f : Wst s -> Wst (set_budget s f). Proof. auto. Qed.
Lemma Wst_cut s k : Wst s -> Wst (cut_budget s k). Proof. auto. Qed.

Lemma heap_ext_facts (h : list cell) (k : cell) :
  (forall c x, nth_error h c = Some x -> nth_error (h ++ [k]) c = Some x) /\
  (length h <= length (h ++ [k]))%nat.
Proof.
  split; [|rewrite app_length; cbn; lia]. intros c x E. rewrite nth_error_app1; [exact E|].
  apply nth_error_Some. congruence.
Qed.

Lemma dropped_ok g y l s' :
  Ninv y -> (s_heap s' = s_heap (n_c y) \/ exists k, s_heap s' = s_heap (n_c y) ++ [k] /\ cell_valid k = false) ->
  step_ok g y l (mkNet (drop_all s') false false (n_bad y) (length (s_heap s')) (S (n_exc y)) false).
Proof.
  intros NI H. unfold step_ok. cbn [n_c n_fail n_base n_exc n_wait n_doom drop_all exception_handler s_ctr s_budget s_heap pend s_out s_cur].
  assert (X : (length (s_heap (n_c y)) <= length (s_heap s'))%nat /\
     (forall c x, nth_error (s_heap (n_c y)) c = Some x -> nth_error (s_heap s') c = Some x)).
  { destruct H as [->|(k & -> & _)]; [auto|]. destruct (heap_ext_facts (s_heap (n_c y)) k). auto. }
  destruct X as (X1 & X2). split; [|split; [exact X1|split; [|split; [|split]]]].
  - split; [split; [intros b c []|exact I]|]. cbn [n_c n_base n_exc n_wait n_doom drop_all exception_handler s_ctr s_budget s_heap].
    repeat split; intros; try lia; discriminate.
  - intros c k E _. auto.
  - intros c (k & E & V). left. exists k. auto.
  - intros c _ (b & [] & _).
  - right. auto.
Qed.

Lemma nstep_ok g y l y' : Ninv y -> nstep g y l = Some y' -> step_ok g y l y'.
Proof.
  intros NI ST. assert (NI2 := NI). destruct NI2 as (HW & HB & HC & HE & HD).
  destruct y as [s fl w bad base ex dm]. cbn [n_c n_fail n_wait n_bad n_base n_exc n_doom] in *.
  destruct l as [o| | | |ws| |o k]; cbn [nstep n_c n_fail n_wait n_bad n_base n_exc n_doom] in ST.
  - destruct w; [discriminate|].
    assert (P := run_op_post g (set_budget s fl) o (Wst_budget s fl HW)).
    assert (HS : s_heap (set_budget s fl) = s_heap s) by reflexivity.
    assert (PS : pend (set_budget s fl) = pend s) by reflexivity.
    destruct (run_op g (set_budget s fl) o) as [s' c0|s' e|]; cbn [op_post] in P; rewrite ?HS, ?PS in P.
    + injection ST as <-. destruct P as (W' & -> & (k & HK & VK) & (b0 & C0 & V0) & K & O).
      destruct (heap_ext_facts (s_heap s) k) as (F1 & F2). rewrite <- HK in F1, F2.
      unfold step_ok. cbn [n_c n_fail n_base n_exc n_wait n_doom].
      split; [|split; [exact F2|split; [|split; [|split]]]].
      * split; [exact W'|]. cbn [n_c n_base n_exc n_wait n_doom]. split; [lia|]. split; [|split; [exact HE|exact HD]].
        intros DM c Hc. destruct (Nat.eq_dec c (length (s_heap s))) as [->|N].
        -- right. exists b0. split; [|exact V0]. unfold pend. rewrite C0. apply in_or_app. right. left. reflexivity.
        -- rewrite HK, app_length in Hc. cbn [length] in Hc.
           destruct (HC DM c) as [(x & Ex & Vx)|Q]; [lia| |right; apply K; exact Q].
           left. exists x. auto.
      * intros c x E _. auto.
      * intros c (x & E & V). left. exists x. auto.
      * intros c Hc. apply O. lia.
      * left. auto.
    + destruct P as (W' & HK & K & O).
      destruct e.
      * injection ST as <-. destruct HK as [HK|(X & _)]; [|discriminate].
        unfold step_ok. cbn [n_c n_fail n_base n_exc n_wait n_doom]. rewrite HK.
        split; [|split; [lia|split; [auto|split; [auto|split; [|auto]]]]].
        -- split; [exact W'|]. cbn [n_c n_base n_exc n_wait n_doom]. rewrite HK. split; [exact HB|]. split; [|split; [exact HE|exact HD]].
           intros DM c Hc. destruct (HC DM c Hc) as [Q|Q]; [auto|right; apply K; [discriminate|exact Q]].
        -- intros c Hc. apply O. lia.
      * injection ST as <-. destruct HK as [HK|(X & _)]; [|discriminate].
        unfold step_ok. cbn [n_c n_fail n_base n_exc n_wait n_doom]. rewrite HK.
        split; [|split; [lia|split; [auto|split; [auto|split; [|auto]]]]].
        -- split; [exact W'|]. cbn [n_c n_base n_exc n_wait n_doom]. rewrite HK. split; [exact HB|]. split; [|split; [exact HE|exact HD]].
           intros DM c Hc. destruct (HC DM c Hc) as [Q|Q]; [auto|right; apply K; [discriminate|exact Q]].
        -- intros c Hc. apply O. lia.
      * injection ST as <-. apply (dropped_ok g (mkNet s fl false bad base ex dm)); [exact NI|].
        destruct HK as [HK|(_ & HK)]; [left; exact HK|right; exact HK].
    + injection ST as <-. unfold step_ok. cbn [n_c n_fail n_base n_exc n_wait n_doom].
      split; [exact NI|]. repeat split; auto.
  - destruct w; [discriminate|]. destruct (s_cur s) as [b|] eqn:C.
    + unfold dispatch_send in ST. cbn [set_budget s_cur] in ST. rewrite C in ST.
      assert (SC := send_current_ext g (s_heap s ++ [CHdr false]) (length (s_heap s)) (set_budget s fl) b C).
      assert (SC2 := send_current_ext g (s_heap s ++ [CHdr false]) (S (length (s_heap s))) (set_budget s fl) b C).
      assert (J0 := W_J s (CHdr false) HW eq_refl).
      destruct (send_current g (set_budget s fl) b) as [s' []|s' e|]; cbn [okres] in SC, SC2.
      * injection ST as <-. destruct SC as ((X1 & X2 & X3) & K & _). destruct SC2 as ((_ & _ & X3') & _).
        cbn [set_budget s_heap] in X2. change (pend (set_budget s fl)) with (pend s) in *.
        assert (OO : forall c, occ (pend s') c -> occ (pend s) c).
        { intros c Q. destruct (Nat.eq_dec c (length (s_heap s))) as [->|N]; [|apply X3; assumption].
          apply X3'; [lia|exact Q]. }
        unfold step_ok. cbn [n_c n_fail n_base n_exc n_wait n_doom]. rewrite X2.
        split; [|split; [lia|split; [auto|split; [auto|split; [auto|auto]]]]].
        split; [|cbn [n_c n_base n_exc n_wait n_doom]; rewrite X2; split; [exact HB|split; [|split; [exact HE|auto]]]].
        -- apply (W_shrink s' (s_heap s) (CHdr false) (length (s_heap s))); [exact (X1 J0)|exact X2|reflexivity|].
           intros Q. apply OO in Q. apply (occ_lt s _ HW) in Q. lia.
        -- intros DM c Hc. destruct (HC DM c Hc) as [Q|Q]; [auto|right; apply K, Q].
      * injection ST as <-. destruct SC as ((_ & X2 & _) & _). cbn [set_budget s_heap] in X2.
        apply (dropped_ok g (mkNet s fl false bad base ex dm)); [exact NI|left; exact X2].
      * injection ST as <-. unfold step_ok. cbn [n_c n_fail n_base n_exc n_wait n_doom].
        split; [exact NI|]. repeat split; auto.
    + injection ST as <-. unfold step_ok. cbn [n_c n_fail n_base n_exc n_wait n_doom].
      split; [exact NI|]. repeat split; auto.
  - destruct (w && negb fl && negb dm) eqn:WF; [|discriminate]. destruct (s_out s); [|discriminate].
    assert (DM : dm = false) by (destruct dm; [rewrite andb_false_r in WF; discriminate|reflexivity]).
    subst dm. rewrite andb_true_r in WF.
    injection ST as <-. unfold step_ok. cbn [n_c n_fail n_base n_exc n_wait n_doom].
    split; [split; [exact HW|]; cbn [n_c n_base n_exc n_wait n_doom]; split; [exact HB|]; split; [exact HC|];
            split; [exact HE|discriminate]|].
    repeat split; auto. left. split; [reflexivity|].
    intros ->. rewrite andb_false_r in WF. discriminate.
  - destruct (w && (fl || dm)) eqn:WF; [|discriminate]. injection ST as <-.
    apply (dropped_ok g (mkNet s fl w bad base ex dm)); [exact NI|left; reflexivity].
  - destruct fl; [discriminate|]. destruct (s_out s) as [|b q] eqn:O; [discriminate|].
    set (h1 := fill (s_heap s) (scatter (b_reply b) ws)).
    assert (SL : slots b = flat_map dest_cells (map fst (scatter (b_reply b) ws)))
      by (rewrite scatter_fst; reflexivity).
    assert (HP : pend s = b :: q ++ match s_cur s with Some b => [b] | None => [] end)
      by (unfold pend; rewrite O; reflexivity).
    assert (HW1 := HW). destruct HW1 as (A & OR). rewrite HP in A, OR. destruct OR as (O1 & O2).
    assert (L1 : length h1 = length (s_heap s)) by apply fill_length.
    assert (S1 : forall c k, nth_error (s_heap s) c = Some k -> cell_valid k = true -> nth_error h1 c = Some k).
    { intros c k E V. unfold h1. rewrite fill_other; [exact E|]. rewrite <- SL. intros Q.
      apply (valid_inval (s_heap s) c); [exists k; auto|].
      apply (A b c); [left; reflexivity|apply in_or_app; auto]. }
    assert (I1 : forall c, inval (s_heap s) c -> inval h1 c).
    { intros c. apply flag_inval, fill_flag. }
    assert (V1 : forall c, valid_at (s_heap s) c -> valid_at h1 c).
    { intros c (k & E & V). exists k. auto. }
    assert (FAILOK : forall bd, step_ok g (mkNet s false w bad base ex dm) (NReply ws)
       (mkNet (set_heap s h1) true w bd base ex dm)).
    { intros bd. unfold step_ok. cbn [n_c n_fail n_base n_exc n_wait n_doom set_heap s_heap].
      change (pend (set_heap s h1)) with (pend s).
      split; [|split; [lia|split; [exact S1|split; [auto|split; [auto|left; auto]]]]].
      split; [|cbn [n_c n_base n_exc n_wait n_doom set_heap s_heap]; rewrite L1; split; [exact HB|split; [|split; [exact HE|exact HD]]]].
      - split; [|exact (proj2 HW)]. intros x c Hx Hc. cbn [set_heap s_heap]. apply I1.
        apply (proj1 HW x c Hx Hc).
      - intros DM c Hc. destruct (HC DM c Hc) as [Q|Q]; auto. }
    unfold receive_packet in ST. fold h1 in ST.
    destruct (validate_packet g b (scatter (b_reply b) ws)) as [|e|] eqn:VP.
    2:{ injection ST as <-. apply FAILOK. }
    2:{ injection ST as <-. apply FAILOK. }
    injection ST as <-.
    set (p' := q ++ match s_cur s with Some b => [b] | None => [] end) in *.
    unfold step_ok. cbn [n_c n_fail n_base n_exc n_wait n_doom set_heap set_out s_heap].
    assert (P' : pend (set_heap (set_out s q) (mark_valid h1 (b_vals b))) = p') by reflexivity.
    rewrite P'. rewrite mark_valid_length.
    assert (S2 : forall c k, nth_error (s_heap s) c = Some k -> cell_valid k = true ->
        nth_error (mark_valid h1 (b_vals b)) c = Some k).
    { intros c k E V. rewrite mark_valid_nth.
      destruct (in_dec Nat.eq_dec c (b_vals b)) as [Q|Q]; [|auto].
      exfalso. apply (valid_inval (s_heap s) c); [exists k; auto|].
      apply (A b c); [left; reflexivity|apply in_or_app; auto]. }
    assert (I2 : forall c, ~ In c (b_vals b) -> inval (s_heap s) c -> inval (mark_valid h1 (b_vals b)) c).
    { intros c N H. destruct (I1 c H) as (k & E & V). exists k. split; [|exact V].
      rewrite mark_valid_nth. destruct (in_dec Nat.eq_dec c (b_vals b)); [contradiction|exact E]. }
    split; [|split; [lia|split; [exact S2|split; [|split; [|left; auto]]]]].
    + split; [|cbn [n_c n_base n_exc n_wait n_doom set_heap set_out s_heap]; rewrite mark_valid_length, L1;
               split; [exact HB|split; [|split; [exact HE|exact HD]]]].
      * unfold Wst. cbn [n_c]. rewrite P'. cbn [set_heap set_out s_heap]. split; [|exact O2].
        intros x c Hx Hc. apply I2.
        -- intros Q. apply (O1 c Q x Hx Hc).
        -- apply (A x c); [right; exact Hx|exact Hc].
      * intros DM c Hc. rewrite P'. destruct (HC DM c Hc) as [(k & E & V)|(x & Hx & Q)].
        -- left. exists k. auto.
        -- rewrite HP in Hx. destruct Hx as [<-|Hx]; [|right; exists x; auto].
           left. destruct (A b c) as (k & E & V); [left; reflexivity|apply in_or_app; auto|].
           destruct (I1 c) as (k1 & E1 & V1'); [exists k; auto|].
           exists (cell_validate k1). split; [|destruct k1; reflexivity].
           rewrite mark_valid_nth. destruct (in_dec Nat.eq_dec c (b_vals b)); [|contradiction].
           rewrite E1. reflexivity.
    + intros c H. destruct (in_dec Nat.eq_dec c (b_vals b)) as [Q|Q]; [right|left; auto].
      split.
      * exists ws, b, q, (mark_valid h1 (b_vals b)). cbn [n_c n_fail].
        split; [reflexivity|]. split; [reflexivity|]. split; [exact O|]. split; [|exact Q].
        unfold receive_packet. fold h1. rewrite VP. reflexivity.
      * intros (x & Hx & Qx). apply (O1 c Q x Hx Qx).
    + intros c _ (x & Hx & Qx). exists x. split; [rewrite HP; right; exact Hx|exact Qx].
  - destruct (s_out s) eqn:O; [discriminate|]. injection ST as <-.
    unfold step_ok. cbn [n_c n_fail n_base n_exc n_wait n_doom].
    split; [exact NI|]. repeat split; auto.
  - destruct w; [discriminate|]. destruct fl; [discriminate|]. cbn [orb] in ST.
    assert (X : exists s', (s_heap s' = s_heap s \/
        exists k, s_heap s' = s_heap s ++ [k] /\ cell_valid k = false) /\ Wst s' /\
        (forall c, c <> length (s_heap s) -> occ (pend s') c -> occ (pend s) c) /\
        y' = mkNet s' false true bad base ex true).
    { destruct o as [o|].
      - assert (P := run_op_post g (cut_budget s k) o (Wst_cut s k HW)).
        destruct (run_op g (cut_budget s k) o) as [s' c0|s' []|]; try discriminate.
        destruct P as (W' & HK & K & O). change (pend (cut_budget s k)) with (pend s) in O.
        cbn [cut_budget s_heap] in HK, O. injection ST as <-. exists s'. split; [intuition|]. auto.
      - unfold dispatch_send in ST. cbn [cut_budget s_cur] in ST. destruct (s_cur s) as [b|] eqn:C; [|discriminate].
        assert (SC := send_current_ext g (s_heap s ++ [CHdr false]) (length (s_heap s)) (cut_budget s k) b C).
        assert (SC2 := send_current_ext g (s_heap s ++ [CHdr false]) (S (length (s_heap s))) (cut_budget s k) b C).
        assert (J0 := W_J s (CHdr false) HW eq_refl).
        destruct (send_current g (cut_budget s k) b) as [s' []|s' []|]; try discriminate; cbn [okres] in SC, SC2.
        injection ST as <-. destruct SC as ((X1 & X2 & X3) & _). destruct SC2 as ((_ & _ & X3') & _).
        cbn [cut_budget s_heap] in X2. change (pend (cut_budget s k)) with (pend s) in *.
        assert (OO : forall c, occ (pend s') c -> occ (pend s) c).
        { intros c Q. destruct (Nat.eq_dec c (length (s_heap s))) as [->|N]; [|apply X3; assumption].
          apply X3'; [lia|exact Q]. }
        exists s'. split; [left; exact X2|]. split; [|split; [auto|reflexivity]].
        apply (W_shrink s' (s_heap s) (CHdr false) (length (s_heap s))); [exact (X1 J0)|exact X2|reflexivity|].
        intros Q. apply OO in Q. apply (occ_lt s _ HW) in Q. lia. }
    destruct X as (s' & HK & W' & O & ->). unfold step_ok. cbn [n_c n_fail n_base n_exc n_wait n_doom].
    assert (Y : (length (s_heap s) <= length (s_heap s'))%nat /\
     (forall c x, nth_error (s_heap s) c = Some x -> nth_error (s_heap s') c = Some x)).
    { destruct HK as [->|(c & -> & _)]; [auto|]. destruct (heap_ext_facts (s_heap s) c). auto. }
    destruct Y as (Y1 & Y2). split; [|split; [exact Y1|split; [|split; [|split]]]].
    + split; [exact W'|]. cbn [n_c n_base n_exc n_wait n_doom]. split; [lia|]. split; [discriminate|]. auto.
    + intros c x E _. auto.
    + intros c (x & E & V). left. exists x. auto.
    + intros c Hc. apply O. lia.
    + left. auto.
Qed.

Lemma nrun_Ninv g ls : forall y y', Ninv y -> nrun g y ls = Some y' -> Ninv y'.
Proof.
  induction ls as [|l t IH]; intros y y' NI R.
  - injection R as <-. exact NI.
  - cbn [nrun] in R. destruct (nstep g y l) as [y1|] eqn:E; [|discriminate].
    apply (IH y1); [|exact R]. apply (nstep_ok g y l y1 NI E).
Qed.

Lemma nrun_app g ls ms y : nrun g y (ls ++ ms) =
  match nrun g y ls with Some y' => nrun g y' ms | None => None end.
Proof.
  revert y. induction ls as [|l t IH]; intros y; [reflexivity|].
  cbn [app nrun]. destruct (nstep g y l); [apply IH|reflexivity].
Qed.

Lemma nrun_stable g ls : forall y y' c k, Ninv y -> nrun g y ls = Some y' ->
  nth_error (s_heap (n_c y)) c = Some k -> cell_valid k = true ->
  nth_error (s_heap (n_c y')) c = Some k.
Proof.
  induction ls as [|l t IH]; intros y y' c k NI R E V.
  - injection R as <-. exact E.
  - cbn [nrun] in R. destruct (nstep g y l) as [y1|] eqn:S; [|discriminate].
    destruct (nstep_ok g y l y1 NI S) as (N1 & _ & ST & _).
    apply (IH y1 y' c k N1 R); auto.
Qed.

Lemma nrun_completed g ls : forall y y' c, Ninv y -> nrun g y ls = Some y' ->
  inval (s_heap (n_c y)) c -> ~ inval (s_heap (n_c y')) c ->
  exists l1 l l2 y1 y2, ls = l1 ++ l :: l2 /\ nrun g y l1 = Some y1 /\ nstep g y1 l = Some y2 /\
    inval (s_heap (n_c y1)) c /\ completes g y1 l c /\ ~ occ (pend (n_c y2)) c.
Proof.
  induction ls as [|l t IH]; intros y y' c NI R H N.
  - injection R as <-. contradiction.
  - cbn [nrun] in R. destruct (nstep g y l) as [y1|] eqn:S; [|discriminate].
    destruct (nstep_ok g y l y1 NI S) as (N1 & _ & _ & CO & _).
    destruct (CO c H) as [H1|(C & O)].
    + destruct (IH y1 y' c N1 R H1 N) as (l1 & l' & l2 & a & b & -> & R1 & S1 & Q).
      exists (l :: l1), l', l2, a, b. split; [reflexivity|]. split; [|auto].
      cbn [nrun]. rewrite S. exact R1.
    + exists [], l, t, y, y1. split; [reflexivity|]. split; [reflexivity|]. auto.
Qed.

(** A handle that can never become valid. *)
Definition dead (y : net) (c : nat) : Prop :=
  inval (s_heap (n_c y)) c /\ (n_fail y = true \/ ~ occ (pend (n_c y)) c).

Lemma nstep_dead g y l y' c : Ninv y -> nstep g y l = Some y' -> dead y c -> dead y' c.
Proof.
  intros NI S (H & F). destruct (nstep_ok g y l y' NI S) as (_ & _ & _ & CO & OC & EX).
  destruct (CO c H) as [H1|((ws & b & q & h & -> & FA & O & _ & V) & _)].
  - split; [exact H1|]. destruct F as [F|F].
    + destruct EX as [(_ & X)|(_ & _ & X & _)]; [auto|]. right. rewrite X. intros (b & [] & _).
    + right. intros Q. apply F, OC; [|exact Q]. apply inval_lt, H.
  - exfalso. destruct F as [F|F]; [congruence|]. apply F. exists b. split.
    + unfold pend. rewrite O. left. reflexivity.
    + apply in_or_app. auto.
Qed.

Lemma nrun_dead g ls : forall y y' c, Ninv y -> nrun g y ls = Some y' -> dead y c -> dead y' c.
Proof.
  induction ls as [|l t IH]; intros y y' c NI R H.
  - injection R as <-. exact H.
  - cbn [nrun] in R. destruct (nstep g y l) as [y1|] eqn:S; [|discriminate].
    apply (IH y1 y' c); [|exact R|].
    + apply (nstep_ok g y l y1 NI S).
    + exact (nstep_dead g y l y1 c NI S H).
Qed.

Lemma nrun_raises g ls : forall y y', Ninv y -> nrun g y ls = Some y' -> n_fail y = true ->
  n_fail y' = true \/ (n_exc y < n_exc y')%nat.
Proof.
  assert (M : forall ls y y', Ninv y -> nrun g y ls = Some y' -> (n_exc y <= n_exc y')%nat).
  { induction ls0 as [|l t IH]; intros y y' NI R.
    - injection R as <-. lia.
    - cbn [nrun] in R. destruct (nstep g y l) as [y1|] eqn:S; [|discriminate].
      destruct (nstep_ok g y l y1 NI S) as (N1 & _ & _ & _ & _ & EX).
      specialize (IH y1 y' N1 R). destruct EX as [(X & _)|(X & _)]; lia. }
  induction ls as [|l t IH]; intros y y' NI R F.
  - injection R as <-. auto.
  - cbn [nrun] in R. destruct (nstep g y l) as [y1|] eqn:S; [|discriminate].
    destruct (nstep_ok g y l y1 NI S) as (N1 & _ & _ & _ & _ & EX).
    destruct EX as [(X & Y)|(X & _)].
    + rewrite <- X. exact (IH y1 y' N1 R (Y F)).
    + right. specialize (M t y1 y' N1 R). lia.
Qed.
