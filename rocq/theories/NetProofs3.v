(** Proof layer: whatever the network answers, the packets the client has in
    flight are well-formed and nothing undefined happens. *)
From Verif Require Import Word Bits Header WordLemmas HeaderProofs ValMem Client
  Validate Target Spec SpecLemmas System Tx E2E Sent WireSpec SentProofs Net NetProofs NetProofs2.
From Coq Require Import NArith ZArith List Lia Bool ZifyBool ZifyNat ZifyN.
Import ListNotations.
Open Scope N_scope.

(** A failing transport behaves like a working one until it throws. *)
Definition nb (s : st) : st := mkSt (s_ctr s) (s_cur s) (s_heap s) (s_out s) None.

(** Calls only add to the packets sent. *)
Definition mono {A} (s : st) (r : res A) : Prop :=
  match r with Ok s' _ | Exc s' _ => exists t, s_out s' = s_out s ++ t | Bad => True end.

Lemma mono_same {A} s s' (a : A) : s_out s' = s_out s -> mono s (Ok s' a).
Proof. intros E. exists []. rewrite E, app_nil_r. reflexivity. Qed.

Lemma mono_bind {A B} s (r : res A) (f : st -> A -> res B) :
  mono s r -> (forall s a, mono s (f s a)) -> mono s (bind r f).
Proof.
  intros H F. destruct r as [s1 a|s1 e|]; cbn [bind]; [|exact H|exact I].
  destruct H as (t & E). specialize (F s1 a).
  destruct (f s1 a) as [s2 ?|s2 ?|]; cbn [mono] in *; [| |exact I];
    destruct F as (t' & E'); exists (t ++ t'); rewrite E', E, app_assoc; reflexivity.
Qed.

Lemma mono_update g s : mono s (update_current g s).
Proof.
  unfold update_current. destruct (s_cur s); [apply mono_same; reflexivity|].
  apply mono_bind.
  - unfold preamble. destruct (g_ver g); [|apply mono_same; reflexivity].
    destruct (calc_header V1 BOT 0 (s_ctr s) (req_info V1)); [apply mono_same; reflexivity|exact I].
  - intros s1 b. destruct ((send_counter b <=? g_maxsend g) && (reply_counter b <=? g_maxreply g));
      [apply mono_same; reflexivity|exact I].
Qed.

Lemma mono_send g s b : mono s (send_current g s b).
Proof.
  unfold send_current. destruct (predispatch g b) as [b'|]; [|exact I].
  destruct (s_budget s) as [[|k]|]; cbn [mono exception_handler s_out];
    [exists []; rewrite app_nil_r|exists [b']|exists [b']]; reflexivity.
Qed.

Lemma mono_check g s x y : mono s (check_space g s x y).
Proof.
  unfold check_space. apply mono_bind; [apply mono_update|]. intros s1 b. cbv zeta.
  match goal with |- mono _ (if ?c then _ else _) => destruct c end; [apply mono_same; reflexivity|].
  match goal with |- mono _ (if ?c then _ else _) => destruct c end; [apply mono_same; reflexivity|].
  apply mono_bind; [apply mono_send|]. intros s2 u. apply mono_bind; [apply mono_update|]. intros s3 b3.
  match goal with |- mono _ (if ?c then _ else _) => destruct c end; apply mono_same; reflexivity.
Qed.

Lemma mono_push g s t wc body rep : mono s (push_tx g s t wc body rep).
Proof.
  unfold push_tx. destruct (s_cur s) as [b|]; [|exact I].
  destruct (calc_header (g_ver g) t wc (s_ctr s) (req_info (g_ver g))).
  - match goal with |- mono _ (if ?c then _ else _) => destruct c end; [exact I|apply mono_same; reflexivity].
  - exists []. cbn. rewrite app_nil_r. reflexivity.
Qed.

Lemma mono_done s k : mono s (let (s, c) := alloc s k in Ok (add_val s c) c).
Proof. cbn [alloc]. apply mono_same. unfold add_val. cbn [s_cur]. destruct (s_cur s); reflexivity. Qed.

Lemma mono_add s (c : nat) : mono s (Ok (add_val s c) c).
Proof. apply mono_same. unfold add_val. destruct (s_cur s); reflexivity. Qed.

Lemma mono_wloop fuel : forall g s t inc ne a rest p, mono s (write_loop fuel g s t inc ne a rest p).
Proof.
  induction fuel as [|f IH]; intros g s t inc ne a rest p; [exact I|].
  cbn [write_loop]. apply mono_bind; [apply mono_check|]. intros s1 u. cbv zeta.
  match goal with |- mono _ (if ?c then _ else _) => destruct c end; [exact I|].
  apply mono_bind; [apply mono_push|]. intros s2 u2.
  match goal with |- mono _ (if ?c then _ else _) => destruct c end; [apply IH|apply mono_same; reflexivity].
Qed.

Lemma mono_rloop fuel : forall g s t inc c size a off p, mono s (read_loop fuel g s t inc c size a off p).
Proof.
  induction fuel as [|f IH]; intros g s t inc c size a off p; [exact I|].
  cbn [read_loop]. apply mono_bind; [apply mono_check|]. intros s1 u. cbv zeta.
  match goal with |- mono _ (if ?c then _ else _) => destruct c end; [exact I|].
  apply mono_bind; [apply mono_push|]. intros s2 u2.
  match goal with |- mono _ (if ?c then _ else _) => destruct c end; [apply IH|apply mono_same; reflexivity].
Qed.

(** [r0]: with a transport that refuses some packet; [rN]: with one that accepts
    all. *)
Definition bsim {A} (r0 rN : res A) : Prop :=
  match r0 with
  | Ok s a => rN = Ok (nb s) a /\ s_budget s <> None
  | Exc s ETransport => s_cur s = None /\ mono s rN
  | Exc s e => rN = Exc (nb s) e
  | Bad => rN = Bad
  end.

Lemma bsim_bind {A B} (r0 rN : res A) (f : st -> A -> res B) :
  bsim r0 rN -> (forall s a, s_budget s <> None -> bsim (f s a) (f (nb s) a)) ->
  (forall s a, mono s (f s a)) ->
  bsim (bind r0 f) (bind rN f).
Proof.
  intros H F M. destruct r0 as [s a|s []|]; cbn [bind bsim] in *.
  - destruct H as (-> & E). apply F. exact E.
  - rewrite H. reflexivity.
  - rewrite H. reflexivity.
  - destruct H as (H1 & H2). split; [exact H1|]. apply mono_bind; assumption.
  - rewrite H. reflexivity.
Qed.

Lemma nb_cur s : s_cur (nb s) = s_cur s. Proof. reflexivity. Qed.
Lemma nb_ctr s : s_ctr (nb s) = s_ctr s. Proof. reflexivity. Qed.
Lemma nb_heap s : s_heap (nb s) = s_heap s. Proof. reflexivity. Qed.

Lemma bsim_preamble g s : s_budget s <> None -> bsim (preamble g s) (preamble g (nb s)).
Proof.
  intros B. unfold preamble. destruct (g_ver g).
  - rewrite nb_ctr. destruct (calc_header V1 BOT 0 (s_ctr s) (req_info V1)); [|reflexivity].
    split; [reflexivity|exact B].
  - split; [reflexivity|exact B].
Qed.

Lemma bsim_update g s : s_budget s <> None -> bsim (update_current g s) (update_current g (nb s)).
Proof.
  intros B. unfold update_current. rewrite nb_cur. destruct (s_cur s) as [b|]; [split; [reflexivity|exact B]|].
  apply bsim_bind; [apply bsim_preamble, B| |].
  - intros s1 b B1.
    destruct ((send_counter b <=? g_maxsend g) && (reply_counter b <=? g_maxreply g)); [|reflexivity].
    split; [reflexivity|exact B1].
  - intros s1 b. destruct ((send_counter b <=? g_maxsend g) && (reply_counter b <=? g_maxreply g));
      [apply mono_same; reflexivity|exact I].
Qed.

Lemma bsim_send g s b : s_budget s <> None -> bsim (send_current g s b) (send_current g (nb s) b).
Proof.
  intros B. unfold send_current. destruct (predispatch g b) as [b'|]; [|reflexivity].
  cbn [nb s_budget]. destruct (s_budget s) as [[|k]|]; [| |congruence].
  - split; [reflexivity|]. exists [b']. reflexivity.
  - split; [reflexivity|discriminate].
Qed.

Ltac monos := repeat first
  [ apply mono_check | apply mono_push | apply mono_send | apply mono_update | apply mono_done | apply mono_add
  | apply mono_wloop | apply mono_rloop | exact I | apply mono_same; reflexivity
  | apply mono_bind; [|intros ? ?; cbv zeta]
  | match goal with |- mono _ (if ?c then _ else _) => destruct c end ].

Lemma bsim_check g s x y : s_budget s <> None -> bsim (check_space g s x y) (check_space g (nb s) x y).
Proof.
  intros B. unfold check_space. apply bsim_bind; [apply bsim_update, B| |intros ? ?; cbv zeta; monos]. intros s1 b B1. cbv zeta.
  match goal with |- bsim (if ?c then _ else _) _ => destruct c end; [split; [reflexivity|exact B1]|].
  match goal with |- bsim (if ?c then _ else _) _ => destruct c end; [split; [reflexivity|exact B1]|].
  apply bsim_bind; [apply bsim_send, B1| |intros ? ?; cbv zeta; monos]. intros s2 u B2.
  apply bsim_bind; [apply bsim_update, B2| |intros ? ?; cbv zeta; monos]. intros s3 b3 B3.
  match goal with |- bsim (if ?c then _ else _) _ => destruct c end; (split; [reflexivity|exact B3]).
Qed.

Lemma bsim_push g s t wc body rep : s_budget s <> None ->
  bsim (push_tx g s t wc body rep) (push_tx g (nb s) t wc body rep).
Proof.
  intros B. unfold push_tx. rewrite nb_cur, nb_ctr. destruct (s_cur s) as [b|]; [|reflexivity].
  destruct (calc_header (g_ver g) t wc (s_ctr s) (req_info (g_ver g))); [|reflexivity].
  match goal with |- bsim (if ?c then _ else _) _ => destruct c end; [reflexivity|].
  split; [reflexivity|exact B].
Qed.

Lemma add_val_nb s c : add_val (nb s) c = nb (add_val s c).
Proof. unfold add_val. rewrite nb_cur. destruct (s_cur s); reflexivity. Qed.
Lemma add_val_budget s c : s_budget (add_val s c) = s_budget s.
Proof. unfold add_val. destruct (s_cur s); reflexivity. Qed.

Lemma bsim_finish s k : s_budget s <> None ->
  bsim (let (s, c) := alloc s k in Ok (add_val s c) c) (let (s, c) := alloc (nb s) k in Ok (add_val s c) c).
Proof.
  intros B. cbn [alloc bsim]. rewrite nb_heap. split; [|rewrite add_val_budget; exact B].
  rewrite <- add_val_nb. reflexivity.
Qed.

Lemma bsim_write g s a x : s_budget s <> None -> bsim (implement_write g s a x) (implement_write g (nb s) a x).
Proof.
  intros B. unfold implement_write. apply bsim_bind; [apply bsim_check, B| |intros ? ?; cbv zeta; monos]. intros s1 u B1.
  apply bsim_bind; [apply bsim_push, B1| |intros ? ?; cbv zeta; monos]. intros s2 u2 B2. apply bsim_finish, B2.
Qed.

Lemma bsim_word g s t a e m : s_budget s <> None ->
  bsim (implement_word g s t a e m) (implement_word g (nb s) t a e m).
Proof.
  intros B. unfold implement_word. apply bsim_bind; [apply bsim_check, B| |intros ? ?; cbv zeta; monos]. intros s1 u B1.
  apply bsim_bind; [rewrite nb_heap; apply bsim_push, B1| |intros ? ?; cbv zeta; monos]. intros s2 u2 B2. apply bsim_finish, B2.
Qed.

Lemma bsim_wloop fuel : forall g s t inc ne a rest p, s_budget s <> None ->
  bsim (write_loop fuel g s t inc ne a rest p) (write_loop fuel g (nb s) t inc ne a rest p).
Proof.
  induction fuel as [|f IH]; intros g s t inc ne a rest p B; [reflexivity|].
  cbn [write_loop]. apply bsim_bind; [apply bsim_check, B| |intros ? ?; cbv zeta; monos]. intros s1 u B1. cbv zeta.
  match goal with |- bsim (if ?c then _ else _) _ => destruct c end; [reflexivity|].
  apply bsim_bind; [apply bsim_push, B1| |intros ? ?; cbv zeta; monos]. intros s2 u2 B2.
  match goal with |- bsim (if ?c then _ else _) _ => destruct c end; [apply IH, B2|].
  split; [reflexivity|exact B2].
Qed.

Lemma bsim_rloop fuel : forall g s t inc c size a off p, s_budget s <> None ->
  bsim (read_loop fuel g s t inc c size a off p) (read_loop fuel g (nb s) t inc c size a off p).
Proof.
  induction fuel as [|f IH]; intros g s t inc c size a off p B; [reflexivity|].
  cbn [read_loop]. apply bsim_bind; [apply bsim_check, B| |intros ? ?; cbv zeta; monos]. intros s1 u B1. cbv zeta.
  match goal with |- bsim (if ?c then _ else _) _ => destruct c end; [reflexivity|].
  apply bsim_bind; [apply bsim_push, B1| |intros ? ?; cbv zeta; monos]. intros s2 u2 B2.
  match goal with |- bsim (if ?c then _ else _) _ => destruct c end; [apply IH, B2|].
  split; [reflexivity|exact B2].
Qed.

Lemma bsim_done s c : s_budget s <> None ->
  bsim (Ok (add_val s c) c) (Ok (add_val (nb s) c) c).
Proof. intros B. split; [rewrite add_val_nb; reflexivity|rewrite add_val_budget; exact B]. Qed.

Lemma bsim_op g s o : s_budget s <> None -> bsim (run_op g s o) (run_op g (nb s) o).
Proof.
  intros B. destruct o as [a x|a x m|a l inc|a m|a n inc|a x y|a x|a m]; cbn [run_op];
    try (apply bsim_word; exact B).
  - apply bsim_write, B.
  - unfold masked_write. destruct (masked_write_check x m); [reflexivity|apply bsim_word, B].
  - unfold implement_write_block. cbn [alloc]. rewrite nb_heap.
    apply bsim_bind; [apply (bsim_wloop _ g (fst (alloc s (CHdr false)))); exact B| |intros ? ?; cbv zeta; monos].
    intros s1 u B1. apply bsim_done, B1.
  - unfold implement_read_block. cbn [alloc]. rewrite nb_heap.
    apply bsim_bind; [apply (bsim_rloop _ g (fst (alloc s (CVec false (repeat 0 (N.to_nat n)))))); exact B| |intros ? ?; cbv zeta; monos].
    intros s1 u B1. apply bsim_done, B1.
Qed.

(** An exception that is not the transport's leaves a current packet. *)
Definition cpost {A} (r : res A) : Prop :=
  match r with Exc s ETransport => True | Exc s _ => s_cur s <> None | _ => True end.

Lemma cpost_bind {A B} (r : res A) (f : st -> A -> res B) :
  cpost r -> (forall s a, cpost (f s a)) -> cpost (bind r f).
Proof. destruct r as [s a|s []|]; cbn [bind cpost]; auto. Qed.

Lemma cpost_update g s : cpost (update_current g s).
Proof.
  unfold update_current. destruct (s_cur s); [exact I|]. apply cpost_bind.
  - unfold preamble. destruct (g_ver g); [|exact I].
    destruct (calc_header V1 BOT 0 (s_ctr s) (req_info V1)); exact I.
  - intros s1 b. destruct ((send_counter b <=? g_maxsend g) && (reply_counter b <=? g_maxreply g)); exact I.
Qed.

Lemma cpost_send g s b : cpost (send_current g s b).
Proof. unfold send_current. destruct (predispatch g b); [|exact I]. destruct (s_budget s) as [[|k]|]; exact I. Qed.

Lemma cpost_check g s x y : cpost (check_space g s x y).
Proof.
  unfold check_space. apply cpost_bind; [apply cpost_update|]. intros s1 b. cbv zeta.
  match goal with |- cpost (if ?c then _ else _) => destruct c end; [exact I|].
  match goal with |- cpost (if ?c then _ else _) => destruct c end; [exact I|].
  apply cpost_bind; [apply cpost_send|]. intros s2 u. apply cpost_bind; [apply cpost_update|]. intros s3 b3.
  match goal with |- cpost (if ?c then _ else _) => destruct c end; exact I.
Qed.

Lemma cpost_push g s t wc body rep : cpost (push_tx g s t wc body rep).
Proof.
  unfold push_tx. destruct (s_cur s) as [b|] eqn:C; [|exact I].
  destruct (calc_header (g_ver g) t wc (s_ctr s) (req_info (g_ver g))).
  - match goal with |- cpost (if ?c then _ else _) => destruct c end; exact I.
  - cbn. congruence.
Qed.

Lemma cpost_word g s t a e m : cpost (implement_word g s t a e m).
Proof.
  unfold implement_word. apply cpost_bind; [apply cpost_check|]. intros s1 u.
  apply cpost_bind; [apply cpost_push|]. intros s2 u2. exact I.
Qed.

Lemma cpost_wloop fuel : forall g s t inc ne a rest p, cpost (write_loop fuel g s t inc ne a rest p).
Proof.
  induction fuel as [|f IH]; intros g s t inc ne a rest p; [exact I|].
  cbn [write_loop]. apply cpost_bind; [apply cpost_check|]. intros s1 u. cbv zeta.
  match goal with |- cpost (if ?c then _ else _) => destruct c end; [exact I|].
  apply cpost_bind; [apply cpost_push|]. intros s2 u2.
  match goal with |- cpost (if ?c then _ else _) => destruct c end; [apply IH|exact I].
Qed.

Lemma cpost_rloop fuel : forall g s t inc c size a off p, cpost (read_loop fuel g s t inc c size a off p).
Proof.
  induction fuel as [|f IH]; intros g s t inc c size a off p; [exact I|].
  cbn [read_loop]. apply cpost_bind; [apply cpost_check|]. intros s1 u. cbv zeta.
  match goal with |- cpost (if ?c then _ else _) => destruct c end; [exact I|].
  apply cpost_bind; [apply cpost_push|]. intros s2 u2.
  match goal with |- cpost (if ?c then _ else _) => destruct c end; [apply IH|exact I].
Qed.

Lemma op_cur g s o : match run_op g s o with
  | Ok s' _ => True
  | Exc s' ETransport => True
  | Exc s' _ => s' = s \/ s_cur s' <> None
  | Bad => True end.
Proof.
  assert (X : forall r : res nat, cpost r -> match r with
    | Ok s' _ => True | Exc s' ETransport => True | Exc s' _ => s' = s \/ s_cur s' <> None | Bad => True end).
  { intros [? ?|? []|]; cbn; auto. }
  destruct o as [a x|a x m|a l inc|a m|a n inc|a x y|a x|a m]; cbn [run_op];
    try (apply X, cpost_word).
  - apply X. unfold implement_write. apply cpost_bind; [apply cpost_check|]. intros s1 u.
    apply cpost_bind; [apply cpost_push|]. intros s2 u2. exact I.
  - unfold masked_write. destruct (masked_write_check x m); [auto|apply X, cpost_word].
  - apply X. unfold implement_write_block. cbn [alloc]. apply cpost_bind; [apply cpost_wloop|]. intros; exact I.
  - apply X. unfold implement_read_block. cbn [alloc]. apply cpost_bind; [apply cpost_rloop|]. intros; exact I.
Qed.

Section P.
Variable g : cfg.
Hypothesis G : cfg_ok g.
Notation inv := (inv unit nul_rd nul_wr nul_rd (dev_rmw unit nul_rd nul_wr) g false).
Notation bdy := (bdy unit).

Definition Pk (l : list buf) : Prop :=
  Forall (fun b => size_ok g b /\ exists p, repr_out g b p /\ wf_pk g p /\ fst p <> []) l.

Definition Pinv (y : net) : Prop :=
  n_bad y = false /\
  if n_doom y then n_wait y = true /\ Pk (s_out (n_c y)) else
  exists go gc, inv (nb (n_c y)) [] [] [] go gc /\
    (if n_wait y then gc = None else bdy [] go gc).

Lemma inv_empty ctr h : inv (mkSt ctr None h [] None) [] [] [] [] None.
Proof. constructor; cbn; trivial; try constructor. discriminate. Qed.

Lemma Pinv_empty h base ex : Pinv (mkNet (mkSt 0 None h [] None) false false false base ex false).
Proof.
  split; [reflexivity|]. exists [], None. split; [apply inv_empty|]. split; [auto|discriminate].
Qed.

Lemma inv_heap ctr cur h h' out go gc : length h' = length h ->
  inv (mkSt ctr cur h out None) [] [] [] go gc -> inv (mkSt ctr cur h' out None) [] [] [] go gc.
Proof.
  intros L []. constructor; cbn [s_out s_cur s_heap s_budget s_ctr] in *; trivial; rewrite ?L; trivial.
Qed.

Lemma inv_pop ctr cur h b q p go gc :
  inv (mkSt ctr cur h (b :: q) None) [] [] [] (p :: go) gc -> inv (mkSt ctr cur h q None) [] [] [] go gc.
Proof.
  intros []. cbn [s_out s_cur s_heap s_budget s_ctr] in *.
  constructor; cbn [s_out s_cur s_heap s_budget s_ctr]; trivial.
  - inversion i_out; assumption.
  - inversion i_wfo; assumption.
  - inversion i_bout; assumption.
  - inversion i_sz; assumption.
  - discriminate.
Qed.

Lemma run_op_P s go gc o : inv (nb s) [] [] [] go gc -> op_ok o -> bdy [] go gc ->
  run_op g (nb s) o <> Bad /\
  exists go' gc', inv (nb (res_state (nb s) (run_op g (nb s) o))) [] [] [] go' gc' /\ bdy [] go' gc'.
Proof.
  intros I OK BD.
  destruct (run_op_ok unit nul_rd nul_wr nul_rd (dev_rmw unit nul_rd nul_wr) (dev_ext _ _ _) g G false (nb s) [] [] [] go gc tt o I OK BD)
    as (OR & go' & gc' & I' & BD' & _); [discriminate|].
  split.
  - destruct (snd (AtomicSpec.atomic_op _ _ _ _ _ _ _ o)).
    + destruct OR as (s' & ->). discriminate.
    + destruct OR as (s' & e & ->). discriminate.
  - exists go', gc'. split; [|exact BD'].
    assert (X : nb (res_state (nb s) (run_op g (nb s) o)) = res_state (nb s) (run_op g (nb s) o)).
    { pose proof (i_bud _ _ _ _ _ _ _ _ _ _ _ _ _ I') as Q. set (z := res_state _ _) in *.
      destruct z. cbn in Q. subst. reflexivity. }
    rewrite X. exact I'.
Qed.

Lemma inv_packets s go gc : inv (nb s) [] [] [] go gc -> Pk (s_out s).
Proof.
  intros []. unfold Pk. cbn [nb s_out] in *. clear - i_out i_wfo i_sz.
  revert i_wfo i_sz. induction i_out as [|b p bs ps Rb Rs IH]; intros W S; [constructor|].
  inversion W as [|? ? (W1 & W2) W3]; inversion S; subst. constructor; [|auto].
  split; [assumption|]. exists p. auto.
Qed.

Lemma Pinv_packets y : Pinv y -> Pk (s_out (n_c y)).
Proof.
  intros (_ & P). destruct (n_doom y); [apply P|]. destruct P as (go & gc & I & _).
  exact (inv_packets _ go gc I).
Qed.

(** The only thing needed of the reply: never undefined behaviour. *)
Hypothesis NB : forall b p h ws, repr_out g b p -> wf_pk g p -> fst p <> [] ->
  snd (receive_packet g h b ws) <> VBad.

Lemma receive_len h b ws : length (fst (receive_packet g h b ws)) = length h.
Proof.
  unfold receive_packet.
  assert (M : forall cs h, length (mark_valid h cs) = length h).
  { unfold mark_valid. induction cs as [|c t IH]; intros h0; [reflexivity|]. cbn [fold_left]. rewrite IH.
    clear. revert c. induction h0; intros [|c]; cbn; auto. }
  destruct (validate_packet g b (scatter (b_reply b) ws)); cbn [fst]; rewrite ?M; apply fill_length.
Qed.

Lemma Pinv_step y l y' : Pinv y -> (forall o, In o (ncalls [l]) -> op_ok o) ->
  nstep g y l = Some y' -> Pinv y'.
Proof.
  intros PI OK ST. assert (PK := Pinv_packets y PI). destruct PI as (NBD & PI).
  destruct y as [s fl w bad base ex dm]. cbn [n_c n_fail n_wait n_bad n_base n_exc n_doom] in *. subst bad.
  destruct dm.
  { destruct PI as (-> & _).
    destruct l as [o| | | |ws| |o k]; cbn [nstep n_c n_fail n_wait n_bad n_base n_exc n_doom] in ST; try discriminate.
    - rewrite andb_false_r in ST. discriminate.
    - rewrite orb_true_r in ST. injection ST as <-. apply Pinv_empty.
    - destruct fl; [discriminate|]. destruct (s_out s) as [|b q] eqn:O; [discriminate|].
      inversion PK as [|? ? (SZ & p & R & W & NE) PQ]; subst.
      assert (B0 := NB b p (s_heap s) ws R W NE).
      destruct (receive_packet g (s_heap s) b ws) as [h []]; cbn [fst snd] in *; [| |congruence].
      + injection ST as <-. split; [reflexivity|]. cbn [n_doom n_wait n_c]. split; [reflexivity|exact PQ].
      + injection ST as <-. split; [reflexivity|]. cbn [n_doom n_wait n_c set_heap s_out]. rewrite O.
        split; [reflexivity|exact PK].
    - destruct (s_out s) eqn:O; [discriminate|]. injection ST as <-. split; [reflexivity|].
      cbn [n_doom n_wait n_c]. rewrite O. split; [reflexivity|exact PK]. }
  destruct PI as (go & gc & I & BD).
  destruct l as [o| | | |ws| |o k]; cbn [nstep n_c n_fail n_wait n_bad n_base n_exc n_doom] in ST.
  - destruct w; [discriminate|]. specialize (OK o (or_introl eq_refl)).
    destruct (run_op_P s go gc o I OK BD) as (N0 & go' & gc' & I' & BD').
    destruct fl.
    + assert (BS := bsim_op g (set_budget s true) o ltac:(discriminate)).
      change (nb (set_budget s true)) with (nb s) in BS.
      destruct (run_op g (set_budget s true) o) as [s1 c|s1 []|]; cbn [bsim] in BS.
      * destruct BS as (E & _). rewrite E in I'. injection ST as <-. split; [reflexivity|]. exists go', gc'.
        cbn [n_c n_wait n_bad]. split; [exact I'|auto].
      * rewrite BS in I'. injection ST as <-. split; [reflexivity|]. exists go', gc'. cbn [n_c n_wait n_bad]. split; [exact I'|auto].
      * rewrite BS in I'. injection ST as <-. split; [reflexivity|]. exists go', gc'. cbn [n_c n_wait n_bad]. split; [exact I'|auto].
      * injection ST as <-. apply Pinv_empty.
      * congruence.
    + change (set_budget s false) with (nb s) in ST.
      destruct (run_op g (nb s) o) as [s1 c|s1 []|]; cbn [res_state] in I'.
      * injection ST as <-. split; [reflexivity|]. exists go', gc'. cbn [n_c n_wait n_bad]. split; [exact I'|auto].
      * injection ST as <-. split; [reflexivity|]. exists go', gc'. cbn [n_c n_wait n_bad]. split; [exact I'|auto].
      * injection ST as <-. split; [reflexivity|]. exists go', gc'. cbn [n_c n_wait n_bad]. split; [exact I'|auto].
      * injection ST as <-. apply Pinv_empty.
      * congruence.
  - destruct w; [discriminate|].
    destruct (s_cur s) as [b|] eqn:C.
    2:{ injection ST as <-. split; [reflexivity|]. exists go, gc. cbn [n_c n_wait n_bad]. auto. }
    destruct gc as [p|].
    2:{ pose proof (i_cur _ _ _ _ _ _ _ _ _ _ _ _ _ I) as X. cbn [nb s_cur] in X. rewrite C in X. contradiction. }
    destruct (send_current_ok unit nul_rd nul_wr nul_rd (dev_rmw unit nul_rd nul_wr) g G false (nb s) [] [] [] go b p I C)
      as (s' & n & E & I' & H' & C'); [apply BD; reflexivity|].
    unfold dispatch_send in ST. cbn [set_budget s_cur] in ST. rewrite C in ST.
    destruct fl.
    + assert (BS := bsim_send g (set_budget s true) b ltac:(discriminate)).
      change (nb (set_budget s true)) with (nb s) in BS. rewrite E in BS.
      destruct (send_current g (set_budget s true) b) as [s1 c|s1 []|] eqn:Q; cbn [bsim] in BS.
      * exfalso. unfold send_current in Q. cbn [set_budget s_budget] in Q. destruct (predispatch g b); discriminate.
      * discriminate.
      * discriminate.
      * injection ST as <-. apply Pinv_empty.
      * discriminate.
    + change (set_budget s false) with (nb s) in ST. rewrite E in ST. injection ST as <-.
      split; [reflexivity|]. exists (go ++ [padded p n]), None. cbn [n_c n_wait n_bad].
      pose proof (i_bud _ _ _ _ _ _ _ _ _ _ _ _ _ I') as Q.
      split; [|reflexivity]. destruct s' as [c1 c2 c3 c4 c5]. cbn in Q. subst c5. exact I'.
  - destruct (w && negb fl && negb false) eqn:WF; [|discriminate]. destruct (s_out s) eqn:O; [|discriminate].
    destruct w; [|discriminate]. subst gc.
    injection ST as <-. split; [reflexivity|]. exists go, None. cbn [n_c n_wait n_bad]. split; [exact I|].
    split; [|discriminate]. intros _.
    pose proof (i_out _ _ _ _ _ _ _ _ _ _ _ _ _ I) as X. cbn [nb s_out] in X. rewrite O in X.
    inversion X. auto.
  - destruct (w && (fl || false)) eqn:WF; [|discriminate]. injection ST as <-. apply Pinv_empty.
  - destruct fl; [discriminate|]. destruct (s_out s) as [|b q] eqn:O; [discriminate|].
    inversion PK as [|? ? (SZ & p & R & W & NE) _]; subst.
    assert (B0 := NB b p (s_heap s) ws R W NE). assert (L0 := receive_len (s_heap s) b ws).
    destruct (receive_packet g (s_heap s) b ws) as [h []]; cbn [fst snd] in *; [| |congruence].
    + injection ST as <-. destruct go as [|p0 go'].
      { pose proof (i_out _ _ _ _ _ _ _ _ _ _ _ _ _ I) as X. cbn [nb s_out] in X. rewrite O in X. inversion X. }
      split; [reflexivity|]. exists go', gc. cbn [n_c n_wait n_bad]. split.
      * unfold nb. cbn [set_heap set_out s_ctr s_cur s_heap s_out s_budget].
        apply (inv_heap _ _ (s_heap s)); [exact L0|]. apply (inv_pop _ _ _ b q p0).
        unfold nb in I. rewrite O in I. exact I.
      * destruct w; [exact BD|]. destruct BD as (B1 & B2). split; [|exact B2]. intros Y. destruct (B1 Y). discriminate.
    + injection ST as <-. split; [reflexivity|]. exists go, gc. cbn [n_c n_wait n_bad]. split; [|auto].
      unfold nb. cbn [set_heap set_out s_ctr s_cur s_heap s_out s_budget].
      apply (inv_heap _ _ (s_heap s)); [exact L0|]. exact I.
  - destruct (s_out s) eqn:O; [discriminate|]. injection ST as <-. split; [reflexivity|]. exists go, gc. cbn [n_c n_wait n_bad]. auto.
  - destruct w; [discriminate|]. destruct fl; [discriminate|]. cbn [orb] in ST. destruct o as [o|].
    + specialize (OK o (or_introl eq_refl)).
      destruct (run_op_P s go gc o I OK BD) as (N0 & go' & gc' & I' & BD').
      assert (BS := bsim_op g (cut_budget s k) o ltac:(discriminate)).
      change (nb (cut_budget s k)) with (nb s) in BS.
      destruct (run_op g (cut_budget s k) o) as [s1 c|s1 []|]; try discriminate; cbn [bsim] in BS.
      injection ST as <-. split; [reflexivity|]. cbn [n_doom n_wait n_c]. split; [reflexivity|].
      destruct BS as (_ & M). apply inv_packets in I'.
      destruct (run_op g (nb s) o) as [s2 ?|s2 ?|]; cbn [res_state mono] in *; [| |congruence];
        destruct M as (t & E); rewrite E in I'; apply Forall_app in I'; apply I'.
    + unfold dispatch_send in ST. cbn [cut_budget s_cur] in ST. destruct (s_cur s) as [b|]; [|discriminate].
      unfold send_current in ST. destruct (predispatch g b); [|discriminate]. cbn [cut_budget s_budget] in ST.
      destruct k; [|discriminate]. injection ST as <-. split; [reflexivity|]. cbn [n_doom n_wait n_c].
      split; [reflexivity|exact PK].
Qed.

Lemma Pinv_run ls : forall y y', Pinv y -> (forall o, In o (ncalls ls) -> op_ok o) ->
  nrun g y ls = Some y' -> Pinv y'.
Proof.
  induction ls as [|l t IH]; intros y y' PI OK R.
  - injection R as <-. exact PI.
  - cbn [nrun] in R. destruct (nstep g y l) as [y1|] eqn:E; [|discriminate].
    apply (IH y1); [|intros o H; apply OK; cbn [ncalls flat_map]; apply in_or_app; right; exact H|exact R].
    apply (Pinv_step y l y1 PI); [|exact E]. intros o H. apply OK. cbn [ncalls flat_map] in *. rewrite app_nil_r in H. apply in_or_app. left. exact H.
Qed.

(** While a failure is stored, dispatch raises. *)
Definition Kinv (y : net) : Prop := n_fail y = true -> n_wait y = false -> s_cur (n_c y) <> None.

Lemma Kinv_step y l y' : Ninv y -> Pinv y -> Kinv y -> nstep g y l = Some y' -> Kinv y'.
Proof.
  intros (NW & _) (NBD & PI) K ST.
  assert (OUT : n_wait y = false -> s_out (n_c y) <> [] -> s_cur (n_c y) <> None).
  { intros W O C. rewrite W in PI. destruct (n_doom y); [destruct PI; discriminate|].
    destruct PI as (go & gc & I & BD). destruct gc as [p|].
    - pose proof (i_cur _ _ _ _ _ _ _ _ _ _ _ _ _ I) as X. cbn [nb s_cur] in X. rewrite C in X. contradiction.
    - destruct (proj1 BD eq_refl) as (-> & _).
      pose proof (i_out _ _ _ _ _ _ _ _ _ _ _ _ _ I) as X. cbn [nb s_out] in X. inversion X. congruence. }
  unfold Kinv in *.
  destruct y as [s fl w bad base ex dm]. cbn [n_c n_fail n_wait n_bad n_base n_exc n_doom] in *.
  destruct l as [o| | | |ws| |o k]; cbn [nstep n_c n_fail n_wait n_bad n_base n_exc n_doom] in ST.
  - destruct w; [discriminate|].
    assert (P := run_op_post g (set_budget s fl) o (Wst_budget s fl NW)).
    assert (Q := op_cur g (set_budget s fl) o).
    destruct (run_op g (set_budget s fl) o) as [s1 c|s1 []|]; injection ST as <-; cbn [n_c n_fail n_wait]; intros F _.
    + destruct P as (_ & _ & _ & (b & C & _) & _). congruence.
    + destruct Q as [->|Q]; [apply K; auto|exact Q].
    + destruct Q as [->|Q]; [apply K; auto|exact Q].
    + discriminate.
    + apply K; auto.
  - destruct w; [discriminate|]. destruct (s_cur s) eqn:C; [|injection ST as <-; cbn [n_c n_fail n_wait]; rewrite C; exact K].
    destruct (dispatch_send g (set_budget s fl)); injection ST as <-; cbn [n_c n_fail n_wait]; congruence.
  - destruct (w && negb fl && negb dm); [|discriminate]. destruct (s_out s); [|discriminate]. injection ST as <-. discriminate.
  - destruct (w && (fl || dm)); [|discriminate]. injection ST as <-. discriminate.
  - destruct fl; [discriminate|]. destruct (s_out s) as [|b q] eqn:O; [discriminate|].
    destruct (receive_packet g (s_heap s) b ws) as [h []]; injection ST as <-; cbn [n_c n_fail n_wait set_heap s_cur];
      [discriminate| |]; intros _ W; apply (OUT W); discriminate.
  - destruct (s_out s) eqn:O; [discriminate|]. injection ST as <-. cbn [n_c n_fail n_wait].
    intros _ W. apply (OUT W). discriminate.
  - destruct (w || fl); [discriminate|].
    match type of ST with match ?m with _ => _ end = _ => destruct m; [|discriminate] end.
    injection ST as <-. discriminate.
Qed.

Lemma Kinv_run ls : forall y y', Ninv y -> Pinv y -> Kinv y -> (forall o, In o (ncalls ls) -> op_ok o) ->
  nrun g y ls = Some y' -> Kinv y'.
Proof.
  induction ls as [|l t IH]; intros y y' NI PI KI OK R.
  - injection R as <-. exact KI.
  - cbn [nrun] in R. destruct (nstep g y l) as [y1|] eqn:E; [|discriminate].
    apply (IH y1); [| | |intros o H; apply OK; cbn [ncalls flat_map]; apply in_or_app; right; exact H|exact R].
    + apply (nstep_ok g y l y1 NI E).
    + apply (Pinv_step y l y1 PI); [|exact E]. intros o H. apply OK. cbn [ncalls flat_map] in *. rewrite app_nil_r in H. apply in_or_app. left. exact H.
    + exact (Kinv_step y l y1 NI PI KI E).
Qed.

(** The next dispatch of a client with a stored failure. *)
Lemma fail_dispatch y : Pinv y -> Kinv y -> n_fail y = true -> n_wait y = false ->
  exists y', nstep g y NDispatch = Some y' /\ n_exc y' = S (n_exc y).
Proof.
  intros (_ & PI) K F W. specialize (K F W). rewrite W in PI.
  destruct (n_doom y); [destruct PI; discriminate|]. destruct PI as (go & gc & I & BD).
  cbn [nstep]. rewrite W, F. destruct (s_cur (n_c y)) as [b|] eqn:C; [|congruence].
  destruct gc as [p|].
  2:{ pose proof (i_cur _ _ _ _ _ _ _ _ _ _ _ _ _ I) as X. cbn [nb s_cur] in X. rewrite C in X. contradiction. }
  destruct (send_current_ok unit nul_rd nul_wr nul_rd (dev_rmw unit nul_rd nul_wr) g G false (nb (n_c y)) [] [] [] go b p I C)
    as (s' & n & E & _); [apply BD; reflexivity|].
  unfold dispatch_send. cbn [set_budget s_cur]. rewrite C. unfold send_current in *.
  destruct (predispatch g b); [|discriminate]. cbn [set_budget s_budget]. eexists. split; reflexivity.
Qed.
End P.
