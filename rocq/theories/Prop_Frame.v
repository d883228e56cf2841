(** C76: when replies arrive makes no difference.

    A user call depends on the handles only through their number and on the
    packets already sent not at all.  Two executions with the same calls and the
    same replies, in each of the two orders of an adjacent call and reply, end in
    the same state and send the same packets. *)
From Verif Require Import Word Bits Header WordLemmas HeaderProofs ValMem Client
  Validate Target Devices System Tx Net NetProofs NetProofs2.
From Coq Require Import NArith ZArith List Lia Bool ZifyBool ZifyNat ZifyN.
Import ListNotations.
Open Scope N_scope.

(** ** A call looks at nothing but the number of handles *)
Section Frame.
Variables (h1 h2 : list cell) (q1 q2 : list buf).
Hypothesis HL : length h1 = length h2.

(** The same state over other handles and other packets sent before. *)
Definition rel (s1 s2 : st) : Prop :=
  exists ctr cur d e k, s1 = mkSt ctr cur (h1 ++ d) (q1 ++ e) k /\ s2 = mkSt ctr cur (h2 ++ d) (q2 ++ e) k.

(** The same outcome. *)
Definition rres {A} (r1 r2 : res A) : Prop :=
  match r1, r2 with
  | Ok s a, Ok s' a' => rel s s' /\ a = a'
  | Exc s e, Exc s' e' => rel s s' /\ e = e'
  | Bad, Bad => True
  | _, _ => False
  end.

Lemma rres_bind {A B} (r r' : res A) (f f' : st -> A -> res B) :
  rres r r' -> (forall s s' a, rel s s' -> rres (f s a) (f' s' a)) -> rres (bind r f) (bind r' f').
Proof.
  intros H F. destruct r, r'; cbn in *; try contradiction; try exact I.
  - destruct H as (H & <-). apply F, H.
  - exact H.
Qed.

Lemma rel_set_cur s s' b : rel s s' -> rel (set_cur s b) (set_cur s' b).
Proof. intros (ctr & cur & d & e & k & -> & ->). exists ctr, b, d, e, k. split; reflexivity. Qed.
Lemma rel_inc s s' : rel s s' -> rel (inc_ctr s) (inc_ctr s').
Proof. intros (ctr & cur & d & e & k & -> & ->). exists (add32 ctr 1), cur, d, e, k. split; reflexivity. Qed.
Lemma rel_cur s s' : rel s s' -> s_cur s = s_cur s'.
Proof. intros (ctr & cur & d & e & k & -> & ->). reflexivity. Qed.
Lemma rel_ctr s s' : rel s s' -> s_ctr s = s_ctr s'.
Proof. intros (ctr & cur & d & e & k & -> & ->). reflexivity. Qed.
Lemma rel_len s s' : rel s s' -> length (s_heap s) = length (s_heap s').
Proof. intros (ctr & cur & d & e & k & -> & ->). cbn. rewrite !app_length. lia. Qed.
Lemma rel_alloc s s' c : rel s s' -> rel (fst (alloc s c)) (fst (alloc s' c)).
Proof.
  intros (ctr & cur & d & e & k & -> & ->). exists ctr, cur, (d ++ [c]), e, k.
  cbn. rewrite !app_assoc. split; reflexivity.
Qed.
Lemma rel_add s s' c : rel s s' -> rel (add_val s c) (add_val s' c).
Proof.
  intros H. unfold add_val. rewrite <- (rel_cur _ _ H). destruct (s_cur s); [apply rel_set_cur|]; exact H.
Qed.

Lemma rres_update g s s' : rel s s' -> rres (update_current g s) (update_current g s').
Proof.
  intros H. unfold update_current. rewrite <- (rel_cur _ _ H).
  destruct (s_cur s); [split; [exact H|reflexivity]|].
  apply rres_bind.
  - unfold preamble. destruct (g_ver g); [|split; [exact H|reflexivity]].
    rewrite <- (rel_ctr _ _ H). destruct (calc_header V1 BOT 0 (s_ctr s) (req_info V1)); [|exact I].
    split; [apply rel_inc, H|reflexivity].
  - intros t t' b T. destruct ((send_counter b <=? g_maxsend g) && (reply_counter b <=? g_maxreply g)); [|exact I].
    split; [apply rel_set_cur, T|reflexivity].
Qed.

Lemma rres_send g s s' b : rel s s' -> rres (send_current g s b) (send_current g s' b).
Proof.
  intros (ctr & cur & d & e & k & -> & ->). unfold send_current.
  destruct (predispatch g b) as [b'|]; [|exact I]. cbn [s_budget s_ctr s_heap s_out].
  destruct k as [[|k]|].
  - split; [|reflexivity]. exists 0, None, d, e, (Some O). split; reflexivity.
  - split; [|reflexivity]. exists ctr, None, d, (e ++ [b']), (Some k). rewrite !app_assoc. split; reflexivity.
  - split; [|reflexivity]. exists ctr, None, d, (e ++ [b']), None. rewrite !app_assoc. split; reflexivity.
Qed.

Ltac cases := match goal with |- rres (if ?c then _ else _) _ => destruct c end.

Lemma rres_check g s s' x y : rel s s' -> rres (check_space g s x y) (check_space g s' x y).
Proof.
  intros H. unfold check_space. apply rres_bind; [apply rres_update, H|]. intros t t' b T. cbv zeta.
  cases; [split; [exact T|reflexivity]|]. cases; [split; [exact T|reflexivity]|].
  apply rres_bind; [apply rres_send, T|]. intros u u' [] U.
  apply rres_bind; [apply rres_update, U|]. intros v v' b2 V.
  cases; split; trivial.
Qed.

Lemma rres_push g s s' t wc body rep : rel s s' -> rres (push_tx g s t wc body rep) (push_tx g s' t wc body rep).
Proof.
  intros H. unfold push_tx. rewrite <- (rel_cur _ _ H), <- (rel_ctr _ _ H).
  destruct (s_cur s) as [b|]; [|exact I].
  destruct (calc_header (g_ver g) t wc (s_ctr s) (req_info (g_ver g))).
  - cbv zeta. cases; [exact I|]. split; [|reflexivity]. apply rel_set_cur, rel_inc, H.
  - split; [apply rel_inc, H|reflexivity].
Qed.

Lemma rres_finish s s' c : rel s s' ->
  rres (let (s, c) := alloc s c in Ok (add_val s c) c) (let (s, c) := alloc s' c in Ok (add_val s c) c).
Proof.
  intros H. assert (A := rel_alloc s s' c H). cbn [alloc fst] in *. rewrite <- (rel_len _ _ H).
  split; [apply rel_add, A|reflexivity].
Qed.

Lemma rres_word g s s' t a e m : rel s s' -> rres (implement_word g s t a e m) (implement_word g s' t a e m).
Proof.
  intros H. unfold implement_word. apply rres_bind; [apply rres_check, H|]. intros u u' _ U.
  apply rres_bind; [rewrite <- (rel_len _ _ U); apply rres_push, U|]. intros v v' _ V. apply rres_finish, V.
Qed.

Lemma rres_wloop fuel : forall g s s' t inc ne a rest p, rel s s' ->
  rres (write_loop fuel g s t inc ne a rest p) (write_loop fuel g s' t inc ne a rest p).
Proof.
  induction fuel as [|f IH]; intros g s s' t inc ne a rest p H; [exact I|].
  cbn [write_loop]. apply rres_bind; [apply rres_check, H|]. intros u u' av U. cbv zeta.
  cases; [exact I|]. apply rres_bind; [apply rres_push, U|]. intros v v' _ V.
  cases; [apply IH, V|split; [exact V|reflexivity]].
Qed.

Lemma rres_rloop fuel : forall g s s' t inc c size a off p, rel s s' ->
  rres (read_loop fuel g s t inc c size a off p) (read_loop fuel g s' t inc c size a off p).
Proof.
  induction fuel as [|f IH]; intros g s s' t inc c size a off p H; [exact I|].
  cbn [read_loop]. apply rres_bind; [apply rres_check, H|]. intros u u' av U. cbv zeta.
  cases; [exact I|]. apply rres_bind; [apply rres_push, U|]. intros v v' _ V.
  cases; [apply IH, V|split; [exact V|reflexivity]].
Qed.

Lemma rres_op g s s' o : rel s s' -> rres (run_op g s o) (run_op g s' o).
Proof.
  intros H. destruct o as [a x|a x m|a l inc|a m|a n inc|a x y|a x|a m]; cbn [run_op]; try (apply rres_word, H).
  - unfold implement_write. apply rres_bind; [apply rres_check, H|]. intros u u' _ U.
    apply rres_bind; [apply rres_push, U|]. intros v v' _ V. apply rres_finish, V.
  - unfold masked_write. destruct (masked_write_check x m); [split; [exact H|reflexivity]|apply rres_word, H].
  - unfold implement_write_block. assert (A := rel_alloc s s' (CHdr false) H). cbn [alloc fst] in *.
    rewrite <- (rel_len _ _ H). apply rres_bind; [apply rres_wloop, A|]. intros u u' _ U.
    split; [apply rel_add, U|reflexivity].
  - unfold implement_read_block. assert (A := rel_alloc s s' (CVec false (repeat 0 (N.to_nat n))) H). cbn [alloc fst] in *.
    rewrite <- (rel_len _ _ H). apply rres_bind; [apply rres_rloop, A|]. intros u u' _ U.
    split; [apply rel_add, U|reflexivity].
Qed.

Lemma rres_dispatch g s s' : rel s s' -> rres (dispatch_send g s) (dispatch_send g s').
Proof.
  intros H. unfold dispatch_send. rewrite <- (rel_cur _ _ H).
  destruct (s_cur s); [apply rres_send, H|split; [exact H|reflexivity]].
Qed.
End Frame.

(** ** A transport that accepts every packet raises nothing *)
Definition nt {A} (r : res A) : Prop :=
  match r with Ok s _ => s_budget s = None | Exc s e => s_budget s = None /\ e <> ETransport | Bad => True end.

Lemma nt_bind {A B} (r : res A) (f : st -> A -> res B) :
  nt r -> (forall s a, s_budget s = None -> nt (f s a)) -> nt (bind r f).
Proof. intros H F. destruct r; cbn in *; auto. Qed.

Lemma nt_update g s : s_budget s = None -> nt (update_current g s).
Proof.
  intros H. unfold update_current. destruct (s_cur s); [exact H|]. apply nt_bind.
  - unfold preamble. destruct (g_ver g); [|exact H].
    destruct (calc_header V1 BOT 0 (s_ctr s) (req_info V1)); [exact H|exact I].
  - intros t b T. destruct ((send_counter b <=? g_maxsend g) && (reply_counter b <=? g_maxreply g)); [exact T|exact I].
Qed.
Lemma nt_send g s b : s_budget s = None -> nt (send_current g s b).
Proof. intros H. unfold send_current. destruct (predispatch g b); [|exact I]. rewrite H. reflexivity. Qed.
Lemma nt_check g s x y : s_budget s = None -> nt (check_space g s x y).
Proof.
  intros H. unfold check_space. apply nt_bind; [apply nt_update, H|]. intros t b T. cbv zeta.
  match goal with |- nt (if ?c then _ else _) => destruct c end; [exact T|].
  match goal with |- nt (if ?c then _ else _) => destruct c end; [exact T|].
  apply nt_bind; [apply nt_send, T|]. intros u _ U. apply nt_bind; [apply nt_update, U|]. intros v b2 V.
  match goal with |- nt (if ?c then _ else _) => destruct c end; exact V.
Qed.
Lemma nt_push g s t wc body rep : s_budget s = None -> nt (push_tx g s t wc body rep).
Proof.
  intros H. unfold push_tx. destruct (s_cur s); [|exact I].
  destruct (calc_header (g_ver g) t wc (s_ctr s) (req_info (g_ver g))); [|split; [exact H|discriminate]].
  cbv zeta. match goal with |- nt (if ?c then _ else _) => destruct c end; [exact I|exact H].
Qed.
Lemma add_val_bud s c : s_budget (add_val s c) = s_budget s.
Proof. unfold add_val. destruct (s_cur s); reflexivity. Qed.
Lemma nt_word g s t a e m : s_budget s = None -> nt (implement_word g s t a e m).
Proof.
  intros H. unfold implement_word. apply nt_bind; [apply nt_check, H|]. intros u _ U.
  apply nt_bind; [apply nt_push, U|]. intros v _ V. cbn [alloc nt]. rewrite add_val_bud. exact V.
Qed.
Lemma nt_wloop fuel : forall g s t inc ne a rest p, s_budget s = None -> nt (write_loop fuel g s t inc ne a rest p).
Proof.
  induction fuel as [|f IH]; intros g s t inc ne a rest p H; [exact I|].
  cbn [write_loop]. apply nt_bind; [apply nt_check, H|]. intros u av U. cbv zeta.
  match goal with |- nt (if ?c then _ else _) => destruct c end; [exact I|].
  apply nt_bind; [apply nt_push, U|]. intros v _ V.
  match goal with |- nt (if ?c then _ else _) => destruct c end; [apply IH, V|exact V].
Qed.
Lemma nt_rloop fuel : forall g s t inc c size a off p, s_budget s = None -> nt (read_loop fuel g s t inc c size a off p).
Proof.
  induction fuel as [|f IH]; intros g s t inc c size a off p H; [exact I|].
  cbn [read_loop]. apply nt_bind; [apply nt_check, H|]. intros u av U. cbv zeta.
  match goal with |- nt (if ?c then _ else _) => destruct c end; [exact I|].
  apply nt_bind; [apply nt_push, U|]. intros v _ V.
  match goal with |- nt (if ?c then _ else _) => destruct c end; [apply IH, V|exact V].
Qed.
Lemma nt_op g s o : s_budget s = None -> nt (run_op g s o).
Proof.
  intros H. destruct o as [a x|a x m|a l inc|a m|a n inc|a x y|a x|a m]; cbn [run_op]; try (apply nt_word, H).
  - unfold implement_write. apply nt_bind; [apply nt_check, H|]. intros u _ U.
    apply nt_bind; [apply nt_push, U|]. intros v _ V. cbn [alloc nt]. rewrite add_val_bud. exact V.
  - unfold masked_write. destruct (masked_write_check x m); [split; [exact H|discriminate]|apply nt_word, H].
  - unfold implement_write_block. cbn [alloc]. apply nt_bind; [apply nt_wloop, H|]. intros u _ U.
    cbn [nt]. rewrite add_val_bud. exact U.
  - unfold implement_read_block. cbn [alloc]. apply nt_bind; [apply nt_rloop, H|]. intros u _ U.
    cbn [nt]. rewrite add_val_bud. exact U.
Qed.

(** ** A reply touches none of the handles made later *)
Lemma fill_app l : forall h d, (forall c, In c (flat_map dest_cells (map fst l)) -> (c < length h)%nat) ->
  fill (h ++ d) l = fill h l ++ d.
Proof.
  induction l as [|(e, ws) t IH]; intros h d H; [reflexivity|].
  unfold fill in *. cbn [fold_left]. cbn [map flat_map fst] in H.
  assert (E : fill_cell (h ++ d) (e, ws) = fill_cell h (e, ws) ++ d).
  { destruct e as [| | |c|c off n]; try reflexivity; cbn [fill_cell].
    - destruct ws; [reflexivity|]. apply upd_app_lt, H. left. reflexivity.
    - apply upd_app_lt, H. left. reflexivity. }
  rewrite E. apply IH. intros c C. rewrite (fill_length [(e, ws)] h : length (fill_cell h (e, ws)) = _).
  apply H, in_or_app. right. exact C.
Qed.

Lemma mark_app cs : forall h d, (forall c, In c cs -> (c < length h)%nat) ->
  mark_valid (h ++ d) cs = mark_valid h cs ++ d.
Proof.
  induction cs as [|c t IH]; intros h d H; [reflexivity|].
  unfold mark_valid in *. cbn [fold_left]. rewrite upd_app_lt by (apply H; left; reflexivity).
  apply IH. intros x X. rewrite upd_length. apply H. right. exact X.
Qed.

Lemma receive_app g h d b ws : (forall c, In c (cells b) -> (c < length h)%nat) ->
  receive_packet g (h ++ d) b ws = (fst (receive_packet g h b ws) ++ d, snd (receive_packet g h b ws)).
Proof.
  intros H. unfold receive_packet. cbv zeta. rewrite fill_app.
  2:{ intros c C. rewrite scatter_fst in C. apply H, in_or_app. left. exact C. }
  destruct (validate_packet g b (scatter (b_reply b) ws)); try reflexivity.
  cbn [fst snd]. rewrite mark_app; [reflexivity|]. intros c C. rewrite fill_length.
  apply H, in_or_app. right. exact C.
Qed.

(** ** Calls and replies in either order *)

(** Calls, dispatch, its return, and replies. *)
Definition plain (l : nlabel) : bool :=
  match l with NOp _ | NDispatch | NReturn | NReply _ => true | _ => false end.
Definition is_reply (l : nlabel) : bool := match l with NReply _ => true | _ => false end.

(** Packets given to the transport in one event. *)
Definition emitted (y : net) (l : nlabel) (y' : net) : list buf :=
  if is_reply l then [] else skipn (length (s_out (n_c y))) (s_out (n_c y')).

(** Packets given to the transport in an execution, in order. *)
Fixpoint wire (g : cfg) (y : net) (ls : list nlabel) : list buf :=
  match ls with
  | [] => []
  | l :: t => match nstep g y l with Some y' => emitted y l y' ++ wire g y' t | None => [] end
  end.

Lemma skipn_len {A} (l k : list A) : skipn (length l) (l ++ k) = k.
Proof. induction l; [reflexivity|assumption]. Qed.

Lemma cells_lt y b q : Ninv y -> s_out (n_c y) = b :: q -> forall c, In c (cells b) -> (c < length (s_heap (n_c y)))%nat.
Proof.
  intros ((W1 & _) & _) O c C. apply inval_lt. apply (W1 b c); [|exact C].
  unfold pend. rewrite O. left. reflexivity.
Qed.

Lemma receive_length g h b ws : length (fst (receive_packet g h b ws)) = length h.
Proof.
  unfold receive_packet. cbv zeta. destruct (validate_packet g b (scatter (b_reply b) ws)); try apply fill_length.
  cbn [fst]. generalize (b_vals b). intros l. rewrite <- (fill_length (scatter (b_reply b) ws) h).
  generalize (fill h (scatter (b_reply b) ws)). induction l as [|c t IH]; intros k; [reflexivity|].
  unfold mark_valid in *. cbn [fold_left]. rewrite IH. apply upd_length.
Qed.

(** A call commutes with a reply to a packet sent before it. *)
Lemma diamond g y u ws yu yr :
  Ninv y -> n_fail y = false -> plain u = true -> is_reply u = false ->
  nstep g y u = Some yu -> nstep g y (NReply ws) = Some yr ->
  n_exc yu = n_exc y /\ n_fail yu = false /\
  exists z, nstep g yu (NReply ws) = Some z /\ n_fail z = n_fail yr /\ n_exc z = n_exc y /\
    (n_fail yr = false -> nstep g yr u = Some z /\ emitted yr u z = emitted y u yu).
Proof.
  intros NI F PL NR U R. assert (CL := cells_lt y). specialize (CL) as CL0.
  destruct y as [s fl w bad base ex doom]. cbn [n_fail] in F. subst fl.
  cbn [nstep n_fail n_c n_wait n_bad n_base n_exc n_doom] in R.
  destruct (s_out s) as [|b q] eqn:O; [discriminate|].
  specialize (CL0 b q NI O). cbn [n_c] in CL0.
  assert (LN := receive_length g (s_heap s) b ws).
  assert (RA := fun d => receive_app g (s_heap s) d b ws CL0).
  destruct (receive_packet g (s_heap s) b ws) as [h' r] eqn:RP. cbn [fst snd] in LN, RA.
  (* from a description of the two results *)
  assert (K : forall (bd' : bool) w' ctr cur d e k,
    yu = mkNet (mkSt ctr cur (s_heap s ++ d) (s_out s ++ e) k) false w' bd' base ex doom ->
    (r = VOk -> nstep g (mkNet (set_heap (set_out s q) h') false w bad base ex doom) u =
       Some (mkNet (mkSt ctr cur (h' ++ d) (q ++ e) k) false w' bd' base ex doom)) ->
    n_exc yu = ex /\ n_fail yu = false /\
    exists z, nstep g yu (NReply ws) = Some z /\ n_fail z = n_fail yr /\ n_exc z = ex /\
      (n_fail yr = false -> nstep g yr u = Some z /\
         emitted yr u z = emitted (mkNet s false w bad base ex doom) u yu)).
  { intros bd' w' ctr cur d e k -> H. split; [reflexivity|]. split; [reflexivity|].
    cbn [nstep n_fail n_c n_wait n_bad n_base n_exc n_doom s_out s_heap].
    rewrite O. cbn [app]. rewrite RA. destruct r.
    - injection R as <-. eexists. split; [reflexivity|]. split; [reflexivity|]. split; [reflexivity|].
      intros _. split; [apply H; reflexivity|].
      unfold emitted. rewrite NR. cbn [n_c s_out set_heap set_out]. rewrite skipn_len.
      rewrite O. cbn [length skipn app]. rewrite skipn_len. reflexivity.
    - injection R as <-. eexists. split; [reflexivity|]. split; [reflexivity|]. split; [reflexivity|]. discriminate.
    - injection R as <-. eexists. split; [reflexivity|]. split; [reflexivity|]. split; [reflexivity|]. discriminate. }
  assert (SE : s = mkSt (s_ctr s) (s_cur s) (s_heap s ++ []) (s_out s ++ []) (s_budget s))
    by (rewrite !app_nil_r; destruct s; reflexivity).
  assert (RL : rel (s_heap s) h' (s_out s) q (set_budget s false) (set_budget (set_heap (set_out s q) h') false)).
  { exists (s_ctr s), (s_cur s), [], [], None. rewrite !app_nil_r. split; reflexivity. }
  destruct u as [o| | | |ws'| |o k]; try discriminate;
    cbn [nstep n_fail n_c n_wait n_bad n_base n_exc n_doom] in U.
  - destruct w; [discriminate|].
    assert (RO := rres_op (s_heap s) h' (s_out s) q (eq_sym LN) g _ _ o RL).
    assert (NT := nt_op g (set_budget s false) o eq_refl).
    destruct (run_op g (set_budget s false) o) as [s1 a|s1 ee|] eqn:R1;
      destruct (run_op g (set_budget (set_heap (set_out s q) h') false) o) as [s2 a2|s2 ee2|] eqn:R2; try contradiction RO.
    + destruct RO as ((ctr & cur & d & e & k & -> & ->) & _).
      apply (K bad false ctr cur d e k); [congruence|]. intros _.
      cbn [nstep n_fail n_c n_wait n_bad n_base n_exc n_doom]. rewrite R2. reflexivity.
    + destruct RO as ((ctr & cur & d & e & k & -> & ->) & <-). cbn [nt] in NT.
      apply (K bad false ctr cur d e k).
      * destruct ee; try congruence. exfalso; apply (proj2 NT); reflexivity.
      * intros _. cbn [nstep n_fail n_c n_wait n_bad n_base n_exc n_doom]. rewrite R2.
        destruct ee; try reflexivity. exfalso; apply (proj2 NT); reflexivity.
    + apply (K true false (s_ctr s) (s_cur s) [] [] (s_budget s)); [rewrite <- SE; congruence|].
      intros _. cbn [nstep n_fail n_c n_wait n_bad n_base n_exc n_doom]. rewrite R2, !app_nil_r. reflexivity.
  - destruct w; [discriminate|].
    destruct (s_cur s) as [cb|] eqn:CU.
    + assert (RO := rres_dispatch (s_heap s) h' (s_out s) q g _ _ RL).
      assert (NT : nt (dispatch_send g (set_budget s false)))
        by (unfold dispatch_send; cbn [set_budget s_cur]; rewrite CU; apply nt_send; reflexivity).
      destruct (dispatch_send g (set_budget s false)) as [s1 a|s1 ee|] eqn:R1;
        destruct (dispatch_send g (set_budget (set_heap (set_out s q) h') false)) as [s2 a2|s2 ee2|] eqn:R2; try contradiction RO.
      * destruct RO as ((ctr & cur & d & e & k & -> & ->) & _).
        apply (K bad true ctr cur d e k); [congruence|]. intros _.
        cbn [nstep n_fail n_c n_wait n_bad n_base n_exc n_doom s_cur set_heap set_out]. rewrite CU, R2. reflexivity.
      * exfalso. unfold dispatch_send in R1. cbn [set_budget s_cur] in R1. rewrite CU in R1.
        unfold send_current in R1. destruct (predispatch g cb); discriminate.
      * apply (K true false (s_ctr s) (Some cb) [] [] (s_budget s)); [rewrite <- SE; congruence|].
        intros _. cbn [nstep n_fail n_c n_wait n_bad n_base n_exc n_doom s_cur set_heap set_out].
        rewrite CU, R2, !app_nil_r. unfold set_heap, set_out. cbn. rewrite CU. reflexivity.
    + apply (K bad false (s_ctr s) None [] [] (s_budget s)); [rewrite <- SE; congruence|].
      intros _. cbn [nstep n_fail n_c n_wait n_bad n_base n_exc n_doom s_cur set_heap set_out].
      rewrite CU, !app_nil_r. unfold set_heap, set_out. cbn. rewrite CU. reflexivity.
  - exfalso. destruct (w && negb false && negb doom); [|discriminate]. rewrite O in U. discriminate.
Qed.

(** ** Executions *)
Lemma reply_exc g y ws yr : nstep g y (NReply ws) = Some yr -> n_exc yr = n_exc y.
Proof.
  cbn [nstep]. destruct (n_fail y); [discriminate|]. destruct (s_out (n_c y)) as [|b q]; [discriminate|].
  destruct (receive_packet g (s_heap (n_c y)) b ws) as [h []]; intros H;
    match type of H with Some ?a = _ => assert (E : yr = a) by congruence end; rewrite E; reflexivity.
Qed.

Lemma step_good g y l y1 t z : Ninv y -> nstep g y l = Some y1 -> nrun g y1 t = Some z ->
  n_fail z = false -> n_exc z = n_exc y -> Ninv y1 /\ n_fail y1 = false /\ n_exc y1 = n_exc y.
Proof.
  intros NI ST RN F X. assert (SO := nstep_ok g y l y1 NI ST).
  destruct SO as (N1 & _ & _ & _ & _ & EX).
  assert (M : forall t y z, Ninv y -> nrun g y t = Some z -> (n_exc y <= n_exc z)%nat).
  { clear. induction t as [|l t IH]; intros y z NI R; [injection R as <-; lia|].
    cbn [nrun] in R. destruct (nstep g y l) as [y1|] eqn:E; [|discriminate].
    destruct (nstep_ok g y l y1 NI E) as (N1 & _ & _ & _ & _ & [(A & _)|(A & _)]); specialize (IH y1 z N1 R); lia. }
  specialize (M t y1 z N1 RN).
  assert (E : n_exc y1 = n_exc y) by (destruct EX as [(A & _)|(A & _)]; lia).
  split; [exact N1|]. split; [|exact E].
  destruct (n_fail y1) eqn:F1; [|reflexivity]. destruct (nrun_raises g t y1 z N1 RN F1); [congruence|lia].
Qed.

Lemma pull_reply g us : forall y r t z yr, Ninv y -> n_fail y = false -> is_reply r = true ->
  forallb plain us = true -> forallb (fun l => negb (is_reply l)) us = true ->
  nrun g y (us ++ r :: t) = Some z -> n_fail z = false -> n_exc z = n_exc y -> nstep g y r = Some yr ->
  n_fail yr = false /\ n_exc yr = n_exc y /\ nrun g yr (us ++ t) = Some z /\ wire g yr (us ++ t) = wire g y (us ++ r :: t).
Proof.
  induction us as [|u us IH]; intros y r t z yr NI F IR PL NR RN FZ XZ SR.
  - cbn [app nrun wire] in *. rewrite SR in *.
    destruct (step_good g y r yr t z NI SR RN FZ XZ) as (_ & A & B).
    unfold emitted. rewrite IR. auto.
  - cbn [forallb] in PL, NR. apply andb_prop in PL, NR. destruct PL as (PL & PLs), NR as (NR & NRs).
    apply negb_true_iff in NR. destruct r as [| | | |ws| |]; try discriminate.
    cbn [app nrun] in RN. destruct (nstep g y u) as [yu|] eqn:SU; [|discriminate].
    destruct (step_good g y u yu _ z NI SU RN FZ XZ) as (NU & FU & XU).
    destruct (diamond g y u ws yu yr NI F PL NR SU SR) as (_ & _ & z1 & SZ & FZ1 & XZ1 & D).
    destruct (IH yu (NReply ws) t z z1 NU FU eq_refl PLs NRs RN FZ ltac:(congruence) SZ) as (A & B & C & E).
    destruct D as (D1 & D2); [congruence|].
    split; [congruence|]. split.
    + exact (reply_exc g y ws yr SR).
    + cbn [app nrun wire]. rewrite D1, SU. split; [exact C|]. rewrite E, D2. reflexivity.
Qed.

Lemma pull_user g rs : forall y u t z yu, Ninv y -> n_fail y = false -> plain u = true -> is_reply u = false ->
  forallb is_reply rs = true ->
  nrun g y (rs ++ u :: t) = Some z -> n_fail z = false -> n_exc z = n_exc y -> nstep g y u = Some yu ->
  n_fail yu = false /\ n_exc yu = n_exc y /\ nrun g yu (rs ++ t) = Some z /\
  emitted y u yu ++ wire g yu (rs ++ t) = wire g y (rs ++ u :: t).
Proof.
  induction rs as [|r rs IH]; intros y u t z yu NI F PL NR IR RN FZ XZ SU.
  - cbn [app nrun wire] in *. rewrite SU in *.
    destruct (step_good g y u yu t z NI SU RN FZ XZ) as (_ & A & B). auto.
  - cbn [forallb] in IR. apply andb_prop in IR. destruct IR as (IR & IRs).
    destruct r as [| | | |ws| |]; try discriminate.
    cbn [app nrun] in RN. destruct (nstep g y (NReply ws)) as [yr|] eqn:SR; [|discriminate].
    destruct (step_good g y (NReply ws) yr _ z NI SR RN FZ XZ) as (NR1 & FR & XR).
    destruct (diamond g y u ws yu yr NI F PL NR SU SR) as (XU & FU & z1 & SZ & _ & XZ1 & D).
    destruct (D FR) as (D1 & D2).
    destruct (IH yr u t z z1 NR1 FR PL NR IRs RN FZ ltac:(congruence) D1) as (A & B & C & E).
    split; [exact FU|]. split; [exact XU|]. cbn [app nrun wire]. rewrite SZ, SR. split; [exact C|].
    rewrite <- E, D2. reflexivity.
Qed.

Lemma first_split {A} (p : A -> bool) l x t : filter p l = x :: t ->
  exists a b, l = a ++ x :: b /\ forallb (fun y => negb (p y)) a = true /\ filter p b = t /\ p x = true.
Proof.
  induction l as [|y l IH]; cbn [filter]; [discriminate|]. destruct (p y) eqn:E.
  - intros H. injection H as -> <-. exists [], l. auto.
  - intros H. destruct (IH H) as (a & b & -> & P & Q & X). exists (y :: a), b. cbn [app forallb]. rewrite E. auto.
Qed.

Lemma filter_none {A} (p : A -> bool) l : forallb (fun y => negb (p y)) l = true -> filter p l = [].
Proof. induction l as [|y l IH]; cbn; [reflexivity|]. destruct (p y); [discriminate|exact IH]. Qed.
Lemma filter_all {A} (p : A -> bool) l : forallb p l = true -> filter p l = l.
Proof. induction l as [|y l IH]; cbn; [reflexivity|]. destruct (p y); [|discriminate]. intros H. f_equal. auto. Qed.

(** The calls of an execution, and its replies. *)
Definition calls_of (ls : list nlabel) : list nlabel := filter (fun l => negb (is_reply l)) ls.
Definition replies_of (ls : list nlabel) : list nlabel := filter is_reply ls.

Lemma same_order g ls' : forall y ls z z', Ninv y -> n_fail y = false ->
  forallb plain ls = true -> forallb plain ls' = true ->
  calls_of ls' = calls_of ls -> replies_of ls' = replies_of ls ->
  nrun g y ls = Some z -> n_fail z = false -> n_exc z = n_exc y -> nrun g y ls' = Some z' ->
  z' = z /\ wire g y ls' = wire g y ls.
Proof.
  unfold calls_of, replies_of.
  induction ls' as [|l t IH]; intros y ls z z' NI F PL PL' CA RE R FZ XZ R'.
  - destruct ls as [|l t]; [split; [congruence|reflexivity]|].
    cbn [filter] in CA, RE. destruct (is_reply l); discriminate.
  - cbn [nrun] in R'. destruct (nstep g y l) as [y1|] eqn:ST; [|discriminate].
    cbn [forallb] in PL'. apply andb_prop in PL'. destruct PL' as (PLl & PLt).
    cbn [filter wire] in *. rewrite ST. destruct (is_reply l) eqn:IR; cbn [negb] in CA.
    + symmetry in RE. destruct (first_split _ _ _ _ RE) as (a & b & -> & NA & FB & _).
      rewrite forallb_app in PL. apply andb_prop in PL. destruct PL as (PLa & PLb).
      cbn [forallb] in PLb. apply andb_prop in PLb. destruct PLb as (_ & PLb).
      destruct (pull_reply g a y l b z y1 NI F IR PLa NA R FZ XZ ST) as (F1 & X1 & R1 & W1).
      assert (N1 := proj1 (nstep_ok g y l y1 NI ST)).
      destruct (IH y1 (a ++ b) z z' N1 F1) as (A & B); trivial.
      * rewrite forallb_app, PLa. exact PLb.
      * rewrite CA, !filter_app. cbn [filter]. rewrite IR. reflexivity.
      * rewrite filter_app, (filter_none _ a NA). symmetry. exact FB.
      * congruence.
      * split; [exact A|]. unfold emitted. rewrite IR. cbn [app]. rewrite B. exact W1.
    + symmetry in CA. destruct (first_split _ _ _ _ CA) as (a & b & -> & NA & FB & _).
      assert (NA' : forallb is_reply a = true).
      { rewrite <- NA. clear. induction a as [|x a IH]; [reflexivity|]. cbn. rewrite IH. destruct (is_reply x); reflexivity. }
      rewrite forallb_app in PL. apply andb_prop in PL. destruct PL as (PLa & PLb).
      cbn [forallb] in PLb. apply andb_prop in PLb. destruct PLb as (_ & PLb).
      destruct (pull_user g a y l b z y1 NI F PLl IR NA' R FZ XZ ST) as (F1 & X1 & R1 & W1).
      assert (N1 := proj1 (nstep_ok g y l y1 NI ST)).
      destruct (IH y1 (a ++ b) z z' N1 F1) as (A & B); trivial.
      * rewrite forallb_app, PLa. exact PLb.
      * rewrite filter_app, (filter_none _ a NA). symmetry. exact FB.
      * rewrite RE, !filter_app. cbn [filter]. rewrite IR. reflexivity.
      * congruence.
      * split; [exact A|]. rewrite B. exact W1.
Qed.

(** What a call gives back: a handle or an exception, the handles it has made,
    the packets it has sent, the packet being filled and the transaction counter. *)
Definition outcome (s : st) (r : res nat) : option ((nat + exc) * list cell * list buf * option buf * N) :=
  let new s' x := Some (x, skipn (length (s_heap s)) (s_heap s'), skipn (length (s_out s)) (s_out s'), s_cur s', s_ctr s') in
  match r with
  | Ok s' c => new s' (inl c)
  | Exc s' e => new s' (inr e)
  | Bad => None
  end.

(** A call does the same whatever the contents and validity of the handles made
    before, and whatever packets are unanswered; and it leaves both alone. *)
Theorem C76_call : forall g s s' o,
  s_ctr s' = s_ctr s -> s_cur s' = s_cur s -> s_budget s' = s_budget s ->
  length (s_heap s') = length (s_heap s) ->
  outcome s' (run_op g s' o) = outcome s (run_op g s o) /\
  match run_op g s o with
  | Ok t _ | Exc t _ => (exists d, s_heap t = s_heap s ++ d) /\ exists e, s_out t = s_out s ++ e
  | Bad => True
  end.
Proof.
  intros g s s' o C U B L.
  assert (R : rel (s_heap s) (s_heap s') (s_out s) (s_out s') s s').
  { exists (s_ctr s), (s_cur s), [], [], (s_budget s). rewrite !app_nil_r, <- C, <- U, <- B at 1.
    split; [rewrite C, U, B|]; [destruct s|destruct s']; cbn in *; congruence. }
  assert (Q := rres_op _ _ _ _ (eq_sym L) g s s' o R).
  destruct (run_op g s o) as [t a|t e|]; destruct (run_op g s' o) as [t' a'|t' e'|]; try contradiction Q.
  - destruct Q as ((ctr & cur & d & e & k & -> & ->) & <-). cbn [outcome s_heap s_out s_cur s_ctr].
    rewrite !skipn_len. split; [reflexivity|]. split; eexists; reflexivity.
  - destruct Q as ((ctr & cur & d & f & k & -> & ->) & <-). cbn [outcome s_heap s_out s_cur s_ctr].
    rewrite !skipn_len. split; [reflexivity|]. split; eexists; reflexivity.
  - split; [reflexivity|exact I].
Qed.

(** A block read over a heap whose only handle is pending, or is filled and
    valid while its packet has been answered. *)
Example call_case :
  let p := mkBuf [0x200000F0; 1; 2] [DPkt; DHdr; DWord 0] [0%nat] in
  let s := mkSt 5 None [CWord false 0 0xFFFFFFFF] [p] None in
  let s' := mkSt 5 None [CWord true 77 0xFFFFFFFF] [] None in
  let r := run_op (mkCfg V2 64 64 None) in
  outcome s' (r s' (OReadBlock 0x10 20 true)) = outcome s (r s (OReadBlock 0x10 20 true)) /\
  exists x d e q, outcome s (r s (OReadBlock 0x10 20 true)) = Some (inl 1%nat, [x], [d], Some e, q).
Proof.
  cbv zeta. split.
  - apply C76_call; reflexivity.
  - vm_compute. do 4 eexists. reflexivity.
Qed.

(** C76: in any state reached by a client (with no failure stored), take an
    execution of calls, dispatches and replies in which nothing fails.  Every
    other possible execution with the same calls and the same replies, each in
    the same order, ends in the same state (contents and validity of all
    handles, packet being filled, unanswered packets) and sends the same packets. *)
Theorem C76_timing : forall g pre y ls ls' z z',
  nrun g init_net pre = Some y -> n_fail y = false ->
  forallb plain ls = true -> forallb plain ls' = true ->
  calls_of ls' = calls_of ls -> replies_of ls' = replies_of ls ->
  nrun g y ls = Some z -> n_fail z = false -> n_exc z = n_exc y ->
  nrun g y ls' = Some z' ->
  z' = z /\ wire g y ls' = wire g y ls.
Proof.
  intros g pre y ls ls' z z' R0. intros. eapply same_order; eauto.
  apply (nrun_Ninv g pre init_net); [exact Ninv_init|exact R0].
Qed.

(** Three block reads that need several packets, the replies coming after each
    call or only at the end. *)
Definition fr_cfg := mkCfg V2 64 64 None.
Definition fr_calls : list nlabel := [NOp (OReadBlock 0x10 20 true); NOp (OWrite 0x40 5); NOp (OReadBlock 0x90 14 true); NDispatch].
Definition fr_answers : list nlabel :=
  map (fun b => NReply (snd (fst (target_packet mem mem_rd mem_wr mem_cf fr_cfg (fun a => a + 7) (b_send b)))))
      (wire fr_cfg init_net fr_calls).
Definition fr_late : list nlabel := fr_calls ++ fr_answers ++ [NReturn].
Definition fr_soon : list nlabel :=
  firstn 1 fr_calls ++ firstn 1 fr_answers ++ skipn 1 (firstn 3 fr_calls) ++ skipn 1 (firstn 2 fr_answers)
  ++ skipn 3 fr_calls ++ skipn 2 fr_answers ++ [NReturn].

Example timing_case : exists z,
  nrun fr_cfg init_net fr_late = Some z /\ nrun fr_cfg init_net fr_soon = Some z /\
  n_fail z = false /\ n_exc z = n_exc init_net /\ fr_late <> fr_soon /\
  calls_of fr_soon = calls_of fr_late /\ replies_of fr_soon = replies_of fr_late /\
  forallb plain fr_late = true /\ forallb plain fr_soon = true /\
  length (wire fr_cfg init_net fr_late) = 3%nat /\
  option_map vec_value (nth_error (s_heap (n_c z)) 2) = Some (Some (map (fun i => 0x90 + 7 + N.of_nat i) (seq 0 14))).
Proof.
  eexists. split; [vm_compute; reflexivity|]. split; [vm_compute; reflexivity|].
  split; [reflexivity|]. split; [reflexivity|]. split; [intros H; vm_compute in H; discriminate|].
  do 5 (split; [vm_compute; reflexivity|]). vm_compute. reflexivity.
Qed.

Print Assumptions C76_call.
Print Assumptions C76_timing.
