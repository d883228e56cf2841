(** C77: after an exception the client behaves as a new one.

    The calls made after a failed dispatch send the same words, complete on the
    same replies and give the same values as on a client just constructed. *)
From Verif Require Import Word Bits Header WordLemmas HeaderProofs ValMem Client
  Validate Target Devices System Tx Net NetProofs NetProofs2 Prop_Frame.
From Coq Require Import NArith ZArith List Lia Bool ZifyBool ZifyNat ZifyN.
Import ListNotations.
Open Scope N_scope.

Section Shift.
Variables (h0 : list cell) (e0 : nat) (b0 : bool).
Let n := length h0.

(** Entries and packets that refer to handles made after the first [n]. *)
Definition shd (d : dest) : dest :=
  match d with DWord c => DWord (n + c) | DVec c o l => DVec (n + c) o l | _ => d end.
Definition shb (b : buf) : buf := mkBuf (b_send b) (map shd (b_reply b)) (map (Nat.add n) (b_vals b)).

(** [s] is the state of a client that has the handles [h0] besides those of [s0]. *)
Definition srel (s s0 : st) : Prop :=
  s_ctr s = s_ctr s0 /\ s_cur s = option_map shb (s_cur s0) /\ s_heap s = h0 ++ s_heap s0 /\
  s_out s = map shb (s_out s0) /\ s_budget s = s_budget s0.

Definition sres {A} (f : A -> A) (r r0 : res A) : Prop :=
  match r, r0 with
  | Ok s a, Ok s0 a0 => srel s s0 /\ a = f a0
  | Exc s e, Exc s0 e0 => srel s s0 /\ e = e0
  | Bad, Bad => True
  | _, _ => False
  end.

Lemma sres_bind {A B} fa fb (r r0 : res A) (k k0 : st -> A -> res B) :
  sres fa r r0 -> (forall s s0 a, srel s s0 -> sres fb (k s (fa a)) (k0 s0 a)) -> sres fb (bind r k) (bind r0 k0).
Proof.
  intros H F. destruct r, r0; cbn in *; try contradiction; try exact I.
  - destruct H as (H & ->). apply F, H.
  - exact H.
Qed.

Lemma srel_set_cur s s0 b : srel s s0 -> srel (set_cur s (option_map shb b)) (set_cur s0 b).
Proof. intros (A & B & C & D & E). repeat split; assumption. Qed.
Lemma srel_inc s s0 : srel s s0 -> srel (inc_ctr s) (inc_ctr s0).
Proof. intros (A & B & C & D & E). unfold srel, inc_ctr. cbn. rewrite A. repeat split; assumption. Qed.
Lemma srel_alloc s s0 c : srel s s0 -> srel (fst (alloc s c)) (fst (alloc s0 c)).
Proof. intros (A & B & C & D & E). unfold srel, alloc. cbn. rewrite C, app_assoc. repeat split; assumption. Qed.
Lemma srel_len s s0 : srel s s0 -> length (s_heap s) = (n + length (s_heap s0))%nat.
Proof. intros (_ & _ & C & _). rewrite C, app_length. reflexivity. Qed.
Lemma srel_add s s0 c : srel s s0 -> srel (add_val s (n + c)) (add_val s0 c).
Proof.
  intros H. assert (H' := H). destruct H' as (_ & B & _). unfold add_val. rewrite B.
  destruct (s_cur s0) as [b|]; [|exact H]. cbn [option_map shb b_send b_reply b_vals].
  apply (srel_set_cur s s0 (Some (mkBuf (b_send b) (b_reply b) (b_vals b ++ [c])))) in H.
  cbn [option_map] in H. unfold shb in H. cbn [b_send b_reply b_vals] in H. rewrite map_app in H. exact H.
Qed.

Lemma dests_shift l : dests_words (map shd l) = dests_words l.
Proof. induction l as [|d t IH]; [reflexivity|]. cbn [map dests_words]. rewrite IH. destruct d; reflexivity. Qed.
Lemma reply_counter_shift b : reply_counter (shb b) = reply_counter b.
Proof. unfold reply_counter. cbn [shb b_reply]. rewrite dests_shift. reflexivity. Qed.

Lemma preamble_shift g s s0 : srel s s0 -> sres shb (preamble g s) (preamble g s0).
Proof.
  intros H. assert (H' := H). destruct H' as (A & _). unfold preamble. rewrite A.
  destruct (g_ver g).
  - destruct (calc_header V1 BOT 0 (s_ctr s0) (req_info V1)); [|exact I].
    split; [apply srel_inc, H|]. destruct (g_hub g) as [(ip & port)|]; reflexivity.
  - split; [exact H|]. destruct (g_hub g) as [(ip & port)|]; reflexivity.
Qed.

Lemma update_shift g s s0 : srel s s0 -> sres shb (update_current g s) (update_current g s0).
Proof.
  intros H. assert (H' := H). destruct H' as (_ & B & _). unfold update_current. rewrite B.
  destruct (s_cur s0) as [b|]; cbn [option_map]; [split; [exact H|reflexivity]|].
  apply (sres_bind shb); [apply preamble_shift, H|]. intros t t0 b T.
  rewrite reply_counter_shift. change (send_counter (shb b)) with (send_counter b).
  destruct ((send_counter b <=? g_maxsend g) && (reply_counter b <=? g_maxreply g)); [|exact I].
  split; [apply (srel_set_cur t t0 (Some b)), T|reflexivity].
Qed.

Lemma predispatch_shift g b : predispatch g (shb b) = option_map shb (predispatch g b).
Proof.
  unfold predispatch. cbv zeta.
  assert (E : forall w k, mkBuf (b_send (shb b) ++ repeat w k) (b_reply (shb b) ++ repeat DHdr k) (b_vals (shb b)) =
              shb (mkBuf (b_send b ++ repeat w k) (b_reply b ++ repeat DHdr k) (b_vals b))).
  { intros w k. unfold shb. cbn. rewrite map_app. f_equal. f_equal. induction k; cbn; congruence. }
  set (b1 := match g_ver g with V1 => _ | V2 => shb b end).
  set (b2 := match g_ver g with V1 => _ | V2 => b end).
  assert (E12 : b1 = shb b2).
  { unfold b1, b2. destruct (g_ver g); [|reflexivity]. destruct (calc_header V1 BOT 0 0 0); [apply E|reflexivity]. }
  rewrite E12. clearbody b2. change (send_counter (shb b2)) with (send_counter b2).
  destruct (g_maxsend g <? send_counter b2); [reflexivity|].
  cbn [shb b_send]. destruct (g_hub g); [|reflexivity].
  destruct (b_send b2) as [|ip [|port rest]]; reflexivity.
Qed.

Lemma send_shift g s s0 b : srel s s0 -> sres (fun u => u) (send_current g s (shb b)) (send_current g s0 b).
Proof.
  intros (A & B & C & D & E). unfold send_current. rewrite predispatch_shift.
  destruct (predispatch g b) as [b'|]; [|exact I]. cbn [option_map]. rewrite E.
  destruct (s_budget s0) as [[|k]|] eqn:E0; (split; [|reflexivity]); unfold srel, exception_handler; cbn;
    rewrite ?D, ?map_app, ?E, ?E0; repeat (split; [auto|]); auto.
Qed.

Ltac cases := match goal with |- sres _ (if ?c then _ else _) _ => destruct c end.

Lemma check_shift g s s0 x y : srel s s0 -> sres (fun u => u) (check_space g s x y) (check_space g s0 x y).
Proof.
  intros H. unfold check_space. apply (sres_bind shb); [apply update_shift, H|]. intros t t0 b T. cbv zeta.
  rewrite reply_counter_shift. change (send_counter (shb b)) with (send_counter b).
  cases; [split; [exact T|reflexivity]|]. cases; [split; [exact T|reflexivity]|].
  apply (sres_bind (fun u => u)); [apply send_shift, T|]. intros u u0 [] U.
  apply (sres_bind shb); [apply update_shift, U|]. intros v v0 b2 V.
  rewrite reply_counter_shift. change (send_counter (shb b2)) with (send_counter b2).
  cases; split; trivial.
Qed.

Lemma push_shift g s s0 t wc body rep : srel s s0 ->
  sres (fun u => u) (push_tx g s t wc body (map shd rep)) (push_tx g s0 t wc body rep).
Proof.
  intros H. assert (H' := H). destruct H' as (A & B & _). unfold push_tx. rewrite A, B.
  destruct (s_cur s0) as [b|]; [|exact I]. cbn [option_map].
  destruct (calc_header (g_ver g) t wc (s_ctr s0) (req_info (g_ver g))) as [w|]; [|split; [apply srel_inc, H|reflexivity]].
  cbv zeta. cbn [shb b_send b_reply b_vals]. rewrite <- map_app.
  change (send_counter (mkBuf (b_send b ++ w :: body) (map shd (b_reply b ++ rep)) (map (Nat.add n) (b_vals b))))
    with (send_counter (mkBuf (b_send b ++ w :: body) (b_reply b ++ rep) (b_vals b))).
  cases; [exact I|]. split; [|reflexivity].
  apply (srel_set_cur (inc_ctr s) (inc_ctr s0) (Some (mkBuf (b_send b ++ w :: body) (b_reply b ++ rep) (b_vals b)))).
  apply srel_inc, H.
Qed.

Lemma finish_shift s s0 c : srel s s0 ->
  sres (Nat.add n) (let (s, c) := alloc s c in Ok (add_val s c) c) (let (s, c) := alloc s0 c in Ok (add_val s c) c).
Proof.
  intros H. assert (A := srel_alloc s s0 c H). cbn [alloc fst] in *. rewrite (srel_len _ _ H).
  split; [apply srel_add, A|reflexivity].
Qed.

Lemma word_shift g s s0 t a e m : srel s s0 -> sres (Nat.add n) (implement_word g s t a e m) (implement_word g s0 t a e m).
Proof.
  intros H. unfold implement_word. apply (sres_bind (fun u => u)); [apply check_shift, H|]. intros u u0 _ U.
  apply (sres_bind (fun u => u)).
  - rewrite (srel_len _ _ U). apply (push_shift g u u0 t 1 (a :: e) [DHdr; DWord (length (s_heap u0))]), U.
  - intros v v0 _ V. apply finish_shift, V.
Qed.

Lemma wloop_shift fuel : forall g s s0 t inc ne a rest p, srel s s0 ->
  sres (fun u => u) (write_loop fuel g s t inc ne a rest p) (write_loop fuel g s0 t inc ne a rest p).
Proof.
  induction fuel as [|f IH]; intros g s s0 t inc ne a rest p H; [exact I|].
  cbn [write_loop]. apply (sres_bind (fun u => u)); [apply check_shift, H|]. intros u u0 av U. cbv zeta.
  cases; [exact I|]. apply (sres_bind (fun u => u)); [apply (push_shift g u u0 t _ _ [DHdr]), U|]. intros v v0 _ V.
  cases; [apply IH, V|split; [exact V|reflexivity]].
Qed.

Lemma rloop_shift fuel : forall g s s0 t inc c size a off p, srel s s0 ->
  sres (fun u => u) (read_loop fuel g s t inc (n + c) size a off p) (read_loop fuel g s0 t inc c size a off p).
Proof.
  induction fuel as [|f IH]; intros g s s0 t inc c size a off p H; [exact I|].
  cbn [read_loop]. apply (sres_bind (fun u => u)); [apply check_shift, H|]. intros u u0 av U. cbv zeta.
  cases; [exact I|]. apply (sres_bind (fun u => u)).
  - apply (push_shift g u u0 t _ _ [DHdr; DVec c off (chunk_bytes (g_ver g) (snd av) 4 / 4)]), U.
  - intros v v0 _ V. cases; [apply IH, V|split; [exact V|reflexivity]].
Qed.

Lemma op_shift g s s0 o : srel s s0 -> sres (Nat.add n) (run_op g s o) (run_op g s0 o).
Proof.
  intros H. destruct o as [a x|a x m|a l inc|a m|a k inc|a x y|a x|a m]; cbn [run_op]; try (apply word_shift, H).
  - unfold implement_write. apply (sres_bind (fun u => u)); [apply check_shift, H|]. intros u u0 _ U.
    apply (sres_bind (fun u => u)); [apply (push_shift g u u0 WRITE 1 [a; x] [DHdr]), U|].
    intros v v0 _ V. apply finish_shift, V.
  - unfold masked_write. destruct (masked_write_check x m); [split; [exact H|reflexivity]|apply word_shift, H].
  - unfold implement_write_block. assert (A := srel_alloc s s0 (CHdr false) H). cbn [alloc fst] in *.
    rewrite (srel_len _ _ H). apply (sres_bind (fun u => u)); [apply wloop_shift, A|]. intros u u0 _ U.
    split; [apply srel_add, U|reflexivity].
  - unfold implement_read_block. assert (A := srel_alloc s s0 (CVec false (repeat 0 (N.to_nat k))) H). cbn [alloc fst] in *.
    rewrite (srel_len _ _ H). apply (sres_bind (fun u => u)); [apply rloop_shift, A|]. intros u u0 _ U.
    split; [apply srel_add, U|reflexivity].
Qed.

Lemma dispatch_shift g s s0 : srel s s0 -> sres (fun u => u) (dispatch_send g s) (dispatch_send g s0).
Proof.
  intros H. assert (H' := H). destruct H' as (_ & B & _). unfold dispatch_send. rewrite B.
  destruct (s_cur s0); cbn [option_map]; [apply send_shift, H|split; [exact H|reflexivity]].
Qed.

(** ** Replies *)
Lemma upd_shift {A} (l k : list A) i f : upd (l ++ k) (length l + i) f = l ++ upd k i f.
Proof. induction l; cbn; congruence. Qed.

Lemma scatter_shift ds : forall ws, scatter (map shd ds) ws = map (fun e => (shd (fst e), snd e)) (scatter ds ws).
Proof.
  induction ds as [|d t IH]; intros ws; [reflexivity|]. cbn [map scatter fst snd].
  assert (E : dest_words (shd d) = dest_words d) by (destruct d; reflexivity).
  rewrite E, IH. reflexivity.
Qed.

Definition she (e : dest * list N) : dest * list N := (shd (fst e), snd e).

Lemma fill_shift l : forall k, fill (h0 ++ k) (map she l) = h0 ++ fill k l.
Proof.
  unfold fill. induction l as [|(d, ws) t IH]; intros k; [reflexivity|]. cbn [map fold_left].
  assert (E : fill_cell (h0 ++ k) (she (d, ws)) = h0 ++ fill_cell k (d, ws)).
  { destruct d as [| | |c|c o z]; try reflexivity; cbn [she shd fst snd fill_cell].
    - destruct ws; [reflexivity|]. apply upd_shift.
    - apply upd_shift. }
  rewrite E. apply IH.
Qed.

Lemma core_shift fuel : forall v send l, validate_core fuel v send (map she l) = validate_core fuel v send l.
Proof.
  induction fuel as [|f IH]; intros v send l; [reflexivity|]. cbn [validate_core].
  destruct send as [|sh send]; [reflexivity|]. destruct l as [|e l]; [reflexivity|]. cbn [map].
  change (slot_word (she e)) with (slot_word e).
  destruct (extract_header v sh) as [hs|]; [|reflexivity].
  destruct (extract_header v (slot_word e)) as [hr|]; [|reflexivity].
  destruct (negb (h_id hs =? h_id hr) || negb (ttype_eqb (h_type hs) (h_type hr))); [reflexivity|].
  destruct (negb (h_info hr =? 0)); [reflexivity|].
  change (she e :: map she l) with (map she (e :: l)). rewrite map_length, skipn_map.
  match goal with |- (if ?c then _ else _) = _ => destruct c end; [reflexivity|].
  destruct (skipn (N.to_nat (send_advance (h_type hs) (h_wc hs))) (sh :: send)) as [|a q] eqn:E1; [reflexivity|].
  destruct (skipn (reply_advance (h_type hr)) (e :: l)) as [|b r]; [reflexivity|]. apply (IH v (a :: q) (b :: r)).
Qed.

Lemma ipbus_shift v send l : validate_ipbus v send (map she l) = validate_ipbus v send l.
Proof.
  unfold validate_ipbus. destruct v; [apply core_shift|].
  destruct send as [|p send]; [reflexivity|]. destruct l as [|e l]; [reflexivity|]. cbn [map].
  change (slot_word (she e)) with (slot_word e). rewrite core_shift. reflexivity.
Qed.

Lemma packet_shift g b l : validate_packet g (shb b) (map she l) = validate_packet g b l.
Proof.
  unfold validate_packet. cbn [shb b_send]. destruct (g_hub g) as [(ip & port)|]; [|apply ipbus_shift].
  destruct (b_send b) as [|x [|y send]]; try reflexivity.
  destruct l as [|e9 [|e1 [|e2 l]]]; try reflexivity. cbn [map].
  change (slot_word (she e1)) with (slot_word e1). change (slot_word (she e2)) with (slot_word e2).
  rewrite ipbus_shift. reflexivity.
Qed.

Lemma mark_shift cs : forall k, mark_valid (h0 ++ k) (map (Nat.add n) cs) = h0 ++ mark_valid k cs.
Proof.
  unfold mark_valid. induction cs as [|c t IH]; intros k; [reflexivity|]. cbn [map fold_left].
  unfold n. rewrite upd_shift. apply IH.
Qed.

Lemma receive_shift g k b ws :
  receive_packet g (h0 ++ k) (shb b) ws = (h0 ++ fst (receive_packet g k b ws), snd (receive_packet g k b ws)).
Proof.
  unfold receive_packet. cbv zeta. cbn [shb b_reply b_vals].
  rewrite scatter_shift. change (fun e => (shd (fst e), snd e)) with she.
  rewrite packet_shift, fill_shift.
  destruct (validate_packet g b (scatter (b_reply b) ws)); try reflexivity.
  rewrite mark_shift. reflexivity.
Qed.

(** ** Executions *)
Definition nrel (y y0 : net) : Prop :=
  srel (n_c y) (n_c y0) /\ n_fail y = n_fail y0 /\ n_wait y = n_wait y0 /\ n_doom y = n_doom y0 /\
  n_exc y = (e0 + n_exc y0)%nat /\ n_bad y = b0 || n_bad y0.

Lemma srel_budget s s0 f : srel s s0 -> srel (set_budget s f) (set_budget s0 f).
Proof. intros (A & B & C & D & E). repeat split; assumption. Qed.
Lemma srel_cut s s0 k : srel s s0 -> srel (cut_budget s k) (cut_budget s0 k).
Proof. intros (A & B & C & D & E). repeat split; assumption. Qed.
Lemma srel_drop s s0 : srel s s0 -> srel (drop_all s) (drop_all s0).
Proof. intros (A & B & C & D & E). repeat split; assumption. Qed.
Lemma srel_set s s0 q k : srel s s0 -> srel (set_heap (set_out s (map shb q)) (h0 ++ k)) (set_heap (set_out s0 q) k).
Proof. intros (A & B & C & D & E). repeat split; assumption. Qed.
Lemma srel_heap s s0 k : srel s s0 -> srel (set_heap s (h0 ++ k)) (set_heap s0 k).
Proof. intros (A & B & C & D & E). repeat split; assumption. Qed.

Lemma emitted_shift y l y' z z' : nrel y z -> nrel y' z' ->
  emitted y l y' = map shb (emitted z l z').
Proof.
  intros ((_ & _ & _ & D & _) & _) ((_ & _ & _ & D' & _) & _). unfold emitted.
  destruct (is_reply l); [reflexivity|]. rewrite D, D', map_length, skipn_map. reflexivity.
Qed.

Lemma step_shift g y y0 l : nrel y y0 ->
  match nstep g y l, nstep g y0 l with
  | Some z, Some z0 => nrel z z0
  | None, None => True
  | _, _ => False
  end.
Proof.
  intros (H & F & Wt & Dm & X & B). destruct y as [s fl w bad base ex doom], y0 as [s0 fl0 w0 bad0 base0 ex0 doom0].
  cbn [n_c n_fail n_wait n_doom n_exc n_bad] in *. subst fl0 w0 doom0 ex bad.
  assert (CU : s_cur s = option_map shb (s_cur s0)) by apply H.
  assert (OU : s_out s = map shb (s_out s0)) by apply H.
  assert (HE : s_heap s = h0 ++ s_heap s0) by apply H.
  assert (K : forall s1 s2 f w d, srel s1 s2 -> nrel (mkNet s1 f w (b0 || bad0) base (e0 + ex0) d) (mkNet s2 f w bad0 base0 ex0 d)).
  { intros. repeat (split; [assumption || reflexivity|]). reflexivity. }
  assert (KX : forall s1 s2 l l', srel s1 s2 -> nrel (mkNet (drop_all s1) false false (b0 || bad0) l (S (e0 + ex0)) false)
     (mkNet (drop_all s2) false false bad0 l' (S ex0) false)).
  { intros. split; [apply srel_drop; assumption|]. repeat (split; [reflexivity|]). split; [cbn; lia|reflexivity]. }
  assert (KB : forall s1 s2 f w d, srel s1 s2 -> nrel (mkNet s1 f w true base (e0 + ex0) d) (mkNet s2 f w true base0 ex0 d)).
  { intros. repeat (split; [assumption || reflexivity|]). cbn. rewrite orb_true_r. reflexivity. }
  destruct l as [o| | | |ws| |o k]; cbn [nstep n_c n_fail n_wait n_bad n_base n_exc n_doom].
  - destruct w; [exact I|]. assert (Q := op_shift g _ _ o (srel_budget s s0 fl H)).
    destruct (run_op g (set_budget s fl) o) as [s1 a|s1 []|], (run_op g (set_budget s0 fl) o) as [s2 a2|s2 []|];
      try contradiction Q; try (destruct Q as (_ & Q); discriminate Q); cbn [sres] in Q;
      first [apply KX, Q | apply K, Q | apply KB, H].
  - destruct w; [exact I|]. rewrite CU. destruct (s_cur s0) eqn:CU0; cbn [option_map].
    + assert (Q := dispatch_shift g _ _ (srel_budget s s0 fl H)).
      destruct (dispatch_send g (set_budget s fl)) as [s1 a|s1 ?|], (dispatch_send g (set_budget s0 fl)) as [s2 a2|s2 ?|];
        try contradiction Q; cbn [sres] in Q; first [apply KX, Q | apply K, Q | apply KB, H].
    + apply K, H.
  - destruct (w && negb fl && negb doom); [|exact I]. rewrite OU. destruct (s_out s0); [|exact I].
    cbn [map]. apply K, H.
  - destruct (w && (fl || doom)); [|exact I]. apply KX, H.
  - destruct fl; [exact I|]. rewrite OU, HE. destruct (s_out s0) as [|b q]; [exact I|]. cbn [map].
    rewrite receive_shift. destruct (receive_packet g (s_heap s0) b ws) as [h' []]; cbn [fst snd].
    + apply K, srel_set, H.
    + apply K, srel_heap, H.
    + apply KB, srel_heap, H.
  - rewrite OU. destruct (s_out s0); [exact I|]. cbn [map]. apply K, H.
  - destruct (w || fl); [exact I|]. destruct o as [o|].
    + assert (Q := op_shift g _ _ o (srel_cut s s0 k H)).
      destruct (run_op g (cut_budget s k) o) as [s1 a|s1 []|], (run_op g (cut_budget s0 k) o) as [s2 a2|s2 []|];
        try contradiction Q; try (destruct Q as (_ & Q); discriminate Q); try exact I.
      apply K, Q.
    + assert (Q := dispatch_shift g _ _ (srel_cut s s0 k H)).
      destruct (dispatch_send g (cut_budget s k)) as [s1 a|s1 []|], (dispatch_send g (cut_budget s0 k)) as [s2 a2|s2 []|];
        try contradiction Q; try (destruct Q as (_ & Q); discriminate Q); try exact I.
      apply K, Q.
Qed.

Lemma run_shift g ls : forall y y0, nrel y y0 ->
  wire g y ls = map shb (wire g y0 ls) /\
  match nrun g y ls, nrun g y0 ls with
  | Some z, Some z0 => nrel z z0
  | None, None => True
  | _, _ => False
  end.
Proof.
  induction ls as [|l t IH]; intros y y0 H; [split; [reflexivity|exact H]|].
  cbn [nrun wire]. assert (Q := step_shift g y y0 l H).
  destruct (nstep g y l) as [z|], (nstep g y0 l) as [z0|]; try contradiction Q; [|split; [reflexivity|exact I]].
  destruct (IH z z0 Q) as (A & B). split; [|exact B].
  rewrite A, (emitted_shift y l z y0 z0 H Q), map_app. reflexivity.
Qed.
End Shift.

(** C77: let a call or a dispatch raise an exception of the transport (validation
    error, timeout, socket error, failed connection) in any execution.  Whatever
    happens from then on, [ls], happens as on a client just constructed: the same
    words are sent, the same events are possible, the same exceptions are raised,
    and the handles made since then have the same contents and validity.  The
    handles made before stay as they were. *)
Theorem C77_as_new : forall g pre l y0 y ls,
  nrun g init_net pre = Some y0 -> nstep g y0 l = Some y -> n_exc y = S (n_exc y0) ->
  map b_send (wire g y ls) = map b_send (wire g init_net ls) /\
  match nrun g y ls, nrun g init_net ls with
  | Some z, Some z0 =>
      s_heap (n_c z) = s_heap (n_c y) ++ s_heap (n_c z0) /\
      n_exc z = (n_exc y + n_exc z0)%nat /\ n_fail z = n_fail z0 /\ n_wait z = n_wait z0 /\
      (n_bad y = false -> n_bad z = n_bad z0)
  | None, None => True
  | _, _ => False
  end.
Proof.
  intros g pre l y0 y ls R ST X.
  assert (NI := nrun_Ninv g pre init_net y0 Ninv_init R).
  destruct (nstep_ok g y0 l y NI ST) as (N1 & _ & _ & _ & _ & [(E & _)|(_ & FA & EQ & WA)]); [lia|].
  assert (DM : n_doom y = false).
  { destruct (n_doom y) eqn:D; [|reflexivity]. destruct N1 as (_ & _ & _ & _ & D'). rewrite (D' D) in WA. discriminate. }
  assert (NR : nrel (s_heap (n_c y)) (n_exc y) (n_bad y) y init_net).
  { split.
    - assert (C1 : s_ctr (n_c y) = 0) by (rewrite EQ; reflexivity).
      assert (C2 : s_cur (n_c y) = None) by (rewrite EQ; reflexivity).
      assert (C3 : s_out (n_c y) = []) by (rewrite EQ; reflexivity).
      assert (C4 : s_budget (n_c y) = None) by (rewrite EQ; reflexivity).
      unfold srel. rewrite C1, C2, C3, C4. cbn. rewrite app_nil_r. auto.
    - rewrite FA, WA, DM. cbn. rewrite orb_false_r. repeat split; lia. }
  destruct (run_shift (s_heap (n_c y)) (n_exc y) (n_bad y) g ls y init_net NR) as (A & B).
  split.
  - rewrite A, map_map. reflexivity.
  - destruct (nrun g y ls) as [z|], (nrun g init_net ls) as [z0|]; trivial.
    destruct B as ((_ & _ & H & _) & F & W & _ & X' & BD). repeat (split; [assumption|]).
    intros BY. rewrite BD, BY. reflexivity.
Qed.

(** A dispatch that fails because of a wrong reply, then a block read of two
    packets answered correctly. *)
Definition rc_cfg := mkCfg V2 64 64 None.
Definition rc_pre : list nlabel :=
  [NOp (ORead 0x10 0xFFFFFFFF); NOp (OWrite 0x20 3); NDispatch; NReply [0x200000F0; 0; 0; 0]].
Definition rc_post : list nlabel :=
  let calls := [NOp (OReadBlock 0x40 20 true); NDispatch] in
  calls ++ map (fun b => NReply (snd (fst (target_packet mem mem_rd mem_wr mem_cf rc_cfg (fun a => a + 7) (b_send b)))))
      (wire rc_cfg init_net calls) ++ [NReturn].
Example recover_case : exists y0 y z,
  nrun rc_cfg init_net rc_pre = Some y0 /\ nstep rc_cfg y0 NThrow = Some y /\ n_exc y = S (n_exc y0) /\
  nrun rc_cfg y rc_post = Some z /\ n_exc z = 1%nat /\ length (wire rc_cfg y rc_post) = 2%nat /\
  option_map cell_valid (nth_error (s_heap (n_c z)) 0) = Some false /\
  option_map vec_value (nth_error (s_heap (n_c z)) 2) = Some (Some (map (fun i => 0x47 + N.of_nat i) (seq 0 20))).
Proof.
  do 3 eexists. split; [vm_compute; reflexivity|]. split; [vm_compute; reflexivity|]. split; [reflexivity|].
  split; [vm_compute; reflexivity|]. do 3 (split; [vm_compute; reflexivity|]). vm_compute. reflexivity.
Qed.

Print Assumptions C77_as_new.
