(** Proof layer: the words of the packets are 32-bit words. *)
From Verif Require Import Word Bits Header WordLemmas HeaderProofs ValMem Client Spec System.
From Verif Require Import Hub Manager ManSpec CHub Full FullSpec.
From Coq Require Import NArith ZArith List Lia Bool ZifyBool ZifyNat ZifyN.
Import ListNotations.
Open Scope N_scope.
Ltac Zify.zify_post_hook ::= Z.div_mod_to_equations.

Definition w32 (b : buf) : Prop := Forall (fun x => x < 2 ^ 32) (b_send b).
Definition w3 (s : st) : Prop := Forall w32 (s_out s) /\ match s_cur s with Some b => w32 b | None => True end.
Definition rw {A} (P : A -> Prop) (r : res A) : Prop := match r with Ok s a => w3 s /\ P a | Exc s _ => w3 s | Bad => True end.

Lemma rw_bind {A B} P Q (r : res A) (f : st -> A -> res B) : rw P r -> (forall s a, w3 s -> P a -> rw Q (f s a)) -> rw Q (bind r f).
Proof. intros H F. destruct r; cbn in *; [destruct H; apply F; assumption|exact H|exact I]. Qed.

Lemma calc_header_lt v t wc id info h : calc_header v t wc id info = Some h -> h < 2 ^ 32.
Proof. intros E. apply extract_calc in E. apply E. Qed.

Lemma half_words x y : x < 65536 -> y < 65536 -> x + 65536 * y < 2 ^ 32.
Proof. change (2 ^ 32) with 4294967296. lia. Qed.

Lemma swap16_lt x : swap16 x < 65536.
Proof. unfold swap16. lia. Qed.

Lemma land_lt_r a m : m < 2 ^ 32 -> N.land a m < 2 ^ 32.
Proof.
  intros M. apply lt_pow2_bits. intros k K. rewrite N.land_spec, (testbit_high m 32 k) by assumption. apply andb_false_r.
Qed.
Lemma Forall_firstn {A} (P : A -> Prop) n l : Forall P l -> Forall P (firstn n l).
Proof. intros H. rewrite <- (firstn_skipn n l) in H. apply Forall_app in H. apply H. Qed.
Lemma Forall_skipn {A} (P : A -> Prop) n l : Forall P l -> Forall P (skipn n l).
Proof. intros H. rewrite <- (firstn_skipn n l) in H. apply Forall_app in H. apply H. Qed.

Section W.
Variable g : cfg.
Hypothesis HB : match g_hub g with Some (ip, port) => ip < 2 ^ 32 /\ port < 2 ^ 32 | None => True end.

Lemma rw_update s : w3 s -> rw w32 (update_current g s).
Proof.
  intros H. unfold update_current. destruct (s_cur s) eqn:C; [split; [exact H|destruct H as (_ & H); rewrite C in H; exact H]|].
  apply (rw_bind w32).
  - unfold preamble. destruct (g_ver g).
    + destruct (calc_header V1 BOT 0 (s_ctr s) (req_info V1)) eqn:E; [|exact I]. apply calc_header_lt in E. split; [exact H|].
      unfold w32. cbn [b_send]. apply Forall_app. split; [|repeat constructor; exact E]. destruct (g_hub g) as [[ip port]|]; [destruct HB; repeat constructor; assumption|constructor].
    + split; [exact H|]. unfold w32. cbn [b_send]. apply Forall_app. split; [|repeat constructor]. destruct (g_hub g) as [[ip port]|]; [destruct HB; repeat constructor; assumption|constructor].
  - intros t b T B. destruct ((send_counter b <=? g_maxsend g) && (reply_counter b <=? g_maxreply g)); [|exact I]. split; [split; [apply T|exact B]|exact B].
Qed.

Lemma rw_send s b : w3 s -> w32 b -> rw (fun _ => True) (send_current g s b).
Proof.
  intros (H & _) B. unfold send_current. destruct (predispatch g b) as [b'|] eqn:E; [|exact I].
  assert (B' : w32 b').
  { unfold predispatch in E. set (b1 := match g_ver g with V1 => _ | V2 => b end) in E.
    assert (B1 : w32 b1).
    { subst b1. destruct (g_ver g); [|exact B]. destruct (calc_header V1 BOT 0 0 0) eqn:C; [|exact B]. apply calc_header_lt in C. unfold w32. cbn [b_send]. apply Forall_app. split; [exact B|].
      apply Forall_forall. intros x X. apply repeat_spec in X. subst x. exact C. }
    clearbody b1. destruct (g_maxsend g <? send_counter b1); [discriminate|]. destruct (g_hub g) as [[ip port]|]; [|injection E as <-; exact B1].
    unfold w32 in *. destruct (b_send b1) as [|x [|y rest]]; try discriminate. injection E as <-. cbn [b_send].
    inversion B1 as [|? ? X1 X2]; subst. inversion X2; subst. constructor; [assumption|]. constructor; [|assumption].
    apply half_words; [apply N.mod_lt; discriminate|apply swap16_lt]. }
  destruct (s_budget s) as [[|k]|]; cbn; repeat split; try assumption; apply Forall_app; auto.
Qed.

Ltac cases := match goal with |- rw _ (if ?c then _ else _) => destruct c end.

Lemma rw_check s x y : w3 s -> rw (fun _ => True) (check_space g s x y).
Proof.
  intros H. unfold check_space. eapply rw_bind; [apply rw_update, H|]. intros t b T B. cbv zeta.
  cases; [split; auto|]. cases; [split; auto|].
  eapply rw_bind; [apply rw_send; [exact T|exact B]|]. intros u [] U _. eapply rw_bind; [apply rw_update, U|]. intros w b2 V _. cases; split; auto.
Qed.

Lemma rw_push s t wc body rep : w3 s -> Forall (fun x => x < 2 ^ 32) body -> rw (fun _ => True) (push_tx g s t wc body rep).
Proof.
  intros H B. unfold push_tx. destruct (s_cur s) as [b|] eqn:C; [|exact I].
  destruct (calc_header (g_ver g) t wc (s_ctr s) (req_info (g_ver g))) eqn:E; [|exact H]. apply calc_header_lt in E.
  cbv zeta. cases; [exact I|]. split; [|exact I]. split; [apply H|]. destruct H as (_ & H). rewrite C in H. unfold w32 in *. cbn [s_cur set_cur b_send]. apply Forall_app. auto.
Qed.

Lemma w3_add s c : w3 s -> w3 (add_val s c).
Proof. intros (A & B). unfold add_val. destruct (s_cur s) eqn:C; [|split; [exact A|rewrite C; exact I]]. split; [exact A|exact B]. Qed.

Lemma rw_word s t a e m : w3 s -> a < 2 ^ 32 -> Forall (fun x => x < 2 ^ 32) e -> rw (fun _ => True) (implement_word g s t a e m).
Proof.
  intros H A E. unfold implement_word. eapply rw_bind; [apply rw_check, H|]. intros u _ U _.
  eapply rw_bind; [apply rw_push; [exact U|constructor; assumption]|]. intros w _ V _. split; [apply w3_add, V|exact I].
Qed.

Lemma rw_wloop fuel : forall s t inc ne a rest p, w3 s -> a < 2 ^ 32 -> Forall (fun x => x < 2 ^ 32) rest -> rw (fun _ => True) (write_loop fuel g s t inc ne a rest p).
Proof.
  induction fuel as [|f IH]; intros s t inc ne a rest p H A R; [exact I|]. cbn [write_loop]. eapply rw_bind; [apply rw_check, H|]. intros u av U _. cbv zeta.
  cases; [exact I|]. eapply rw_bind.
  - apply rw_push; [exact U|]. constructor; [exact A|]. destruct ne; [apply Forall_firstn; exact R|constructor].
  - intros w _ V _. cases; [|split; auto]. apply IH; [exact V|destruct inc; [apply add32_lt|exact A]|destruct ne; [apply Forall_skipn; exact R|exact R]].
Qed.

Lemma rw_rloop fuel : forall s t inc c size a off p, w3 s -> a < 2 ^ 32 -> rw (fun _ => True) (read_loop fuel g s t inc c size a off p).
Proof.
  induction fuel as [|f IH]; intros s t inc c size a off p H A; [exact I|]. cbn [read_loop]. eapply rw_bind; [apply rw_check, H|]. intros u av U _. cbv zeta.
  cases; [exact I|]. eapply rw_bind; [apply rw_push; [exact U|repeat constructor; exact A]|].
  intros w _ V _. cases; [|split; auto]. apply IH; [exact V|destruct inc; [apply add32_lt|exact A]].
Qed.

Lemma rw_op s o : op_ok o -> op_words o -> w3 s -> rw (fun _ => True) (run_op g s o).
Proof.
  intros K O H. destruct o as [a x|a x m|a l inc|a m|a n inc|a x y|a x|a m]; cbn [run_op op_words op_ok] in *.
  - unfold implement_write. eapply rw_bind; [apply rw_check, H|]. intros u _ U _.
    eapply rw_bind; [apply rw_push; [exact U|destruct O; repeat constructor; assumption]|]. intros w _ V _. split; [apply w3_add, V|exact I].
  - unfold masked_write. destruct (masked_write_check x m) as [|q r] eqn:E; [exact H|]. apply rw_word; [exact H|apply O|].
    unfold masked_write_check in E. destruct (negb _); [discriminate|]. destruct (negb _); [discriminate|]. injection E as <- <-. repeat constructor; [apply not32_lt|].
    destruct K as (_ & _ & M). apply land_lt_r, M.
  - unfold implement_write_block. cbn [alloc]. eapply rw_bind; [apply rw_wloop; [exact H|apply O|apply O]|]. intros u _ U _. split; [apply w3_add, U|exact I].
  - apply rw_word; [exact H|exact O|constructor].
  - unfold implement_read_block. cbn [alloc]. eapply rw_bind; [apply rw_rloop; [exact H|exact O]|]. intros u _ U _. split; [apply w3_add, U|exact I].
  - apply rw_word; [exact H|apply O|]. destruct O as (_ & ? & ?). repeat constructor; assumption.
  - apply rw_word; [exact H|apply O|]. destruct O. repeat constructor; assumption.
  - apply rw_word; [exact H|exact O|constructor].
Qed.

Lemma rw_dispatch s : w3 s -> rw (fun _ => True) (dispatch_send g s).
Proof.
  intros H. unfold dispatch_send. destruct (s_cur s) as [b|] eqn:C; [|split; auto]. apply rw_send; [exact H|]. destruct H as (_ & H). rewrite C in H. exact H.
Qed.
End W.
