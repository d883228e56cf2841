(** C110: texts of exceptions. *)
From Coq Require Import NArith List Bool PeanoNat Ascii String Lia ZifyBool ZifyNat ZifyN.
From Verif Require Import ExcText ExcTextSpec.
Import ListNotations.
Open Scope nat_scope.

Lemma room_N : N.of_nat room = 65536%N.
Proof. unfold room. apply N2Nat.id. Qed.
Local Opaque room.

Definition nonul (t : list ascii) : Prop := ~ In nul t.

Lemma says_cstr s t : says s t -> cstr s = t.
Proof.
  intros (N & H). fold nul in *. revert s H. induction t as [|c t IH]; intros s H.
  - destruct H as [->|(r & ->)]; reflexivity.
  - assert (C : c <> nul) by (intros ->; apply N; left; reflexivity). assert (N' : ~ In nul t) by (intros Z; apply N; right; exact Z).
    destruct H as [->|(r & ->)]; cbn [cstr app]; destruct (Ascii.eqb_spec c nul); try congruence; f_equal; apply IH; auto. right. exists r. reflexivity.
Qed.
Lemma cstr_says s : says s (cstr s).
Proof.
  unfold says. fold nul. induction s as [|c s (A & B)]; cbn [cstr]; [split; auto|]. destruct (Ascii.eqb_spec c nul) as [->|C].
  - split; [auto|]. right. exists s. reflexivity.
  - split; [intros [Z|Z]; auto|]. destruct B as [B|(r & B)]; [left; congruence|right; exists r; cbn; congruence].
Qed.
Lemma strlen_hold t r : nonul t -> strlen (t ++ nul :: r) = Some (List.length t).
Proof.
  induction t as [|c t IH]; intros H; cbn [app strlen List.length]; [reflexivity|]. destruct (Ascii.eqb_spec c nul) as [->|C]; [exfalso; apply H; left; reflexivity|].
  rewrite IH; [reflexivity|]. intros Z. apply H. right. exact Z.
Qed.

(** The memory holds the text [t]. *)
Definition holds (e : exc) (d t : list ascii) : Prop := e_desc e = d /\ nonul t /\ List.length (e_mem e) = room /\ exists r, e_mem e = t ++ nul :: r.

Lemma holds_short e d t : holds e d t -> List.length t < room.
Proof. intros (_ & _ & L & r & E). rewrite E, app_length in L. cbn [List.length] in L. lia. Qed.

Lemma store_ok m k l : k + List.length l <= List.length m -> exists r, store m k l = Ok (firstn k m ++ l ++ r) /\ List.length (firstn k m ++ l ++ r) = List.length m.
Proof.
  intros H. exists (skipn (k + List.length l) m). unfold store. destruct (Nat.leb_spec (k + List.length l) (List.length m)); [|lia]. split; [reflexivity|].
  rewrite !app_length, firstn_length, skipn_length. lia.
Qed.
Lemma store_ub m k l : List.length m < k + List.length l -> store m k l = UB.
Proof. intros H. unfold store. destruct (Nat.leb_spec (k + List.length l) (List.length m)); [lia|reflexivity]. Qed.

Lemma holds_fresh d g : List.length g = room -> holds (mkE d (fresh g)) d [].
Proof.
  intros H. split; [reflexivity|]. split; [intros []|]. unfold fresh. cbn [e_mem]. split; [|exists (skipn 1 g); reflexivity].
  cbn [List.length]. rewrite skipn_length. pose proof room_N. lia.
Qed.

Lemma append_ok e d t s u : holds e d t -> says s u -> List.length t + List.length u < room -> exists e', append e s = Ok e' /\ holds e' d (t ++ u).
Proof.
  intros (D & T & L & r & E) U F. unfold append. rewrite E, strlen_hold by exact T. unfold strncat. rewrite strlen_hold by exact T. rewrite (says_cstr _ _ U).
  rewrite firstn_all2 by lia. destruct (store_ok (t ++ nul :: r) (List.length t) (u ++ [nul])) as (r' & S1 & S2).
  { rewrite <- E, L, app_length. cbn [List.length]. lia. }
  rewrite S1. eexists. split; [reflexivity|]. rewrite firstn_app, Nat.sub_diag, firstn_O, app_nil_r, firstn_all in *. split; [exact D|].
  split; [unfold nonul; rewrite in_app_iff; intros [Z|Z]; [exact (T Z)|exact (proj1 U Z)]|]. cbn [e_mem]. split; [rewrite S2, <- E; exact L|].
  exists r'. rewrite <- !app_assoc. reflexivity.
Qed.
Lemma append_ub e d t s u : holds e d t -> says s u -> room <= List.length t + List.length u -> append e s = UB.
Proof.
  intros H U F. pose proof (holds_short _ _ _ H) as HS. destruct H as (D & T & L & r & E). unfold append. rewrite E, strlen_hold by exact T. unfold strncat. rewrite strlen_hold by exact T. rewrite (says_cstr _ _ U).
  rewrite store_ub; [reflexivity|]. rewrite <- E, L, app_length, firstn_length. cbn [List.length]. lia.
Qed.

Lemma strcpy_ok m e d t : List.length m = room -> holds e d t -> exists m', strcpy m (e_mem e) = Ok m' /\ forall d', holds (mkE d' m') d' t.
Proof.
  intros M H. pose proof (holds_short _ _ _ H) as HS. destruct H as (D & T & L & r & E). unfold strcpy. rewrite E, strlen_hold by exact T.
  assert (F : firstn (S (List.length t)) (t ++ nul :: r) = t ++ [nul]).
  { rewrite firstn_app, firstn_all2 by lia. replace (S (List.length t) - List.length t) with 1 by lia. reflexivity. }
  rewrite F. destruct (store_ok m 0 (t ++ [nul])) as (r' & S1 & S2); [rewrite app_length; cbn [List.length]; lia|]. rewrite S1. eexists. split; [reflexivity|].
  intros d'. split; [reflexivity|]. split; [exact T|]. cbn [e_mem firstn app]. split; [rewrite <- M; exact S2|]. exists r'. rewrite <- app_assoc. reflexivity.
Qed.

Lemma what_full e d t : holds e d t -> t <> [] -> what e = Ok (e, t).
Proof.
  intros (D & T & L & r & E) H. unfold what. rewrite E, strlen_hold by exact T. destruct t as [|c t]; [congruence|]. cbn [List.length app firstn]. rewrite firstn_app, firstn_all, Nat.sub_diag. cbn [firstn]. rewrite app_nil_r. reflexivity.
Qed.
Lemma what_empty e d u : holds e d [] -> says (d ++ no_info) u -> List.length u < room -> exists e', what e = Ok (e', u) /\ holds e' d u.
Proof.
  intros (D & T & L & r & E) U F. unfold what. rewrite E, (strlen_hold []) by exact T. cbn [List.length]. unfold strncpy. rewrite D, (says_cstr _ _ U).
  assert (Q : firstn room (u ++ repeat nul room) = u ++ nul :: repeat nul (room - List.length u - 1)).
  { rewrite firstn_app, firstn_all2 by lia. f_equal. replace room with (S (List.length u) + (room - List.length u - 1)) at 2 by lia. rewrite repeat_app.
    replace (room - List.length u) with (S (room - List.length u - 1)) at 1 by lia. cbn [repeat Nat.add app firstn].
    f_equal. rewrite <- repeat_app. generalize (List.length u) (room - List.length u - 1). clear. intros a b. induction b as [|b IH]; [reflexivity|]. rewrite <- plus_n_Sm. cbn [repeat firstn]. f_equal. exact IH. }
  rewrite Q. destruct (store_ok ([] ++ nul :: r) 0 (u ++ nul :: repeat nul (room - List.length u - 1))) as (r' & S1 & S2).
  { rewrite <- E, L, app_length. cbn [List.length]. rewrite repeat_length. lia. }
  rewrite S1. cbn [firstn app] in *. rewrite <- app_assoc. cbn [app]. rewrite strlen_hold by exact (proj1 U). rewrite firstn_app, firstn_all, Nat.sub_diag. cbn [firstn]. rewrite app_nil_r.
  eexists. split; [reflexivity|]. split; [reflexivity|]. split; [exact (proj1 U)|]. cbn [e_mem]. split; [|eexists; reflexivity]. rewrite <- app_assoc in S2. cbn [app] in S2. rewrite E in L. exact (eq_trans S2 L).
Qed.
Lemma strncpy_long m u n : List.length m = n -> n <= List.length u -> strncpy m u n = Ok (firstn n u).
Proof.
  intros L F. unfold strncpy. rewrite firstn_app. replace (n - List.length u) with 0 by lia. rewrite firstn_O, app_nil_r. unfold store. rewrite firstn_length_le by lia. rewrite L, Nat.add_0_l, Nat.leb_refl.
  cbn [firstn app]. rewrite skipn_all2 by lia. rewrite app_nil_r. reflexivity.
Qed.
Lemma strlen_none w : nonul w -> strlen w = None.
Proof.
  induction w as [|c w IH]; intros H; [reflexivity|]. cbn [strlen]. destruct (Ascii.eqb_spec c nul) as [->|C]; [exfalso; apply H; left; reflexivity|].
  rewrite IH; [reflexivity|]. intros Z. apply H. right. exact Z.
Qed.
Lemma what_ub e d u : holds e d [] -> says (d ++ no_info) u -> room <= List.length u -> what e = UB.
Proof.
  intros (D & T & L & r & E) U F. unfold what. replace (strlen (e_mem e)) with (Some 0) by (rewrite E; symmetry; exact (strlen_hold [] r T)). rewrite D, (says_cstr _ _ U), (strncpy_long _ u room L F).
  rewrite strlen_none; [reflexivity|]. intros H. apply (proj1 U). fold nul. rewrite <- (firstn_skipn room u). apply in_or_app. left. exact H.
Qed.

Definition okx (x : option exc) (y : option (list ascii * list ascii)) : Prop :=
  match x, y with Some e, Some (d, t) => holds e d t | None, None => True | _, _ => False end.
Definition rel (l : excs) (n : notes) : Prop := Forall2 okx l n.

Lemma rel_right l n1 y n2 : rel l (n1 ++ y :: n2) -> exists l1 x l2, l = l1 ++ x :: l2 /\ rel l1 n1 /\ okx x y /\ rel l2 n2 /\ List.length l1 = List.length n1.
Proof.
  intros H. apply Forall2_app_inv_r in H. destruct H as (l1 & l2 & A & B & ->). inversion B as [|x y' l2' n2' X Y]; subst. exists l1, x, l2'. repeat split; auto. clear -A. induction A; cbn; congruence.
Qed.
Lemma rel_left l1 x l2 n : rel (l1 ++ x :: l2) n -> exists n1 y n2, n = n1 ++ y :: n2 /\ rel l1 n1 /\ okx x y /\ rel l2 n2 /\ List.length l1 = List.length n1.
Proof.
  intros H. apply Forall2_app_inv_l in H. destruct H as (n1 & n2 & A & B & ->). inversion B as [|x' y l2' n2' X Y]; subst. exists n1, y, n2'. repeat split; auto. clear -A. induction A; cbn; congruence.
Qed.
Lemma rel_mid l1 n1 x y l2 n2 : rel l1 n1 -> okx x y -> rel l2 n2 -> rel (l1 ++ x :: l2) (n1 ++ y :: n2).
Proof. intros A B C. apply Forall2_app; [exact A|]. constructor; assumption. Qed.
Lemma rel_snoc l n x y : rel l n -> okx x y -> rel (l ++ [x]) (n ++ [y]).
Proof. intros A B. apply Forall2_app; [exact A|]. constructor; [exact B|constructor]. Qed.
Lemma xget_mid l1 x l2 : xget (l1 ++ x :: l2) (List.length l1) = x.
Proof. unfold xget. rewrite nth_error_app2, Nat.sub_diag by lia. reflexivity. Qed.
Lemma xput_mid l1 x l2 z : xput (l1 ++ x :: l2) (List.length l1) z = l1 ++ z :: l2.
Proof.
  unfold xput. rewrite firstn_app, firstn_all, Nat.sub_diag, firstn_O, app_nil_r. f_equal. f_equal.
  rewrite skipn_app, skipn_all2 by lia. replace (S (List.length l1) - List.length l1) with 1 by lia. reflexivity.
Qed.
Lemma xget_split l i e : xget l i = Some e -> exists l1 l2, l = l1 ++ Some e :: l2 /\ List.length l1 = i.
Proof.
  unfold xget. destruct (nth_error l i) as [x|] eqn:E; [|discriminate]. intros ->. apply nth_error_split in E. destruct E as (l1 & l2 & -> & E). eauto.
Qed.
Lemma rel_get l n j d t : rel l n -> nth_error n j = Some (Some (d, t)) -> exists e, xget l j = Some e /\ holds e d t.
Proof.
  intros R E. apply nth_error_split in E. destruct E as (n1 & n2 & -> & <-). destruct (rel_right _ _ _ _ R) as (l1 & x & l2 & -> & _ & X & _ & L).
  rewrite <- L, xget_mid. destruct x as [e|]; [|contradiction]. eauto.
Qed.
Lemma rel_get_left l n j e : rel l n -> xget l j = Some e -> exists d t, nth_error n j = Some (Some (d, t)) /\ holds e d t.
Proof.
  intros R E. apply xget_split in E. destruct E as (l1 & l2 & -> & <-). destruct (rel_left _ _ _ _ R) as (n1 & y & n2 & -> & _ & X & _ & L).
  destruct y as [[d t]|]; [|contradiction]. exists d, t. split; [|exact X]. rewrite L, nth_error_app2, Nat.sub_diag by lia. reflexivity.
Qed.

Lemma short_mid n1 d t n2 : short (n1 ++ Some (d, t) :: n2) -> List.length t < room.
Proof. intros H. apply Forall_app in H. destruct H as (_ & H). inversion H as [|x l A B]; subst. pose proof room_N. lia. Qed.

(** A command on memory and on texts. *)
Lemma step_forward l n c n' r : rel l n -> means n c n' r -> proper c -> short n' -> exists l', xstep l c = Some (Ok (l', r)) /\ rel l' n'.
Proof.
  intros R M P SH. pose proof room_N as RN. destruct M; cbn [xstep proper] in *.
  - assert (G : List.length g = room) by lia. rewrite G, Nat.eqb_refl. eexists. split; [reflexivity|]. apply rel_snoc; [exact R|]. cbn. apply holds_fresh. exact G.
  - assert (G : List.length g = room) by lia. rewrite G, Nat.eqb_refl. destruct (append_ok _ _ _ s u (holds_fresh d g G) H) as (e' & E & Hd).
    { apply short_mid in SH. cbn [List.length]. lia. }
    rewrite E. eexists. split; [reflexivity|]. apply rel_snoc; [exact R|exact Hd].
  - assert (G : List.length g = room) by lia. destruct (rel_get _ _ _ _ _ R H) as (e & E & Hd). rewrite E, G, Nat.eqb_refl. destruct (strcpy_ok g e d t G Hd) as (m & Em & Hm). rewrite Em.
    eexists. split; [reflexivity|]. apply rel_snoc; [exact R|]. replace (e_desc e) with d by (symmetry; exact (proj1 Hd)). exact (Hm d).
  - destruct (rel_get _ _ _ _ _ R H) as (f & E & Hf). destruct (rel_right _ _ _ _ R) as (k1 & x & k2 & -> & R1 & X & R2 & L). destruct x as [e|]; [|contradiction].
    rewrite E. rewrite <- L in *. rewrite xget_mid. destruct (Nat.eqb_spec (List.length k1) j) as [Z|Z]; [congruence|]. assert (X' := X). destruct X' as (Xd & _ & Xl & _).
    destruct (strcpy_ok (e_mem e) f d' t' Xl Hf) as (m & Em & Hm). rewrite Em, xput_mid. eexists. split; [reflexivity|]. apply rel_mid; auto; try exact I. rewrite Xd. exact (Hm d).
  - destruct (rel_right _ _ _ _ R) as (k1 & x & k2 & -> & R1 & X & R2 & L). destruct x as [e|]; [|contradiction]. rewrite <- L, xget_mid. destruct (append_ok e d t s u X H) as (e' & E & He).
    { apply short_mid in SH. rewrite app_length in SH. lia. }
    rewrite E, xput_mid. eexists. split; [reflexivity|]. apply rel_mid; auto; try exact I.
  - destruct (rel_right _ _ _ _ R) as (k1 & x & k2 & -> & R1 & X & R2 & L). destruct x as [e|]; [|contradiction]. rewrite <- L, xget_mid. rewrite (what_full e d t X H), xput_mid. eexists. split; [reflexivity|]. apply rel_mid; auto; try exact I.
  - destruct (rel_right _ _ _ _ R) as (k1 & x & k2 & -> & R1 & X & R2 & L). destruct x as [e|]; [|contradiction]. rewrite <- L, xget_mid. destruct (what_empty e d u X H) as (e' & E & He).
    { apply short_mid in SH. exact SH. }
    rewrite E, xput_mid. eexists. split; [reflexivity|]. apply rel_mid; auto; try exact I.
  - destruct (rel_right _ _ _ _ R) as (k1 & x & k2 & -> & R1 & X & R2 & L). destruct x as [e|]; [|contradiction]. rewrite <- L, xget_mid, xput_mid. eexists. split; [reflexivity|]. apply rel_mid; auto; try exact I.
Qed.

Lemma step_backward l n c l' r : rel l n -> xstep l c = Some (Ok (l', r)) -> exists n', means n c n' r /\ rel l' n'.
Proof.
  intros R ST. destruct c; cbn [xstep] in ST.
  - destruct (Nat.eqb_spec (List.length g) room) as [G|]; [|discriminate]. injection ST as <- <-. eexists. split; [constructor|]. apply rel_snoc; [exact R|apply holds_fresh; exact G].
  - destruct (Nat.eqb_spec (List.length g) room) as [G|]; [|discriminate]. pose proof (cstr_says s) as U. destruct (Nat.lt_ge_cases (List.length (cstr s)) room) as [F|F].
    + destruct (append_ok _ _ _ s _ (holds_fresh d g G) U F) as (e' & E & He). rewrite E in ST. injection ST as <- <-. eexists. split; [apply M_message; exact U|]. apply rel_snoc; [exact R|exact He].
    + rewrite (append_ub _ _ _ s _ (holds_fresh d g G) U F) in ST. discriminate.
  - destruct (xget l i) as [e|] eqn:E; [|discriminate]. destruct (Nat.eqb_spec (List.length g) room) as [G|]; [|discriminate]. destruct (rel_get_left _ _ _ _ R E) as (d & t & N & He).
    destruct (strcpy_ok g e d t G He) as (m & Em & Hm). rewrite Em in ST. injection ST as <- <-. eexists. split; [eapply M_copy; exact N|]. apply rel_snoc; [exact R|]. replace (e_desc e) with d by (symmetry; exact (proj1 He)). exact (Hm d).
  - destruct (xget l i) as [e|] eqn:E; [|discriminate]. destruct (xget l j) as [f|] eqn:F; [|discriminate]. destruct (Nat.eqb_spec i j) as [Z|Z]; [discriminate|].
    destruct (rel_get_left _ _ _ _ R F) as (d' & t' & N & Hf). apply xget_split in E. destruct E as (k1 & k2 & -> & <-). destruct (rel_left _ _ _ _ R) as (n1 & y & n2 & -> & R1 & X & R2 & L).
    destruct y as [[d t]|]; [|contradiction]. assert (X' := X). destruct X' as (Xd & _ & Xl & _). destruct (strcpy_ok (e_mem e) f d' t' Xl Hf) as (m & Em & Hm). rewrite Em, xput_mid in ST. injection ST as <- <-.
    eexists. split; [rewrite L; eapply M_assign; exact N|]. apply rel_mid; auto; try exact I. rewrite Xd. exact (Hm d).
  - destruct (xget l i) as [e|] eqn:E; [|discriminate]. apply xget_split in E. destruct E as (k1 & k2 & -> & <-). destruct (rel_left _ _ _ _ R) as (n1 & y & n2 & -> & R1 & X & R2 & L).
    destruct y as [[d t]|]; [|contradiction]. pose proof (cstr_says s) as U. destruct (Nat.lt_ge_cases (List.length t + List.length (cstr s)) room) as [F|F].
    + destruct (append_ok _ _ _ s _ X U F) as (e' & E & He). rewrite E, xput_mid in ST. injection ST as <- <-. eexists. split; [rewrite L; apply M_append; exact U|]. apply rel_mid; auto; try exact I.
    + rewrite (append_ub _ _ _ s _ X U F) in ST. discriminate.
  - destruct (xget l i) as [e|] eqn:E; [|discriminate]. apply xget_split in E. destruct E as (k1 & k2 & -> & <-). destruct (rel_left _ _ _ _ R) as (n1 & y & n2 & -> & R1 & X & R2 & L).
    destruct y as [[d t]|]; [|contradiction]. destruct t as [|c t].
    + pose proof (cstr_says (d ++ no_info)) as U. destruct (Nat.lt_ge_cases (List.length (cstr (d ++ no_info))) room) as [F|F].
      * destruct (what_empty _ _ _ X U F) as (e' & E & He). rewrite E, xput_mid in ST. injection ST as <- <-. eexists. split; [rewrite L; apply M_what_empty; exact U|]. apply rel_mid; auto; try exact I.
      * rewrite (what_ub _ _ _ X U F) in ST. discriminate.
    + rewrite (what_full _ _ _ X) in ST by discriminate. rewrite xput_mid in ST. injection ST as <- <-. eexists. split; [rewrite L; apply M_what; discriminate|]. apply rel_mid; auto; try exact I.
  - destruct (xget l i) as [e|] eqn:E; [|discriminate]. apply xget_split in E. destruct E as (k1 & k2 & -> & <-). destruct (rel_left _ _ _ _ R) as (n1 & y & n2 & -> & R1 & X & R2 & L).
    destruct y as [[d t]|]; [|contradiction]. rewrite xput_mid in ST. injection ST as <- <-. eexists. split; [rewrite L; apply M_delete|]. apply rel_mid; auto; try exact I.
Qed.

Lemma run_forward : forall cs l n n' rs, rel l n -> Forall proper cs -> short_meant n cs n' rs -> exists l', xrun l cs = Some (Ok (l', rs)) /\ rel l' n'.
Proof.
  induction cs as [|c cs IH]; intros l n n' rs R P S.
  - inversion S; subst. cbn [xrun]. eauto.
  - inversion S as [|l0 c0 n1 r cs0 n2 rs0 S1 S2 S3]; subst. inversion P as [|c0 cs0 P1 P2]; subst. cbn [xrun].
    assert (SH : short n1) by (inversion S3; assumption).
    destruct (step_forward _ _ _ _ _ R S2 P1 SH) as (l1 & -> & R1). destruct (IH _ _ _ _ R1 P2 S3) as (l2 & -> & R2). eauto.
Qed.
Lemma run_backward : forall cs l n l' rs, rel l n -> xrun l cs = Some (Ok (l', rs)) -> exists n', meant n cs n' rs /\ rel l' n'.
Proof.
  induction cs as [|c cs IH]; intros l n l' rs R H; cbn [xrun] in H; [injection H as <- <-; eexists; split; [constructor|exact R]|].
  destruct (xstep l c) as [[[l1 r]|]|] eqn:ST; try discriminate. destruct (xrun l1 cs) as [[[l2 rs']|]|] eqn:RU; try discriminate. injection H as <- <-.
  destruct (step_backward _ _ _ _ _ R ST) as (n1 & M & R1). destruct (IH _ _ _ _ R1 RU) as (n2 & M2 & R2). eexists. split; [econstructor; eassumption|exact R2].
Qed.

(** Whatever is done with exceptions, as long as no memory was overrun the texts are right. *)
Theorem C110_right : forall cs l rs, xrun [] cs = Some (Ok (l, rs)) -> exists n, meant [] cs n rs.
Proof. intros cs l rs H. destruct (run_backward cs [] [] l rs (Forall2_nil _) H) as (n & M & _). eauto. Qed.

(** As long as no text reaches 65536 characters nothing is overrun, and what() tells the text.  Partial: longer texts ([C110_overrun_refuted]), and assignment to
    itself. *)
Theorem C110_short_partial : forall cs n rs, Forall proper cs -> short_meant [] cs n rs -> exists l, xrun [] cs = Some (Ok (l, rs)).
Proof. intros cs n rs P H. destruct (run_forward cs [] [] n rs (Forall2_nil _) P H) as (l & E & _). eauto. Qed.

Lemma xrun_app : forall cs l ds l' rs, xrun l cs = Some (Ok (l', rs)) -> xrun l' ds = Some UB -> xrun l (cs ++ ds) = Some UB.
Proof.
  induction cs as [|c cs IH]; intros l ds l' rs H U; cbn [xrun app] in *; [injection H as <- <-; exact U|].
  destruct (xstep l c) as [[[l1 r]|]|]; try discriminate. destruct (xrun l1 cs) as [[[l2 rs']|]|] eqn:RU; try discriminate. injection H as <- <-. rewrite (IH _ _ _ _ RU U). reflexivity.
Qed.

(** An append by which a text reaches 65536 characters writes behind the memory: the NUL of strncat. *)
Theorem C110_overrun_refuted : forall cs n rs i d t s u, Forall proper cs -> short_meant [] cs n rs ->
  nth_error n i = Some (Some (d, t)) -> says s u -> (65536 <= N.of_nat (List.length t) + N.of_nat (List.length u))%N ->
  xrun [] (cs ++ [XAppend i s]) = Some UB.
Proof.
  intros cs n rs i d t s u P H E U F. destruct (run_forward cs [] [] n rs (Forall2_nil _) P H) as (l & R & RL). eapply xrun_app; [exact R|].
  destruct (rel_get _ _ _ _ _ RL E) as (e & X & He). cbn [xrun xstep]. rewrite X. pose proof room_N. rewrite (append_ub e d t s u He U); [reflexivity|lia].
Qed.

(** what() is not without effect: when it is called before the first append, the description stays in the text. *)
Theorem C110_what_refuted : forall d g s u v, N.of_nat (List.length g) = 65536%N -> says (d ++ list_ascii_of_string " (no additional info)") v -> says s u -> u <> [] -> v <> [] ->
  (N.of_nat (List.length v) + N.of_nat (List.length u) < 65536)%N ->
  (exists l, xrun [] [XNew d g; XAppend 0 s; XWhat 0] = Some (Ok (l, [u]))) /\
  (exists l, xrun [] [XNew d g; XWhat 0; XAppend 0 s; XWhat 0] = Some (Ok (l, [v; v ++ u]))) /\ u <> v ++ u.
Proof.
  intros d g s u v G V U UN VN F. repeat split.
  - apply C110_short_partial with (n := [Some (d, u)]); [repeat constructor; exact G|].
    refine (S_cons [] (XNew d g) [Some (d, [])] None _ _ [u] _ (M_new [] d g) _); [constructor|].
    refine (S_cons _ _ [Some (d, u)] None _ _ [u] _ (M_append [] d [] [] s u U) _); [repeat constructor|].
    refine (S_cons _ _ [Some (d, u)] (Some u) _ _ [] _ (M_what [] d u [] UN) _); [repeat constructor; lia|]. apply S_nil. repeat constructor. lia.
  - assert (W : v ++ u <> []) by (destruct v; [congruence|discriminate]).
    apply C110_short_partial with (n := [Some (d, v ++ u)]); [repeat constructor; exact G|].
    refine (S_cons [] (XNew d g) [Some (d, [])] None _ _ [v; v ++ u] _ (M_new [] d g) _); [constructor|].
    refine (S_cons _ _ [Some (d, v)] (Some v) _ _ [v ++ u] _ (M_what_empty [] d [] v V) _); [repeat constructor|].
    refine (S_cons _ _ [Some (d, v ++ u)] None _ _ [v ++ u] _ (M_append [] d v [] s u U) _); [repeat constructor; lia|].
    refine (S_cons _ _ [Some (d, v ++ u)] (Some (v ++ u)) _ _ [] _ (M_what [] d (v ++ u) [] W) _); [repeat constructor; rewrite app_length; lia|]. apply S_nil. repeat constructor. rewrite app_length. lia.
  - intros Z. apply (f_equal (@List.length ascii)) in Z. rewrite app_length in Z. destruct v; [congruence|cbn [List.length] in Z; lia].
Qed.

(** An exception that is copied, both get more text; the memory of the copy was full of something else. *)
Definition junk : block := repeat "x"%char room.
Lemma junk_length : N.of_nat (List.length junk) = 65536%N.
Proof. unfold junk. rewrite repeat_length. exact room_N. Qed.
Definition text (s : string) : list ascii := list_ascii_of_string s.
Definition ex_prog : list xcmd :=
  [XNew (text "IPbus packet header mismatch.") junk; XAppend 0 (text "Header 1" ++ [nul] ++ text "lost"); XCopy 0 junk; XAppend 1 (text ", again"); XWhat 0; XWhat 1; XDelete 0; XWhat 1].
Example C110_case_short : Forall proper ex_prog /\
  short_meant [] ex_prog [None; Some (text "IPbus packet header mismatch.", text "Header 1, again")] [text "Header 1"; text "Header 1, again"; text "Header 1, again"] /\
  exists l, xrun [] ex_prog = Some (Ok (l, [text "Header 1"; text "Header 1, again"; text "Header 1, again"])).
Proof.
  assert (P : Forall proper ex_prog) by (unfold ex_prog; repeat constructor; exact junk_length). split; [exact P|].
  assert (S : short_meant [] ex_prog [None; Some (text "IPbus packet header mismatch.", text "Header 1, again")] [text "Header 1"; text "Header 1, again"; text "Header 1, again"]).
  { set (d := text "IPbus packet header mismatch."). set (a := text "Header 1"). set (b := text "Header 1, again").
    refine (S_cons [] _ [Some (d, [])] None _ _ [a; b; b] _ (M_new [] d junk) _); [constructor|].
    refine (S_cons _ _ [Some (d, a)] None _ _ [a; b; b] _ (M_append [] d [] [] _ a _) _); [repeat constructor|split; [cbn; intuition discriminate|right; exists (text "lost"); reflexivity]|].
    refine (S_cons _ _ [Some (d, a); Some (d, a)] None _ _ [a; b; b] _ (M_copy [Some (d, a)] 0 d a junk eq_refl) _); [repeat constructor|].
    refine (S_cons _ _ [Some (d, a); Some (d, b)] None _ _ [a; b; b] _ (M_append [Some (d, a)] d a [] _ (text ", again") _) _); [repeat constructor|split; [cbn; intuition discriminate|left; reflexivity]|].
    refine (S_cons _ _ [Some (d, a); Some (d, b)] (Some a) _ _ [b; b] _ (M_what [] d a [Some (d, b)] _) _); [repeat constructor|discriminate|].
    refine (S_cons _ _ [Some (d, a); Some (d, b)] (Some b) _ _ [b] _ (M_what [Some (d, a)] d b [] _) _); [repeat constructor|discriminate|].
    refine (S_cons _ _ [None; Some (d, b)] None _ _ [b] _ (M_delete [] d a [Some (d, b)]) _); [repeat constructor|].
    refine (S_cons _ _ [None; Some (d, b)] (Some b) _ _ [] _ (M_what [None] d b [] _) _); [repeat constructor|discriminate|].
    apply S_nil. repeat constructor. }
  split; [exact S|]. exact (C110_short_partial _ _ _ P S).
Qed.
(** 70000 characters are appended: for example those of an id that getNode did not find. *)
Example C110_case_overrun : xrun [] ([XNew (text "No branch found with given UID.") junk] ++ [XAppend 0 (repeat "a"%char (N.to_nat 70000))]) = Some UB.
Proof.
  assert (P : Forall proper [XNew (text "No branch found with given UID.") junk]) by (repeat constructor; exact junk_length).
  refine (C110_overrun_refuted _ [Some (text "No branch found with given UID.", [])] [] 0 (text "No branch found with given UID.") [] _ (repeat "a"%char (N.to_nat 70000)) P _ eq_refl _ _).
  - refine (S_cons [] _ _ None _ _ [] _ (M_new [] _ junk) _); [constructor|]. apply S_nil. repeat constructor.
  - split; [|left; reflexivity]. intros H. apply repeat_spec in H. discriminate.
  - rewrite repeat_length, N2Nat.id. cbn [List.length]. lia.
Qed.
(** what() before append. *)
Example C110_case_what : exists l, xrun [] [XNew (text "Timeout.") junk; XWhat 0; XAppend 0 (text "UDP"); XWhat 0] =
  Some (Ok (l, [text "Timeout. (no additional info)"; text "Timeout. (no additional info)UDP"])).
Proof.
  refine (proj1 (proj2 (C110_what_refuted (text "Timeout.") junk (text "UDP") (text "UDP") (text "Timeout. (no additional info)") junk_length _ _ _ _ _))).
  - split; [cbn; intuition discriminate|left; reflexivity].
  - split; [cbn; intuition discriminate|left; reflexivity].
  - discriminate.
  - discriminate.
  - cbn. lia.
Qed.

Print Assumptions C110_right.
Print Assumptions C110_short_partial.
Print Assumptions C110_overrun_refuted.
Print Assumptions C110_what_refuted.
