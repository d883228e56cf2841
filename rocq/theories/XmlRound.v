(** The parser of Xml.v reads every well-formed file, in the sense of
    XmlSpec.v, as the document it stands for. *)
From Coq Require Import NArith ZArith List Bool Arith Lia ZifyBool ZifyNat ZifyN.
From Verif Require Import Xml XmlSpec XmlProofs.
Import ListNotations.
Open Scope N_scope.

(** ** Texts in the buffer *)

Definition at_ (b : bytes) (s : nat) (w : bytes) : Prop :=
  forall i c, nth_error w i = Some c -> nth_error b (s + i) = Some c.

Lemma at_nil b s : at_ b s [].
Proof. intros [|i] c H; discriminate. Qed.

Lemma at_cons b s c w : at_ b s (c :: w) <-> nth_error b s = Some c /\ at_ b (S s) w.
Proof.
  split.
  - intros H. split.
    + rewrite <- (Nat.add_0_r s). now apply H.
    + intros i d E. replace (S s + i)%nat with (s + S i)%nat by lia. now apply H.
  - intros [H1 H2] [|i] d E.
    + rewrite Nat.add_0_r. cbn in E. congruence.
    + replace (s + S i)%nat with (S s + i)%nat by lia. now apply H2.
Qed.

Lemma at_app b s w1 w2 : at_ b s (w1 ++ w2) <-> at_ b s w1 /\ at_ b (s + length w1) w2.
Proof.
  revert s. induction w1 as [|c w1 IH]; intros s; cbn [app length].
  - rewrite Nat.add_0_r. split; [intros H; split; [apply at_nil|exact H]|intros [_ H]; exact H].
  - rewrite !at_cons, IH. replace (S s + length w1)%nat with (s + S (length w1))%nat by lia. tauto.
Qed.

Lemma at_same b b' s w :
  at_ b s w -> (forall i, (s <= i < s + length w)%nat -> nth_error b' i = nth_error b i) -> at_ b' s w.
Proof.
  intros H E i c N. rewrite E; [now apply H|].
  assert (i < length w)%nat by (apply nth_error_Some; congruence). lia.
Qed.

Lemma at_chg lo hi b b' s w : at_ b s w -> chg lo hi b b' -> (hi <= s)%nat -> at_ b' s w.
Proof. intros H [_ C] G. eapply at_same; [exact H|]. intros i Hi. apply C. lia. Qed.

Lemma at_chg_before lo hi b b' s w :
  at_ b s w -> chg lo hi b b' -> (s + length w <= lo)%nat -> at_ b' s w.
Proof. intros H [_ C] G. eapply at_same; [exact H|]. intros i Hi. apply C. lia. Qed.

Lemma at_bound b s w : at_ b s w -> w <> [] -> (s + length w <= length b)%nat.
Proof.
  intros H N. destruct w as [|c w] using rev_ind; [congruence|].
  apply at_app in H. destruct H as [_ H]. apply at_cons in H. destruct H as [H _].
  rewrite app_length. cbn [length].
  assert (s + length w < length b)%nat by (apply nth_error_Some; congruence). lia.
Qed.

Lemma at_slice b s w : at_ b s w -> slice b s (s + length w) = w.
Proof.
  intros H. apply list_ext. intros i. rewrite slice_nth.
  destruct (Nat.ltb_spec i (s + length w - s)) as [I|I].
  - destruct (nth_error w i) as [c|] eqn:E; [now apply H|].
    apply nth_error_None in E. lia.
  - symmetry. apply nth_error_None. lia.
Qed.

(** zero-terminated strings *)
Lemma upto0_app w r : Forall (fun c => c <> 0) w -> upto0 (w ++ 0 :: r) = w.
Proof.
  induction 1 as [|c w N F IH]; [reflexivity|]. cbn [app upto0].
  replace (c =? 0) with false by lia. now rewrite IH.
Qed.

Lemma cstr_at b v w : at_ b v (w ++ [0]) -> Forall (fun c => c <> 0) w -> cstr b v = w.
Proof.
  intros H F. unfold cstr.
  remember (w ++ [0]) as z eqn:Ez.
  assert (exists r, skipn v b = z ++ r) as (r & ->).
  { exists (skipn (length z) (skipn v b)).
    rewrite <- (at_slice b v z H) at 1. unfold slice.
    replace (v + length z - v)%nat with (length z) by lia.
    symmetry. apply firstn_skipn. }
  subst z.
  rewrite <- app_assoc. cbn [app]. now apply upto0_app.
Qed.

Lemma slice_at b v e w : slice b v e = w -> (v <= e <= length b)%nat -> at_ b v w.
Proof.
  intros <- H i c E. rewrite slice_nth in E.
  destruct (i <? e - v)%nat; [exact E|discriminate].
Qed.

(** ** Scanning *)

Lemma scan_while_at p b : forall w s c n,
  at_ b s (w ++ [c]) -> Forall (fun c => p c = true) w -> p c = false -> (length w < n)%nat ->
  scan_while n p b s = Val (s + length w)%nat.
Proof.
  induction w as [|d w IH]; intros s c n H F P L; (destruct n as [|n]; [lia|]); cbn [scan_while].
  - cbn [app] in H. apply at_cons in H. destruct H as [E _]. rewrite (rd_ok b s c E). cbn [bind].
    rewrite P. cbn [length]. f_equal. lia.
  - cbn [app] in H. apply at_cons in H. destruct H as [E H]. rewrite (rd_ok b s d E). cbn [bind].
    inversion F as [|? ? P1 F']; subst. rewrite P1. rewrite (IH (S s) c n H F' P) by (cbn in L; lia).
    f_equal. cbn [length]. lia.
Qed.

Lemma scan_at p b w s c :
  at_ b s (w ++ [c]) -> Forall (fun c => p c = true) w -> p c = false ->
  scan_while (fuel b) p b s = Val (s + length w)%nat.
Proof.
  intros H F P. apply (scan_while_at p b w s c); auto.
  apply at_bound in H; [|destruct w; discriminate]. rewrite app_length in H. unfold fuel. cbn in H. lia.
Qed.

Lemma scan_shift L p b s c :
  okb L b -> p 0 = false -> nth_error b s = Some c -> p c = true ->
  scan_while (fuel b) p b s = scan_while (fuel b) p b (S s).
Proof.
  intros O P0 E P.
  assert (c <> 0) as N by congruence. pose proof (okb_next L b s c O E N) as Q.
  assert (forall n n' t, (t < L)%nat -> (L - t <= n)%nat -> (L - t <= n')%nat ->
            scan_while n p b t = scan_while n' p b t) as IND.
  { induction n as [|n IH]; intros n' t T A B; [lia|]. destruct n' as [|n']; [lia|].
    cbn [scan_while]. destruct (rd_in b t) as (d & Ed & ->); [destruct O as (-> & _); lia|].
    cbn [bind]. destruct (p d) eqn:PD; [|reflexivity].
    assert (d <> 0) as ND by congruence. pose proof (okb_next L b t d O Ed ND).
    apply IH; lia. }
  unfold fuel at 1. cbn [scan_while]. rewrite (rd_ok b s c E). cbn [bind]. rewrite P.
  destruct O as (LB & _). apply IND; unfold fuel; lia.
Qed.

(** types of characters *)

Lemma type_high ct c : 128 <= c -> is_type ct c = negb (N.land 192 ct =? 0).
Proof.
  intros H. unfold is_type. rewrite nth_overflow; [reflexivity|]. cbn [length chartype_table]. lia.
Qed.

Lemma types_low (f : N -> bool) c : forallb f (map N.of_nat (seq 0 128)) = true -> c < 128 -> f c = true.
Proof.
  intros H L. rewrite forallb_forall in H. apply H. apply in_map_iff.
  exists (N.to_nat c). split; [lia|]. apply in_seq. lia.
Qed.

Definition spaceb (c : N) := (c =? 32) || (c =? 9) || (c =? 10) || (c =? 13).

Lemma type_space c : is_type ct_space c = spaceb c.
Proof.
  destruct (N.lt_ge_cases c 128) as [H|H].
  - apply Bool.eqb_prop. revert H. apply (types_low (fun c => eqb (is_type ct_space c) (spaceb c))).
    vm_compute. reflexivity.
  - rewrite type_high by exact H. unfold spaceb. cbn. lia.
Qed.

Definition startb (c : N) :=
  ((65 <=? c) && (c <=? 90)) || ((97 <=? c) && (c <=? 122)) || (c =? 95) || (c =? 58) || (128 <=? c).

Lemma type_start c : is_type ct_start_symbol c = startb c.
Proof.
  destruct (N.lt_ge_cases c 128) as [H|H].
  - apply Bool.eqb_prop. revert H. apply (types_low (fun c => eqb (is_type ct_start_symbol c) (startb c))).
    vm_compute. reflexivity.
  - rewrite type_high by exact H. unfold startb. cbn. lia.
Qed.

Definition symbolb (c : N) := startb c || ((48 <=? c) && (c <=? 57)) || (c =? 45) || (c =? 46).

Lemma type_symbol c : is_type ct_symbol c = symbolb c.
Proof.
  destruct (N.lt_ge_cases c 128) as [H|H].
  - apply Bool.eqb_prop. revert H. apply (types_low (fun c => eqb (is_type ct_symbol c) (symbolb c))).
    vm_compute. reflexivity.
  - rewrite type_high by exact H. unfold symbolb, startb. cbn. lia.
Qed.

Definition attrb (c : N) := (c =? 0) || (c =? 38) || (c =? 13) || (c =? 39) || (c =? 34) || (c =? 10) || (c =? 9).

Lemma type_attr c : is_type ct_parse_attr_ws c = attrb c.
Proof.
  destruct (N.lt_ge_cases c 128) as [H|H].
  - apply Bool.eqb_prop. revert H. apply (types_low (fun c => eqb (is_type ct_parse_attr_ws c) (attrb c))).
    vm_compute. reflexivity.
  - rewrite type_high by exact H. unfold attrb. cbn. lia.
Qed.

Definition pcdatab (c : N) := (c =? 0) || (c =? 38) || (c =? 13) || (c =? 60).

Lemma type_pcdata c : is_type ct_parse_pcdata c = pcdatab c.
Proof.
  destruct (N.lt_ge_cases c 128) as [H|H].
  - apply Bool.eqb_prop. revert H. apply (types_low (fun c => eqb (is_type ct_parse_pcdata c) (pcdatab c))).
    vm_compute. reflexivity.
  - rewrite type_high by exact H. unfold pcdatab. cbn. lia.
Qed.

Definition cdatab (c : N) := (c =? 0) || (c =? 93) || (c =? 62) || (c =? 13).

Lemma type_cdata c : is_type ct_parse_cdata c = cdatab c.
Proof.
  destruct (N.lt_ge_cases c 128) as [H|H].
  - apply Bool.eqb_prop. revert H. apply (types_low (fun c => eqb (is_type ct_parse_cdata c) (cdatab c))).
    vm_compute. reflexivity.
  - rewrite type_high by exact H. unfold cdatab. cbn. lia.
Qed.

Lemma space_type c : space c -> is_type ct_space c = true.
Proof. intros H. rewrite type_space. unfold spaceb. destruct H as [-> |[-> |[-> | -> ]]]; reflexivity. Qed.

Lemma spaces_types w : spaces w -> Forall (fun c => is_type ct_space c = true) w.
Proof. apply Forall_impl. intros c. apply space_type. Qed.

Lemma name_start_type c : name_start c -> is_type ct_start_symbol c = true.
Proof. intros H. rewrite type_start. unfold startb. unfold name_start in H. lia. Qed.

Lemma name_char_type c : name_char c <-> is_type ct_symbol c = true.
Proof. rewrite type_symbol. unfold symbolb, startb, name_char, name_start. lia. Qed.

Lemma name_types w : is_name w ->
  exists c r, w = c :: r /\ is_type ct_start_symbol c = true /\
              Forall (fun c => is_type ct_symbol c = true) w /\ Forall (fun c => c <> 0) w.
Proof.
  intros (c & r & -> & S & F). exists c, r. split; [reflexivity|].
  split; [now apply name_start_type|].
  assert (Forall name_char (c :: r)) as A by (constructor; [now left|exact F]).
  split; (eapply Forall_impl; [|exact A]); intros d D.
  - now apply name_char_type.
  - apply name_char_type in D. intros ->. discriminate.
Qed.

Lemma skip_at b sp s c :
  at_ b s (sp ++ [c]) -> spaces sp -> is_type ct_space c = false ->
  skip_ws b s = Val (s + length sp)%nat.
Proof. intros H S C. apply (scan_at (is_type ct_space) b sp s c); auto. now apply spaces_types. Qed.

(** ** UTF-8 *)

Lemma lor_low a k x : forallb (fun x => N.lor a x =? a + x) (map N.of_nat (seq 0 k)) = true ->
  x < N.of_nat k -> N.lor a x = a + x.
Proof.
  intros H L. rewrite forallb_forall in H. apply N.eqb_eq. apply H. apply in_map_iff.
  exists (N.to_nat x). split; [lia|]. apply in_seq. lia.
Qed.

Lemma land63 x : N.land x 63 = x mod 64.
Proof. change 63 with (N.ones 6). now rewrite N.land_ones. Qed.

Lemma lor128 x : N.lor 128 (N.land x 63) = 128 + x mod 64.
Proof.
  rewrite land63. apply (lor_low 128 64); [vm_compute; reflexivity|].
  apply N.mod_lt. lia.
Qed.

Lemma utf8_is v : v <= 1114111 -> utf8 v = utf8_of v.
Proof.
  intros H. unfold utf8, utf8_of.
  destruct (N.ltb_spec v 128) as [A|A]; [reflexivity|].
  destruct (N.ltb_spec v 2048) as [B|B].
  { rewrite lor128. rewrite (lor_low 192 64); [reflexivity|vm_compute; reflexivity|].
    apply N.div_lt_upper_bound; lia. }
  destruct (N.ltb_spec v 65536) as [C|C].
  { rewrite !lor128. rewrite (lor_low 224 16); [reflexivity|vm_compute; reflexivity|].
    apply N.div_lt_upper_bound; lia. }
  rewrite !lor128. rewrite (lor_low 240 8); [|vm_compute; reflexivity|apply N.div_lt_upper_bound; lia].
  assert (v / 262144 < 8) by (apply N.div_lt_upper_bound; lia).
  rewrite N.mod_small by lia. reflexivity.
Qed.

Lemma utf8_nz v : 0 < v -> Forall (fun c => c <> 0) (utf8_of v).
Proof.
  intros H. unfold utf8_of. destruct (v <? 128).
  { constructor; [lia|constructor]. }
  destruct (v <? 2048).
  { apply Forall_cons; [lia|]. apply Forall_cons; [lia|]. apply Forall_nil. }
  destruct (v <? 65536).
  { apply Forall_cons; [lia|]. apply Forall_cons; [lia|]. apply Forall_cons; [lia|]. apply Forall_nil. }
  apply Forall_cons; [lia|]. apply Forall_cons; [lia|]. apply Forall_cons; [lia|].
  apply Forall_cons; [lia|]. apply Forall_nil.
Qed.

Lemma utf8_of_length v : (1 <= length (utf8_of v) <= 4)%nat.
Proof.
  unfold utf8_of. destruct (v <? 128); [cbn; lia|]. destruct (v <? 2048); [cbn; lia|].
  destruct (v <? 65536); cbn; lia.
Qed.

(** ** Numbers *)

Lemma decs_step n b i u d :
  nth_error b i = Some (48 + d) -> d < 10 -> 10 * u + d < 2 ^ 32 ->
  decs (S n) b i u = decs n b (S i) (10 * u + d).
Proof.
  intros E D B. cbn [decs]. rewrite (rd_ok _ _ _ E). cbn [bind].
  replace ((48 <=? 48 + d) && (48 + d <=? 57)) with true by lia.
  replace (48 + d - 48) with d by lia. now rewrite N.mod_small by exact B.
Qed.

Lemma decimal_le w v : decimal w v -> w <> [].
Proof. destruct 1; [discriminate|]. destruct w; discriminate. Qed.

Lemma decs_at b n : forall w v, decimal w v -> v <= 1114111 -> forall i,
  at_ b i w -> (length w <= n)%nat -> decs n b i 0 = decs (n - length w) b (i + length w) v.
Proof.
  induction 1 as [d D|w v d H IH D]; intros V i A L.
  - cbn [length] in *. destruct n as [|n]; [lia|]. apply at_cons in A. destruct A as [A _].
    rewrite (decs_step n b i 0 d A D) by lia.
    replace (S n - 1)%nat with n by lia. replace (i + 1)%nat with (S i) by lia.
    reflexivity.
  - rewrite app_length in *. cbn [length] in *. apply at_app in A. destruct A as [A1 A2].
    apply at_cons in A2. destruct A2 as [A2 _].
    rewrite (IH ltac:(lia) i A1) by lia.
    replace (n - length w)%nat with (S (n - (length w + 1))) by lia.
    rewrite (decs_step _ _ _ _ d A2 D) by lia. f_equal. lia.
Qed.

Lemma hex_step n b i u c d :
  nth_error b i = Some c -> hex_digit c d -> 16 * u + d < 2 ^ 32 ->
  hexes (S n) b i u = hexes n b (S i) (16 * u + d).
Proof.
  intros E D B. cbn [hexes]. rewrite (rd_ok _ _ _ E). cbn [bind].
  destruct D as [d D|d D|d D].
  - replace ((48 <=? 48 + d) && (48 + d <=? 57)) with true by lia.
    replace (48 + d - 48) with d by lia. now rewrite N.mod_small by exact B.
  - replace ((48 <=? 65 + d) && (65 + d <=? 57)) with false by lia.
    assert (N.lor (65 + d) 32 = 97 + d) as ->.
    { assert (d = 0 \/ d = 1 \/ d = 2 \/ d = 3 \/ d = 4 \/ d = 5) as Q by lia.
      destruct Q as [-> |[-> |[-> |[-> |[-> | -> ]]]]]; reflexivity. }
    replace ((97 <=? 97 + d) && (97 + d <=? 102)) with true by lia.
    replace (97 + d - 97 + 10) with (10 + d) by lia. now rewrite N.mod_small by exact B.
  - replace ((48 <=? 97 + d) && (97 + d <=? 57)) with false by lia.
    assert (N.lor (97 + d) 32 = 97 + d) as ->.
    { assert (d = 0 \/ d = 1 \/ d = 2 \/ d = 3 \/ d = 4 \/ d = 5) as Q by lia.
      destruct Q as [-> |[-> |[-> |[-> |[-> | -> ]]]]]; reflexivity. }
    replace ((97 <=? 97 + d) && (97 + d <=? 102)) with true by lia.
    replace (97 + d - 97 + 10) with (10 + d) by lia. now rewrite N.mod_small by exact B.
Qed.

Lemma hexes_at b n : forall w v, hexadecimal w v -> v <= 1114111 -> forall i,
  at_ b i w -> (length w <= n)%nat -> hexes n b i 0 = hexes (n - length w) b (i + length w) v.
Proof.
  induction 1 as [c d D|w v c d H IH D]; intros V i A L.
  - cbn [length] in *. destruct n as [|n]; [lia|]. apply at_cons in A. destruct A as [A _].
    rewrite (hex_step n b i 0 c d A D) by lia.
    replace (S n - 1)%nat with n by lia. replace (i + 1)%nat with (S i) by lia.
    reflexivity.
  - rewrite app_length in *. cbn [length] in *. apply at_app in A. destruct A as [A1 A2].
    apply at_cons in A2. destruct A2 as [A2 _].
    rewrite (IH ltac:(lia) i A1) by lia.
    replace (n - length w)%nat with (S (n - (length w + 1))) by lia.
    rewrite (hex_step _ _ _ _ c d A2 D) by lia. f_equal. lia.
Qed.

Lemma decimal_first w v : decimal w v -> exists d r, w = d :: r /\ 48 <= d <= 57.
Proof.
  induction 1 as [d D|w v d H (x & r & -> & X) D].
  - exists (48 + d), []. split; [reflexivity|lia].
  - exists x, (r ++ [48 + d]). split; [reflexivity|exact X].
Qed.

Lemma hexadecimal_first w v : hexadecimal w v -> exists d r, w = d :: r /\ d <> 59.
Proof.
  induction 1 as [c d D|w v c d H (x & r & -> & X) D].
  - exists c, []. split; [reflexivity|]. destruct D; lia.
  - exists x, (r ++ [c]). split; [reflexivity|exact X].
Qed.

(** ** References *)

Lemma chain_at b : forall l i, at_ b (S i) l -> chain b i l = Val (true, (i + length l)%nat).
Proof.
  induction l as [|c l IH]; intros i H; cbn [chain length].
  - now rewrite Nat.add_0_r.
  - apply at_cons in H. destruct H as [E H]. rewrite (rd_ok _ _ _ E). cbn [bind].
    rewrite N.eqb_refl. rewrite (IH (S i) H). now replace (i + S (length l))%nat with (S i + length l)%nat by lia.
Qed.

Lemma named_at b g s i l c :
  at_ b (S i) l -> named b g s i l c = replaced b g s (S (i + length l)) [c].
Proof. intros H. unfold named. rewrite (chain_at b l i H). reflexivity. Qed.

Lemma reference_length t r : reference t r -> (length t < length r)%nat.
Proof.
  destruct 1 as [| | | | |w v D V|w v D V]; try (cbn; lia).
  - destruct (decimal_first w v D) as (x & y & -> & _). rewrite !app_length. cbn [length].
    pose proof (utf8_of_length v).
    assert (length (utf8_of v) <= 3 + length y)%nat; [|lia].
    clear H.
    assert (v < 10 \/ y <> []) as [S | S].
    { remember (x :: y) as xy eqn:E. destruct D as [d D'|w' v' d' D' L']; [left; exact D'|right].
      destruct w' as [|p q]; [now apply decimal_le in D'|]. cbn [app] in E.
      injection E as _ E. intros ->. destruct q; discriminate. }
    + unfold utf8_of. replace (v <? 128) with true by lia. cbn; lia.
    + destruct y; [congruence|]. pose proof (utf8_of_length v). cbn [length]. lia.
  - destruct (hexadecimal_first w v D) as (x & y & -> & _). rewrite !app_length. cbn [length].
    pose proof (utf8_of_length v). lia.
Qed.

Lemma reference_nz t r : reference t r -> Forall (fun c => c <> 0) t.
Proof.
  destruct 1 as [| | | | |w v D V|w v D V]; try (apply Forall_cons; [lia|apply Forall_nil]);
    apply utf8_nz; lia.
Qed.

Lemma reference_amp t r : reference t r -> exists r', r = 38 :: r'.
Proof. destruct 1; cbn; eexists; reflexivity. Qed.

Lemma escape_at L b g v s t r :
  okb L b -> gapok v s g -> reference t r -> at_ b s r ->
  escape b g s = replaced b g s (s + length r) t.
Proof.
  intros O G R A. assert (length b = L) as LB by apply O.
  assert (forall i c, nth_error r i = Some c -> rd b (s + i) = Val c) as RD.
  { intros i c E. apply rd_ok. now apply A. }
  unfold escape.
  destruct R as [| | | | |w x D X|w x D X].
  - change (S s) with (1 + s)%nat. rewrite (Nat.add_comm 1 s). rewrite (RD 1%nat 97) by reflexivity. cbn [bind].
    cbn [N.eqb Pos.eqb]. change (S (s + 1)) with (1 + (s + 1))%nat.
    replace (1 + (s + 1))%nat with (s + 2)%nat by lia. rewrite (RD 2%nat 109) by reflexivity. cbn [bind].
    cbn [N.eqb Pos.eqb]. rewrite named_at; [f_equal; cbn [length]; lia|].
    change [38; 97; 109; 112; 59] with ([38; 97; 109] ++ [112; 59]) in A. apply at_app in A.
    destruct A as [_ A]. cbn [length] in A. now replace (S (s + 2)) with (s + 3)%nat by lia.
  - change (S s) with (1 + s)%nat. rewrite (Nat.add_comm 1 s). rewrite (RD 1%nat 97) by reflexivity. cbn [bind].
    cbn [N.eqb Pos.eqb]. change (S (s + 1)) with (1 + (s + 1))%nat.
    replace (1 + (s + 1))%nat with (s + 2)%nat by lia. rewrite (RD 2%nat 112) by reflexivity. cbn [bind].
    cbn [N.eqb Pos.eqb]. rewrite named_at; [f_equal; cbn [length]; lia|].
    change [38; 97; 112; 111; 115; 59] with ([38; 97; 112] ++ [111; 115; 59]) in A. apply at_app in A.
    destruct A as [_ A]. cbn [length] in A. now replace (S (s + 2)) with (s + 3)%nat by lia.
  - change (S s) with (1 + s)%nat. rewrite (Nat.add_comm 1 s). rewrite (RD 1%nat 103) by reflexivity. cbn [bind].
    cbn [N.eqb Pos.eqb]. rewrite named_at; [f_equal; cbn [length]; lia|].
    change [38; 103; 116; 59] with ([38; 103] ++ [116; 59]) in A. apply at_app in A.
    destruct A as [_ A]. cbn [length] in A. now replace (S (s + 1)) with (s + 2)%nat by lia.
  - change (S s) with (1 + s)%nat. rewrite (Nat.add_comm 1 s). rewrite (RD 1%nat 108) by reflexivity. cbn [bind].
    cbn [N.eqb Pos.eqb]. rewrite named_at; [f_equal; cbn [length]; lia|].
    change [38; 108; 116; 59] with ([38; 108] ++ [116; 59]) in A. apply at_app in A.
    destruct A as [_ A]. cbn [length] in A. now replace (S (s + 1)) with (s + 2)%nat by lia.
  - change (S s) with (1 + s)%nat. rewrite (Nat.add_comm 1 s). rewrite (RD 1%nat 113) by reflexivity. cbn [bind].
    cbn [N.eqb Pos.eqb]. rewrite named_at; [f_equal; cbn [length]; lia|].
    change [38; 113; 117; 111; 116; 59] with ([38; 113] ++ [117; 111; 116; 59]) in A. apply at_app in A.
    destruct A as [_ A]. cbn [length] in A. now replace (S (s + 1)) with (s + 2)%nat by lia.
  - pose proof (at_bound _ _ _ A ltac:(discriminate)) as BD. rewrite !app_length in BD. cbn [length] in BD.
    change (S s) with (1 + s)%nat. rewrite (Nat.add_comm 1 s). rewrite (RD 1%nat 35) by reflexivity. cbn [bind].
    cbn [N.eqb Pos.eqb]. apply at_app in A. destruct A as [_ A]. apply at_app in A. destruct A as [A1 A2].
    cbn [length] in A1, A2.
    destruct (decimal_first w x D) as (d & y & EW & Hd).
    replace (S (s + 1)) with (s + 2)%nat by lia.
    assert (nth_error b (s + 2) = Some d) as Ed by (rewrite EW in A1; apply at_cons in A1; apply A1).
    rewrite (rd_ok _ _ _ Ed). cbn [bind].
    replace (d =? 120) with false by lia. replace (d =? 59) with false by lia.
    rewrite (decs_at b (fuel b) w x D ltac:(lia) (s + 2) A1) by (unfold fuel; lia).
    assert (exists k, (fuel b - length w)%nat = S k) as (k & ->)
        by (exists (fuel b - length w - 1)%nat; unfold fuel; lia).
    cbn [decs]. apply at_cons in A2. destruct A2 as [A2 _]. rewrite (rd_ok _ _ _ A2). cbn [bind].
    change ((48 <=? 59) && (59 <=? 57)) with false. cbn [N.eqb Pos.eqb bind]. cbn iota.
    rewrite utf8_is by lia. f_equal. rewrite !app_length. cbn [length]. lia.
  - pose proof (at_bound _ _ _ A ltac:(discriminate)) as BD. rewrite !app_length in BD. cbn [length] in BD.
    change (S s) with (1 + s)%nat. rewrite (Nat.add_comm 1 s). rewrite (RD 1%nat 35) by reflexivity. cbn [bind].
    cbn [N.eqb Pos.eqb]. replace (S (s + 1)) with (s + 2)%nat by lia.
    rewrite (RD 2%nat 120) by reflexivity. cbn [bind N.eqb Pos.eqb].
    apply at_app in A. destruct A as [_ A]. apply at_app in A. destruct A as [A1 A2].
    cbn [length] in A1, A2.
    destruct (hexadecimal_first w x D) as (d & y & EW & Hd).
    replace (S (s + 2)) with (s + 3)%nat by lia.
    assert (nth_error b (s + 3) = Some d) as Ed by (rewrite EW in A1; apply at_cons in A1; apply A1).
    rewrite (rd_ok _ _ _ Ed). cbn [bind]. replace (d =? 59) with false by lia.
    rewrite (hexes_at b (fuel b) w x D ltac:(lia) (s + 3) A1) by (unfold fuel; lia).
    assert (exists k, (fuel b - length w)%nat = S k) as (k & ->)
        by (exists (fuel b - length w - 1)%nat; unfold fuel; lia).
    cbn [hexes]. apply at_cons in A2. destruct A2 as [A2 _]. rewrite (rd_ok _ _ _ A2). cbn [bind].
    change ((48 <=? 59) && (59 <=? 57)) with false.
    change ((97 <=? N.lor 59 32) && (N.lor 59 32 <=? 102)) with false. cbn [N.eqb Pos.eqb bind]. cbn iota.
    rewrite utf8_is by lia. f_equal. rewrite !app_length. cbn [length]. lia.
Qed.

(** ** Values of attributes *)

Lemma scan_here p b s c :
  nth_error b s = Some c -> p c = false -> scan_while (fuel b) p b s = Val s.
Proof.
  intros E P. unfold fuel. cbn [scan_while]. rewrite (rd_ok _ _ _ E). cbn [bind]. now rewrite P.
Qed.

Lemma gapok_S v s g : gapok v s g -> gapok v (S s) g.
Proof. intros G. apply (gapok_more v s); [exact G|lia]. Qed.

(** the end of a text: what has been decoded, and a zero byte after it *)
Lemma flush_text L b g v s :
  okb L b -> gapok v s g -> (S s < L)%nat ->
  exists b1 e, flush b g s = Val (b1, e) /\ wr b1 e 0 = Val (upd b1 e 0) /\
               okb L (upd b1 e 0) /\ chg v (S s) b (upd b1 e 0) /\
               at_ (upd b1 e 0) v (decoded b g v s ++ [0]).
Proof.
  intros O G H. assert (length b = L) as LB by apply O.
  destruct (flush_ok b g v s G ltac:(lia)) as (b1 & e & E & C & V & D).
  assert (okb L b1) as O1 by (eapply okb_chg; [exact O|exact C|lia]).
  assert (length b1 = L) as L1 by apply O1.
  exists b1, e. split; [exact E|]. split; [apply wr_ok; lia|].
  split; [apply okb_upd0; [exact O1|lia]|]. split.
  - eapply chg_trans; [eapply chg_weaken; [exact C|lia|lia]|].
    eapply chg_weaken; [apply chg_upd; lia|lia|lia].
  - rewrite <- D. apply at_app. split.
    + eapply at_same; [eapply slice_at; [reflexivity|lia]|].
      intros i Hi. rewrite slice_length in Hi by lia. apply upd_neq; lia.
    + rewrite slice_length by lia. replace (v + (e - v))%nat with e by lia.
      apply at_cons. split; [apply upd_eq; lia|apply at_nil].
Qed.

Lemma flush_text0 L b g v s :
  okb L b -> gapok v s g -> nth_error b s = Some 0 ->
  exists b1 e, flush b g s = Val (b1, e) /\ wr b1 e 0 = Val (upd b1 e 0) /\
               okb L (upd b1 e 0).
Proof.
  intros O G E0. assert (length b = L) as LB by apply O.
  assert (s < length b)%nat by (apply nth_error_Some; congruence).
  destruct (flush_ok b g v s G ltac:(lia)) as (b1 & e & E & C & V & D).
  assert (okb L b1) as O1 by (eapply okb_chg; [exact O|exact C|lia]).
  assert (length b1 = L) as L1 by apply O1.
  exists b1, e. split; [exact E|]. split; [apply wr_ok; lia|].
  apply okb_upd0; [exact O1|lia].
Qed.

Lemma attr_skip L n b g s q c :
  okb L b -> nth_error b s = Some c -> c <> 0 -> c <> 38 -> c <> q -> ~ (c = 9 \/ c = 10 \/ c = 13) ->
  (L - s <= n)%nat ->
  exists n', (L - S s <= n')%nat /\ attr_conv n b g s q = attr_conv n' b g (S s) q.
Proof.
  intros O E N0 NA NQ NW F. pose proof (okb_next L b s c O E N0) as Q.
  destruct n as [|n]; [lia|].
  destruct (attrb c) eqn:A.
  - exists n. split; [lia|]. cbn [attr_conv].
    rewrite (scan_here _ _ _ _ E) by (rewrite type_attr, A; reflexivity). cbn [bind].
    rewrite (rd_ok _ _ _ E). cbn [bind]. replace (c =? q) with false by lia.
    assert (is_type ct_space c = false) as -> by (rewrite type_space; unfold spaceb, attrb in *; lia).
    replace (c =? 38) with false by lia. replace (c =? 0) with false by lia. reflexivity.
  - exists (S n). split; [lia|]. cbn [attr_conv].
    rewrite (scan_shift L (fun c => negb (is_type ct_parse_attr_ws c)) b s c O); auto.
    rewrite type_attr, A. reflexivity.
Qed.

Lemma attr_conv_at L q v0 : q = 34 \/ q = 39 -> forall v w, attr_text q v w ->
  forall n b g s, okb L b -> gapok v0 s g -> at_ b s (w ++ [q]) -> (L - s <= n)%nat ->
  exists b', attr_conv n b g s q = Val (Some (S (s + length w)), b') /\
             okb L b' /\ chg v0 (S (s + length w)) b b' /\
             at_ b' v0 ((decoded b g v0 s ++ v) ++ [0]).
Proof.
  intros HQ. induction 1 as [|c v w N0 NA NL NQ NW T IH|c v w HC T IH|v w T IH|v w NL T IH|t r v w R T IH];
    intros n b g s O G A F; assert (length b = L) as LB by apply O.
  - cbn [app length] in *. apply at_cons in A. destruct A as [E _].
    pose proof (okb_next L b s q O E ltac:(lia)) as N1.
    destruct n as [|n]; [lia|]. cbn [attr_conv].
    rewrite (scan_here _ _ _ _ E) by (rewrite type_attr; unfold attrb; lia). cbn [bind].
    rewrite (rd_ok _ _ _ E). cbn [bind]. rewrite N.eqb_refl.
    destruct (flush_text L b g v0 s O G N1) as (b1 & e & -> & W & O1 & C1 & A1).
    cbn [bind]. rewrite W. cbn [bind]. rewrite Nat.add_0_r, app_nil_r.
    exists (upd b1 e 0). auto.
  - cbn [app] in A. apply at_cons in A. destruct A as [E A].
    destruct (attr_skip L n b g s q c O E N0 NA NQ NW F) as (n' & F' & ->).
    destruct (IH n' b g (S s) O (gapok_S _ _ _ G) A F') as (b' & EQ & O' & C' & A').
    exists b'. rewrite EQ. cbn [length]. replace (S s + length w)%nat with (s + S (length w))%nat in * by lia.
    split; [reflexivity|]. split; [exact O'|]. split; [exact C'|].
    rewrite (decoded_step b g v0 s c G E) in A'. now rewrite <- (app_assoc _ [c] v) in A'.
  - cbn [app] in A. apply at_cons in A. destruct A as [E A].
    pose proof (okb_next L b s c O E ltac:(lia)) as N1.
    destruct n as [|n]; [lia|]. cbn [attr_conv].
    rewrite (scan_here _ _ _ _ E) by (rewrite type_attr; unfold attrb; lia). cbn [bind].
    rewrite (rd_ok _ _ _ E). cbn [bind]. replace (c =? q) with false by lia.
    assert (is_type ct_space c = true) as -> by (rewrite type_space; unfold spaceb; lia).
    replace (c =? 13) with false by lia. rewrite wr_ok by lia. cbn [bind].
    destruct (IH n (upd b s 32) g (S s)) as (b' & EQ & O' & C' & A').
    + now apply okb_upd.
    + now apply gapok_S.
    + eapply at_chg; [exact A|apply chg_upd; lia|lia].
    + lia.
    + exists b'. rewrite EQ. cbn [length].
      replace (S s + length w)%nat with (s + S (length w))%nat in * by lia.
      split; [reflexivity|]. split; [exact O'|]. split.
      * eapply chg_trans; [|exact C']. eapply chg_weaken; [apply chg_upd; lia| |lia]. apply G.
      * rewrite decoded_upd in A' by (auto; lia). now rewrite <- (app_assoc _ [32] v) in A'.
  - cbn [app] in A. apply at_cons in A. destruct A as [E A]. apply at_cons in A. destruct A as [E2 A].
    pose proof (okb_next L b s _ O E ltac:(lia)) as N1. pose proof (okb_next L b _ _ O E2 ltac:(lia)) as N2.
    destruct n as [|n]; [lia|]. cbn [attr_conv].
    rewrite (scan_here _ _ _ _ E) by reflexivity. cbn [bind].
    rewrite (rd_ok _ _ _ E). cbn [bind]. replace (13 =? q) with false by lia.
    change (is_type ct_space 13) with true. cbn iota. change (13 =? 13) with true. cbn iota.
    rewrite wr_ok by lia. cbn [bind].
    rewrite (rd_ok (upd b s 32) (S s) 10) by (rewrite upd_neq by lia; exact E2). cbn [bind].
    change (10 =? 10) with true. cbn iota.
    destruct (push_ok (upd b s 32) g v0 (S s) 1) as (b3 & g3 & -> & C3 & G3 & D3).
    { now apply gapok_S. }
    { rewrite upd_length by lia. lia. }
    cbn [bind].
    destruct (IH n b3 g3 (S s + 1)%nat) as (b' & EQ & O' & C' & A').
    + eapply okb_chg; [apply okb_upd; [exact O|exact N1]|exact C3|lia].
    + exact G3.
    + replace (S s + 1)%nat with (S (S s)) by lia.
      eapply at_chg; [eapply at_chg; [exact A|apply (chg_upd b s 32); lia|lia]|exact C3|lia].
    + lia.
    + exists b'. rewrite EQ. cbn [length].
      replace (S s + 1 + length w)%nat with (s + S (S (length w)))%nat in * by lia.
      split; [reflexivity|]. split; [exact O'|]. split.
      * eapply chg_trans; [eapply chg_weaken; [apply (chg_upd b s 32); lia| |lia]; apply G|].
        eapply chg_trans; [eapply chg_weaken; [exact C3|lia|lia]|exact C'].
      * rewrite D3 in A'. rewrite decoded_upd in A' by (auto; lia). now rewrite <- (app_assoc _ [32] v) in A'.
  - cbn [app] in A. apply at_cons in A. destruct A as [E A].
    pose proof (okb_next L b s _ O E ltac:(lia)) as N1.
    destruct n as [|n]; [lia|]. cbn [attr_conv].
    rewrite (scan_here _ _ _ _ E) by reflexivity. cbn [bind].
    rewrite (rd_ok _ _ _ E). cbn [bind]. replace (13 =? q) with false by lia.
    change (is_type ct_space 13) with true. cbn iota. change (13 =? 13) with true. cbn iota.
    rewrite wr_ok by lia. cbn [bind].
    assert (exists d, nth_error b (S s) = Some d /\ d <> 10) as (d & Ed & Nd).
    { destruct w as [|x w].
      - cbn [app] in A. apply at_cons in A. exists q. split; [apply A|lia].
      - cbn [app] in A. apply at_cons in A. exists x. split; [apply A|].
        intros ->. now apply (NL w). }
    rewrite (rd_ok (upd b s 32) (S s) d) by (rewrite upd_neq by lia; exact Ed). cbn [bind].
    replace (d =? 10) with false by lia.
    destruct (IH n (upd b s 32) g (S s)) as (b' & EQ & O' & C' & A').
    + now apply okb_upd.
    + now apply gapok_S.
    + eapply at_chg; [exact A|apply chg_upd; lia|lia].
    + lia.
    + exists b'. rewrite EQ. cbn [length].
      replace (S s + length w)%nat with (s + S (length w))%nat in * by lia.
      split; [reflexivity|]. split; [exact O'|]. split.
      * eapply chg_trans; [|exact C']. eapply chg_weaken; [apply chg_upd; lia| |lia]. apply G.
      * rewrite decoded_upd in A' by (auto; lia). now rewrite <- (app_assoc _ [32] v) in A'.
  - rewrite <- app_assoc in A. apply at_app in A. destruct A as [A1 A2].
    destruct (reference_amp t r R) as (r' & Er).
    assert (nth_error b s = Some 38) as E by (rewrite Er in A1; apply at_cons in A1; apply A1).
    pose proof (reference_length t r R) as RL.
    assert (s + length r < L)%nat as RB.
    { apply at_bound in A2; [|destruct w; discriminate]. rewrite app_length in A2. cbn [length] in A2. lia. }
    destruct n as [|n]; [lia|]. cbn [attr_conv].
    rewrite (scan_here _ _ _ _ E) by reflexivity. cbn [bind].
    rewrite (rd_ok _ _ _ E). cbn [bind]. replace (38 =? q) with false by lia.
    change (is_type ct_space 38) with false. cbn iota. change (38 =? 38) with true. cbn iota.
    rewrite (escape_at L b g v0 s t r O G R A1).
    destruct (replaced_ok b g v0 s (s + length r) t G ltac:(lia) ltac:(lia)) as (b1 & g1 & -> & C1 & G1 & D1).
    cbn [bind].
    destruct (IH n b1 g1 (s + length r)%nat) as (b' & EQ & O' & C' & A').
    + eapply okb_chg; [exact O|exact C1|lia].
    + exact G1.
    + eapply at_chg; [exact A2|exact C1|lia].
    + lia.
    + exists b'. rewrite EQ. rewrite app_length.
      replace (s + length r + length w)%nat with (s + (length r + length w))%nat in * by lia.
      split; [reflexivity|]. split; [exact O'|]. split.
      * eapply chg_trans; [|exact C']. eapply chg_weaken; [exact C1|lia|lia].
      * rewrite D1 in A'. now rewrite <- (app_assoc _ t v) in A'.
Qed.

Lemma attr_text_nz q v w : attr_text q v w -> Forall (fun c => c <> 0) v.
Proof.
  induction 1; try (constructor; [lia|assumption]); [constructor|].
  apply Forall_app. split; [eapply reference_nz; eassumption|assumption].
Qed.

(** ** Texts between tags *)

Lemma pcdata_skip L n b g s c :
  okb L b -> nth_error b s = Some c -> c <> 0 -> c <> 38 -> c <> 60 -> c <> 13 ->
  (L - s <= n)%nat -> pcdata_conv n b g s = pcdata_conv n b g (S s).
Proof.
  intros O E N0 NA NL NR F. pose proof (okb_next L b s c O E N0) as Q.
  destruct n as [|n]; [lia|]. cbn [pcdata_conv].
  rewrite (scan_shift L (fun c => negb (is_type ct_parse_pcdata c)) b s c O); auto.
  rewrite type_pcdata. unfold pcdatab. lia.
Qed.

Lemma pcdata_conv_at L v0 : forall v w, char_text v w ->
  forall n b g s, okb L b -> gapok v0 s g -> at_ b s (w ++ [60]) -> (L - s <= n)%nat ->
  exists b', pcdata_conv n b g s = Val (b', S (s + length w)) /\
             okb L b' /\ chg v0 (S (s + length w)) b b' /\
             at_ b' v0 ((decoded b g v0 s ++ v) ++ [0]).
Proof.
  induction 1 as [|c v w N0 NA NL NR T IH|v w T IH|v w NL T IH|t r v w R T IH];
    intros n b g s O G A F; assert (length b = L) as LB by apply O.
  - cbn [app length] in *. apply at_cons in A. destruct A as [E _].
    pose proof (okb_next L b s _ O E ltac:(lia)) as N1.
    destruct n as [|n]; [lia|]. cbn [pcdata_conv].
    rewrite (scan_here _ _ _ _ E) by reflexivity. cbn [bind].
    rewrite (rd_ok _ _ _ E). cbn [bind]. change (60 =? 60) with true. cbn iota.
    destruct (flush_text L b g v0 s O G N1) as (b1 & e & -> & W & O1 & C1 & A1).
    cbn [bind]. rewrite W. cbn [bind]. rewrite Nat.add_0_r, app_nil_r.
    exists (upd b1 e 0). auto.
  - cbn [app] in A. apply at_cons in A. destruct A as [E A].
    rewrite (pcdata_skip L n b g s c O E N0 NA NL NR F).
    destruct (IH n b g (S s) O (gapok_S _ _ _ G) A ltac:(lia)) as (b' & EQ & O' & C' & A').
    exists b'. rewrite EQ. cbn [length]. replace (S s + length w)%nat with (s + S (length w))%nat in * by lia.
    split; [reflexivity|]. split; [exact O'|]. split; [exact C'|].
    rewrite (decoded_step b g v0 s c G E) in A'. now rewrite <- (app_assoc _ [c] v) in A'.
  - cbn [app] in A. apply at_cons in A. destruct A as [E A]. apply at_cons in A. destruct A as [E2 A].
    pose proof (okb_next L b s _ O E ltac:(lia)) as N1. pose proof (okb_next L b _ _ O E2 ltac:(lia)) as N2.
    destruct n as [|n]; [lia|]. cbn [pcdata_conv].
    rewrite (scan_here _ _ _ _ E) by reflexivity. cbn [bind].
    rewrite (rd_ok _ _ _ E). cbn [bind]. change (13 =? 60) with false. cbn iota.
    change (13 =? 13) with true. cbn iota.
    rewrite wr_ok by lia. cbn [bind].
    rewrite (rd_ok (upd b s 10) (S s) 10) by (rewrite upd_neq by lia; exact E2). cbn [bind].
    change (10 =? 10) with true. cbn iota.
    destruct (push_ok (upd b s 10) g v0 (S s) 1) as (b3 & g3 & -> & C3 & G3 & D3).
    { now apply gapok_S. }
    { rewrite upd_length by lia. lia. }
    cbn [bind].
    destruct (IH n b3 g3 (S s + 1)%nat) as (b' & EQ & O' & C' & A').
    + eapply okb_chg; [apply okb_upd; [exact O|exact N1]|exact C3|lia].
    + exact G3.
    + replace (S s + 1)%nat with (S (S s)) by lia.
      eapply at_chg; [eapply at_chg; [exact A|apply (chg_upd b s 10); lia|lia]|exact C3|lia].
    + lia.
    + exists b'. rewrite EQ. cbn [length].
      replace (S s + 1 + length w)%nat with (s + S (S (length w)))%nat in * by lia.
      split; [reflexivity|]. split; [exact O'|]. split.
      * eapply chg_trans; [eapply chg_weaken; [apply (chg_upd b s 10); lia| |lia]; apply G|].
        eapply chg_trans; [eapply chg_weaken; [exact C3|lia|lia]|exact C'].
      * rewrite D3 in A'. rewrite decoded_upd in A' by (auto; lia). now rewrite <- (app_assoc _ [10] v) in A'.
  - cbn [app] in A. apply at_cons in A. destruct A as [E A].
    pose proof (okb_next L b s _ O E ltac:(lia)) as N1.
    destruct n as [|n]; [lia|]. cbn [pcdata_conv].
    rewrite (scan_here _ _ _ _ E) by reflexivity. cbn [bind].
    rewrite (rd_ok _ _ _ E). cbn [bind]. change (13 =? 60) with false. cbn iota.
    change (13 =? 13) with true. cbn iota.
    rewrite wr_ok by lia. cbn [bind].
    assert (exists d, nth_error b (S s) = Some d /\ d <> 10) as (d & Ed & Nd).
    { destruct w as [|x w].
      - cbn [app] in A. apply at_cons in A. exists 60. split; [apply A|lia].
      - cbn [app] in A. apply at_cons in A. exists x. split; [apply A|].
        intros ->. now apply (NL w). }
    rewrite (rd_ok (upd b s 10) (S s) d) by (rewrite upd_neq by lia; exact Ed). cbn [bind].
    replace (d =? 10) with false by lia.
    destruct (IH n (upd b s 10) g (S s)) as (b' & EQ & O' & C' & A').
    + now apply okb_upd.
    + now apply gapok_S.
    + eapply at_chg; [exact A|apply chg_upd; lia|lia].
    + lia.
    + exists b'. rewrite EQ. cbn [length].
      replace (S s + length w)%nat with (s + S (length w))%nat in * by lia.
      split; [reflexivity|]. split; [exact O'|]. split.
      * eapply chg_trans; [|exact C']. eapply chg_weaken; [apply chg_upd; lia| |lia]. apply G.
      * rewrite decoded_upd in A' by (auto; lia). now rewrite <- (app_assoc _ [10] v) in A'.
  - rewrite <- app_assoc in A. apply at_app in A. destruct A as [A1 A2].
    destruct (reference_amp t r R) as (r' & Er).
    assert (nth_error b s = Some 38) as E by (rewrite Er in A1; apply at_cons in A1; apply A1).
    pose proof (reference_length t r R) as RL.
    assert (s + length r < L)%nat as RB.
    { apply at_bound in A2; [|destruct w; discriminate]. rewrite app_length in A2. cbn [length] in A2. lia. }
    destruct n as [|n]; [lia|]. cbn [pcdata_conv].
    rewrite (scan_here _ _ _ _ E) by reflexivity. cbn [bind].
    rewrite (rd_ok _ _ _ E). cbn [bind]. change (38 =? 60) with false. change (38 =? 13) with false.
    cbn iota. change (38 =? 38) with true. cbn iota.
    rewrite (escape_at L b g v0 s t r O G R A1).
    destruct (replaced_ok b g v0 s (s + length r) t G ltac:(lia) ltac:(lia)) as (b1 & g1 & -> & C1 & G1 & D1).
    cbn [bind].
    destruct (IH n b1 g1 (s + length r)%nat) as (b' & EQ & O' & C' & A').
    + eapply okb_chg; [exact O|exact C1|lia].
    + exact G1.
    + eapply at_chg; [exact A2|exact C1|lia].
    + lia.
    + exists b'. rewrite EQ. rewrite app_length.
      replace (s + length r + length w)%nat with (s + (length r + length w))%nat in * by lia.
      split; [reflexivity|]. split; [exact O'|]. split.
      * eapply chg_trans; [|exact C']. eapply chg_weaken; [exact C1|lia|lia].
      * rewrite D1 in A'. now rewrite <- (app_assoc _ t v) in A'.
Qed.

Lemma char_text_nz v w : char_text v w -> Forall (fun c => c <> 0) v.
Proof.
  induction 1; try (constructor; [lia|assumption]); [constructor|].
  apply Forall_app. split; [eapply reference_nz; eassumption|assumption].
Qed.

(** ** CDATA *)

Lemma cdata_skip L endch n b g s c :
  okb L b -> nth_error b s = Some c -> c <> 0 -> c <> 13 ->
  starts_end endch [93; 93] 62 b s = Val false -> (L - s <= n)%nat ->
  exists n', (L - S s <= n')%nat /\ cdata_conv n endch b g s = cdata_conv n' endch b g (S s).
Proof.
  intros O E N0 NR ST F. pose proof (okb_next L b s c O E N0) as Q.
  destruct n as [|n]; [lia|].
  destruct (cdatab c) eqn:A.
  - exists n. split; [lia|]. cbn [cdata_conv].
    rewrite (scan_here _ _ _ _ E) by (rewrite type_cdata, A; reflexivity). cbn [bind].
    rewrite (rd_ok _ _ _ E). cbn [bind]. replace (c =? 13) with false by lia.
    rewrite ST. cbn [bind]. replace (c =? 0) with false by lia. reflexivity.
  - exists (S n). split; [lia|]. cbn [cdata_conv].
    rewrite (scan_shift L (fun c => negb (is_type ct_parse_cdata c)) b s c O); auto.
    rewrite type_cdata, A. reflexivity.
Qed.

Lemma starts_end_at endch e c b : forall l s, at_ b s (l ++ [c]) ->
  starts_end endch l e b s = Val (endswith endch c e).
Proof.
  induction l as [|x l IH]; intros s A; cbn [app starts_end] in *.
  - apply at_cons in A. destruct A as [E _]. rewrite (rd_ok _ _ _ E). reflexivity.
  - apply at_cons in A. destruct A as [E A]. rewrite (rd_ok _ _ _ E). cbn [bind].
    rewrite N.eqb_refl. now apply IH.
Qed.

(** a place where the text does not go on as wanted *)
Lemma starts_end_no endch e b : forall l s w,
  at_ b s w -> Forall (fun c => c <> 0) w -> (length l < length w)%nat ->
  (forall r, w <> l ++ [e] ++ r) ->
  starts_end endch l e b s = Val false.
Proof.
  induction l as [|x l IH]; intros s w A NZ LW NE; cbn [starts_end].
  - destruct w as [|c w]; [cbn in LW; lia|]. apply at_cons in A. destruct A as [E _].
    rewrite (rd_ok _ _ _ E). cbn [bind]. f_equal. unfold endswith.
    inversion NZ; subst. assert (c <> e) by (intros ->; apply (NE w); reflexivity). lia.
  - destruct w as [|c w]; [cbn in LW; lia|]. apply at_cons in A. destruct A as [E A].
    rewrite (rd_ok _ _ _ E). cbn [bind]. destruct (N.eqb_spec c x) as [->|N]; [|reflexivity].
    inversion NZ; subst. apply (IH (S s) w A); [assumption|cbn in LW; lia|].
    intros r ->. apply (NE r). reflexivity.
Qed.

(** no end mark begins inside a text without one *)
Lemma no_mark2 (y e : N) (w s0 : bytes) :
  (forall a b, w <> a ++ [y; y; e] ++ b) -> y <> e ->
  forall a c w2, w = a ++ c :: w2 -> s0 = (c :: w2) ++ [y; y] -> forall r, s0 <> [y; y] ++ [e] ++ r.
Proof.
  intros NO NE a c w2 -> -> r H. cbn [app] in H.
  destruct w2 as [|d w2]; cbn [app] in H; [congruence|].
  destruct w2 as [|f w2]; cbn [app] in H; [congruence|].
  injection H as -> -> -> H. apply (NO a w2). reflexivity.
Qed.

Lemma no_mark1 (y e : N) (w s0 : bytes) :
  (forall a b, w <> a ++ [y; e] ++ b) -> y <> e ->
  forall a c w2, w = a ++ c :: w2 -> s0 = (c :: w2) ++ [y] -> forall r, s0 <> [y] ++ [e] ++ r.
Proof.
  intros NO NE a c w2 -> -> r H. cbn [app] in H.
  destruct w2 as [|d w2]; cbn [app] in H; [congruence|].
  injection H as -> -> H. apply (NO a w2). reflexivity.
Qed.

Lemma cdata_conv_at L endch v0 : forall v w, raw_text v w -> without [93; 93; 62] w ->
  forall n b g s, okb L b -> gapok v0 s g -> at_ b s (w ++ [93; 93; 62]) -> (L - s <= n)%nat ->
  exists b', cdata_conv n endch b g s = Val (Some (S (s + length w)), b') /\
             okb L b' /\ chg v0 (S (s + length w)) b b' /\
             at_ b' v0 ((decoded b g v0 s ++ v) ++ [0]).
Proof.
  induction 1 as [|c v w N0 NR T IH|v w T IH|v w NL T IH];
    intros WO n b g s O G A F; assert (length b = L) as LB by apply O.
  - cbn [app length] in *. pose proof A as A0. apply at_cons in A. destruct A as [E A].
    pose proof (okb_next L b s _ O E ltac:(lia)) as N1.
    destruct n as [|n]; [lia|]. cbn [cdata_conv].
    rewrite (scan_here _ _ _ _ E) by reflexivity. cbn [bind].
    rewrite (rd_ok _ _ _ E). cbn [bind]. change (93 =? 13) with false. cbn iota.
    rewrite (starts_end_at endch 62 62 b [93; 93] s A0). cbn [bind].
    change (endswith endch 62 62) with true. cbn iota.
    destruct (flush_text L b g v0 s O G N1) as (b1 & e & -> & W & O1 & C1 & A1).
    cbn [bind]. rewrite W. cbn [bind]. rewrite Nat.add_0_r, app_nil_r.
    exists (upd b1 e 0). auto.
  - assert (without [93; 93; 62] w) as WO'.
    { destruct WO as [Z NO]. split; [now inversion Z|]. intros a b0 ->. apply (NO (c :: a) b0). reflexivity. }
    pose proof A as A0. cbn [app] in A. apply at_cons in A. destruct A as [E A].
    assert (starts_end endch [93; 93] 62 b s = Val false) as ST.
    { apply (starts_end_no endch 62 b [93; 93] s ((c :: w) ++ [93; 93])).
      - change ((c :: w) ++ [93; 93; 62]) with ((c :: w) ++ [93; 93] ++ [62]) in A0.
        rewrite app_assoc in A0. apply at_app in A0. apply A0.
      - apply Forall_app. split; [apply WO|repeat constructor; lia].
      - rewrite app_length. cbn. lia.
      - eapply (no_mark2 93 62 (c :: w)); [apply WO|lia|exact (eq_refl : c :: w = [] ++ c :: w)|reflexivity]. }
    destruct (cdata_skip L endch n b g s c O E N0 NR ST F) as (n' & F' & ->).
    destruct (IH WO' n' b g (S s) O (gapok_S _ _ _ G) A F') as (b' & EQ & O' & C' & A').
    exists b'. rewrite EQ. cbn [length]. replace (S s + length w)%nat with (s + S (length w))%nat in * by lia.
    split; [reflexivity|]. split; [exact O'|]. split; [exact C'|].
    rewrite (decoded_step b g v0 s c G E) in A'. now rewrite <- (app_assoc _ [c] v) in A'.
  - assert (without [93; 93; 62] w) as WO'.
    { destruct WO as [Z NO]. split; [inversion Z as [|? ? ? Z']; now inversion Z'|].
      intros a b0 ->. apply (NO (13 :: 10 :: a) b0). reflexivity. }
    cbn [app] in A. apply at_cons in A. destruct A as [E A]. apply at_cons in A. destruct A as [E2 A].
    pose proof (okb_next L b s _ O E ltac:(lia)) as N1. pose proof (okb_next L b _ _ O E2 ltac:(lia)) as N2.
    destruct n as [|n]; [lia|]. cbn [cdata_conv].
    rewrite (scan_here _ _ _ _ E) by reflexivity. cbn [bind].
    rewrite (rd_ok _ _ _ E). cbn [bind].
    change (13 =? 13) with true. cbn iota.
    rewrite wr_ok by lia. cbn [bind].
    rewrite (rd_ok (upd b s 10) (S s) 10) by (rewrite upd_neq by lia; exact E2). cbn [bind].
    change (10 =? 10) with true. cbn iota.
    destruct (push_ok (upd b s 10) g v0 (S s) 1) as (b3 & g3 & -> & C3 & G3 & D3).
    { now apply gapok_S. }
    { rewrite upd_length by lia. lia. }
    cbn [bind].
    destruct (IH WO' n b3 g3 (S s + 1)%nat) as (b' & EQ & O' & C' & A').
    + eapply okb_chg; [apply okb_upd; [exact O|exact N1]|exact C3|lia].
    + exact G3.
    + replace (S s + 1)%nat with (S (S s)) by lia.
      eapply at_chg; [eapply at_chg; [exact A|apply (chg_upd b s 10); lia|lia]|exact C3|lia].
    + lia.
    + exists b'. rewrite EQ. cbn [length].
      replace (S s + 1 + length w)%nat with (s + S (S (length w)))%nat in * by lia.
      split; [reflexivity|]. split; [exact O'|]. split.
      * eapply chg_trans; [eapply chg_weaken; [apply (chg_upd b s 10); lia| |lia]; apply G|].
        eapply chg_trans; [eapply chg_weaken; [exact C3|lia|lia]|exact C'].
      * rewrite D3 in A'. rewrite decoded_upd in A' by (auto; lia). now rewrite <- (app_assoc _ [10] v) in A'.
  - assert (without [93; 93; 62] w) as WO'.
    { destruct WO as [Z NO]. split; [now inversion Z|]. intros a b0 ->. apply (NO (13 :: a) b0). reflexivity. }
    cbn [app] in A. apply at_cons in A. destruct A as [E A].
    pose proof (okb_next L b s _ O E ltac:(lia)) as N1.
    destruct n as [|n]; [lia|]. cbn [cdata_conv].
    rewrite (scan_here _ _ _ _ E) by reflexivity. cbn [bind].
    rewrite (rd_ok _ _ _ E). cbn [bind].
    change (13 =? 13) with true. cbn iota.
    rewrite wr_ok by lia. cbn [bind].
    assert (exists d, nth_error b (S s) = Some d /\ d <> 10) as (d & Ed & Nd).
    { destruct w as [|x w].
      - cbn [app] in A. apply at_cons in A. exists 93. split; [apply A|lia].
      - cbn [app] in A. apply at_cons in A. exists x. split; [apply A|].
        intros ->. now apply (NL w). }
    rewrite (rd_ok (upd b s 10) (S s) d) by (rewrite upd_neq by lia; exact Ed). cbn [bind].
    replace (d =? 10) with false by lia.
    destruct (IH WO' n (upd b s 10) g (S s)) as (b' & EQ & O' & C' & A').
    + now apply okb_upd.
    + now apply gapok_S.
    + eapply at_chg; [exact A|apply chg_upd; lia|lia].
    + lia.
    + exists b'. rewrite EQ. cbn [length].
      replace (S s + length w)%nat with (s + S (length w))%nat in * by lia.
      split; [reflexivity|]. split; [exact O'|]. split.
      * eapply chg_trans; [|exact C']. eapply chg_weaken; [apply chg_upd; lia| |lia]. apply G.
      * rewrite decoded_upd in A' by (auto; lia). now rewrite <- (app_assoc _ [10] v) in A'.
Qed.

Lemma raw_text_nz v w : raw_text v w -> Forall (fun c => c <> 0) v.
Proof. induction 1; try (constructor; [lia|assumption]); constructor. Qed.
