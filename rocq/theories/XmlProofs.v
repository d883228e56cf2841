(** Facts about the XML parser of Xml.v: it stays inside its buffer, it comes
    to an end, and it only writes behind the place it has reached. *)
From Coq Require Import NArith ZArith List Bool Arith Lia ZifyBool ZifyNat ZifyN.
From Verif Require Import Xml.
Import ListNotations.
Open Scope N_scope.

(** ** Buffers *)

Definition upd (b : bytes) (s : nat) (v : N) : bytes := firstn s b ++ v :: skipn (S s) b.

Lemma upd_length b s v : (s < length b)%nat -> length (upd b s v) = length b.
Proof.
  intros H. unfold upd. rewrite app_length. cbn [length].
  rewrite firstn_length, skipn_length. lia.
Qed.

Lemma upd_eq b s v : (s < length b)%nat -> nth_error (upd b s v) s = Some v.
Proof.
  intros H. unfold upd. rewrite nth_error_app2; rewrite firstn_length; [|lia].
  replace (s - Nat.min s (length b))%nat with O by lia. reflexivity.
Qed.

Lemma nth_error_firstn_lt {A} (l : list A) n i :
  (i < n)%nat -> nth_error (firstn n l) i = nth_error l i.
Proof.
  revert n i; induction l as [|x l IH]; intros [|n] [|i] H; cbn; try lia; auto.
  apply IH. lia.
Qed.

Lemma nth_error_skipn_add {A} (l : list A) n i :
  nth_error (skipn n l) i = nth_error l (n + i).
Proof.
  revert n; induction l as [|x l IH]; intros [|n]; cbn; auto.
  destruct i; reflexivity.
Qed.

Lemma upd_neq b s v i : (s < length b)%nat -> i <> s -> nth_error (upd b s v) i = nth_error b i.
Proof.
  intros H N. unfold upd. destruct (Nat.lt_ge_cases i s) as [Q|Q].
  - rewrite nth_error_app1 by (rewrite firstn_length; lia). apply nth_error_firstn_lt; lia.
  - rewrite nth_error_app2; rewrite firstn_length; [|lia].
    replace (i - Nat.min s (length b))%nat with (S (i - S s)) by lia. cbn [nth_error].
    rewrite nth_error_skipn_add. f_equal. lia.
Qed.

Lemma wr_ok b s v : (s < length b)%nat -> wr b s v = Val (upd b s v).
Proof. intros H. unfold wr. destruct (Nat.ltb_spec s (length b)); [reflexivity|lia]. Qed.

Lemma rd_ok b s c : nth_error b s = Some c -> rd b s = Val c.
Proof. intros H. unfold rd. now rewrite H. Qed.

Lemma rd_in b s : (s < length b)%nat -> exists c, nth_error b s = Some c /\ rd b s = Val c.
Proof.
  intros H. destruct (nth_error b s) as [c|] eqn:E.
  - exists c. split; [reflexivity|now apply rd_ok].
  - apply nth_error_None in E. lia.
Qed.

(** only the places from [lo] to below [hi] differ *)
Definition chg (lo hi : nat) (b b' : bytes) : Prop :=
  length b' = length b /\
  forall i, (i < lo \/ hi <= i)%nat -> nth_error b' i = nth_error b i.

Lemma chg_refl lo hi b : chg lo hi b b.
Proof. split; auto. Qed.

Lemma chg_trans lo hi b1 b2 b3 : chg lo hi b1 b2 -> chg lo hi b2 b3 -> chg lo hi b1 b3.
Proof.
  intros [L1 H1] [L2 H2]. split; [congruence|].
  intros i H. now rewrite H2, H1.
Qed.

Lemma chg_weaken lo hi lo' hi' b b' :
  chg lo hi b b' -> (lo' <= lo)%nat -> (hi <= hi')%nat -> chg lo' hi' b b'.
Proof. intros [L H] A B. split; [exact L|]. intros i Hi. apply H. lia. Qed.

Lemma chg_upd b s v : (s < length b)%nat -> chg s (S s) b (upd b s v).
Proof.
  intros H. split; [now apply upd_length|]. intros i Hi. apply upd_neq; lia.
Qed.

Lemma chg_upd_same b s v : nth_error b s = Some v -> forall lo hi, chg lo hi b (upd b s v).
Proof.
  intros H lo hi. assert (s < length b)%nat as L by (apply nth_error_Some; congruence).
  split; [now apply upd_length|]. intros i Hi.
  destruct (Nat.eq_dec i s) as [->|N]; [rewrite upd_eq by exact L; congruence|].
  now apply upd_neq.
Qed.

(** the buffer has size [L] and ends with a zero byte *)
Definition okb (L : nat) (b : bytes) : Prop :=
  length b = L /\ (0 < L)%nat /\ nth_error b (L - 1) = Some 0.

Lemma okb_next L b s c : okb L b -> nth_error b s = Some c -> c <> 0 -> (S s < L)%nat.
Proof.
  intros (LB & P & Z) H N.
  assert (s < L)%nat by (rewrite <- LB; apply nth_error_Some; congruence).
  destruct (Nat.eq_dec s (L - 1)) as [->|]; [congruence|lia].
Qed.

Lemma okb_chg L lo hi b b' : okb L b -> chg lo hi b b' -> (hi < L)%nat -> okb L b'.
Proof.
  intros (LB & P & Z) [L' H] Hi. repeat split; [congruence|exact P|].
  rewrite H by lia. exact Z.
Qed.

Lemma okb_upd L b s v : okb L b -> (S s < L)%nat -> okb L (upd b s v).
Proof.
  intros O H. eapply okb_chg; [exact O|apply chg_upd|]; destruct O as (LB & _); lia.
Qed.

Lemma okb_upd0 L b s : okb L b -> (s < L)%nat -> okb L (upd b s 0).
Proof.
  intros (LB & P & Z) H. repeat split; [rewrite upd_length; lia|exact P|].
  destruct (Nat.eq_dec (L - 1) s) as [<-|N]; [apply upd_eq; lia|].
  rewrite upd_neq by lia. exact Z.
Qed.

(** ** Outcomes *)

(** an outcome that is neither a stray access nor an endless loop: a value
    with the property [P], or an error at a place of the buffer or just after
    it *)
Definition safe {A} (L : nat) (P : A -> Prop) (r : res A) : Prop :=
  match r with
  | Val a => P a
  | Err _ off b => (off <= L)%nat /\ length b = L
  | Wild | Loop => False
  end.

Lemma safe_bind {A B} L (P : A -> Prop) (Q : B -> Prop) m f :
  safe L P m -> (forall a, P a -> safe L Q (f a)) -> safe L Q (bind m f).
Proof. destruct m; cbn; auto. Qed.

Lemma safe_imp {A} L (P Q : A -> Prop) m : safe L P m -> (forall a, P a -> Q a) -> safe L Q m.
Proof. destruct m; cbn; auto. Qed.

Lemma safe_rd L b s : length b = L -> (s < L)%nat ->
  safe L (fun c => nth_error b s = Some c) (rd b s).
Proof.
  intros LB H. destruct (rd_in b s) as (c & E & ->); [lia|]. exact E.
Qed.

Lemma safe_scan_while L p b :
  okb L b -> p 0 = false ->
  forall n s, (s < L)%nat -> (L - s <= n)%nat ->
  safe L (fun s' => (s <= s' < L)%nat /\
                    (exists c, nth_error b s' = Some c /\ p c = false) /\
                    (forall c, nth_error b s = Some c -> p c = true -> (s < s')%nat))
       (scan_while n p b s).
Proof.
  intros O P0. induction n as [|n IH]; intros s H F; [lia|].
  cbn [scan_while]. eapply safe_bind; [apply safe_rd; [apply O|exact H]|].
  intros c E. cbn beta. destruct (p c) eqn:PC.
  - assert (c <> 0) as N by congruence. pose proof (okb_next L b s c O E N) as Q.
    eapply safe_imp; [apply IH; lia|]. intros s' (A & B & _). split; [lia|]. split; [exact B|].
    intros; lia.
  - cbn. split; [lia|]. split; [exists c; auto|]. intros d Ed Pd. congruence.
Qed.

Lemma safe_skip_ws L b s :
  okb L b -> (s < L)%nat ->
  safe L (fun s' => (s <= s' < L)%nat /\
                    (exists c, nth_error b s' = Some c /\ is_type ct_space c = false) /\
                    (forall c, nth_error b s = Some c -> is_type ct_space c = true -> (s < s')%nat))
       (skip_ws b s).
Proof.
  intros O H. unfold skip_ws. apply safe_scan_while; auto. unfold fuel.
  destruct O as (LB & _). lia.
Qed.

Lemma safe_starts L b : okb L b -> forall l s, Forall (fun c => c <> 0) l -> (s < L)%nat ->
  safe L (fun x => x = true -> (s + length l < L)%nat) (starts l b s).
Proof.
  intros O. induction l as [|c l IH]; intros s F H; cbn [starts].
  - cbn. lia.
  - inversion F as [|? ? N F' E1]; subst. eapply safe_bind; [apply safe_rd; [apply O|exact H]|].
    intros x E. cbn beta. destruct (N.eqb_spec x c) as [->|D].
    + pose proof (okb_next L b s c O E N) as Q.
      eapply safe_imp; [apply IH; [exact F'|lia]|]. intros a A T. specialize (A T). cbn [length]. lia.
    + cbn. discriminate.
Qed.

Lemma safe_starts_end L b endch e : okb L b -> forall l s, Forall (fun c => c <> 0) l -> (s < L)%nat ->
  safe L (fun x => x = true -> (s + length l < L)%nat /\
                   (forall c, nth_error b (s + length l) = Some c -> c = e \/ c = 0))
       (starts_end endch l e b s).
Proof.
  intros O. induction l as [|c l IH]; intros s F H; cbn [starts_end].
  - eapply safe_bind; [apply safe_rd; [apply O|exact H]|].
    intros x E. cbn. intros T. split; [lia|]. intros c Ec. rewrite Nat.add_0_r in Ec.
    unfold endswith in T. assert (x = c) as -> by congruence. lia.
  - inversion F as [|? ? N F' E1]; subst. eapply safe_bind; [apply safe_rd; [apply O|exact H]|].
    intros x E. cbn beta. destruct (N.eqb_spec x c) as [->|D].
    + pose proof (okb_next L b s c O E N) as Q.
      eapply safe_imp; [apply IH; [exact F'|lia]|]. intros a A T. destruct (A T) as [A1 A2].
      cbn [length]. split; [lia|]. intros d Ed. apply A2. rewrite <- Ed. f_equal. lia.
    + cbn. discriminate.
Qed.

Lemma safe_scan_for L t b (Q : nat -> Prop) :
  okb L b ->
  (forall s c, nth_error b s = Some c -> c <> 0 -> safe L (fun x => x = true -> Q s) (t b s)) ->
  forall n s, (s < L)%nat -> (L - s <= n)%nat ->
  safe L (fun s' => (s <= s' < L)%nat /\
                    ((exists c, nth_error b s' = Some c /\ c <> 0 /\ Q s') \/ nth_error b s' = Some 0))
       (scan_for n t b s).
Proof.
  intros O T. induction n as [|n IH]; intros s H F; [lia|].
  cbn [scan_for]. eapply safe_bind; [apply safe_rd; [apply O|exact H]|].
  intros c E. cbn beta. destruct (N.eqb_spec c 0) as [->|N].
  - cbn. split; [lia|auto].
  - eapply safe_bind; [apply (T s c E N)|]. intros [] X; cbn beta iota.
    + cbn. split; [lia|]. left. exists c. auto.
    + pose proof (okb_next L b s c O E N) as Q1.
      eapply safe_imp; [apply IH; lia|]. intros s' (A & B). split; [lia|exact B].
Qed.

(** ** Gaps *)

(** a text that began at [v] is being decoded, and the parser is at [s] *)
Definition gapok (v s : nat) (g : gap) : Prop :=
  (v <= s)%nat /\
  match g_end g with
  | None => g_size g = O
  | Some e => (v + g_size g <= e <= s)%nat
  end.

Lemma gapok_more v s s' g : gapok v s g -> (s <= s')%nat -> gapok v s' g.
Proof. intros [A B] H. split; [lia|]. destruct (g_end g); lia. Qed.

Lemma gapok_no v s : (v <= s)%nat -> gapok v s no_gap.
Proof. intros H. split; [exact H|reflexivity]. Qed.

Definition slice (b : bytes) (i j : nat) : bytes := firstn (j - i) (skipn i b).

(** the text decoded so far *)
Definition decoded (b : bytes) (g : gap) (v s : nat) : bytes :=
  match g_end g with
  | None => slice b v s
  | Some e => slice b v (e - g_size g) ++ slice b e s
  end.

Definition moved (b : bytes) (dst src n : nat) : bytes :=
  firstn dst b ++ firstn n (skipn src b) ++ skipn (dst + n) b.

Lemma moved_nth b dst src n i :
  (dst <= src)%nat -> (src + n <= length b)%nat ->
  nth_error (moved b dst src n) i =
  if ((dst <=? i) && (i <? dst + n))%nat then nth_error b (src + (i - dst)) else nth_error b i.
Proof.
  intros D H. unfold moved.
  destruct (Nat.lt_ge_cases i dst) as [A|A].
  - rewrite nth_error_app1 by (rewrite firstn_length; lia).
    replace ((dst <=? i)%nat) with false by lia. apply nth_error_firstn_lt. lia.
  - rewrite nth_error_app2; rewrite firstn_length; [|lia].
    replace (i - Nat.min dst (length b))%nat with (i - dst)%nat by lia.
    destruct (Nat.lt_ge_cases i (dst + n)) as [B|B].
    + rewrite nth_error_app1 by (rewrite firstn_length, skipn_length; lia).
      replace ((dst <=? i) && (i <? dst + n))%nat with true by lia.
      rewrite nth_error_firstn_lt by lia. apply nth_error_skipn_add.
    + rewrite nth_error_app2; rewrite firstn_length, skipn_length; [|lia].
      replace ((dst <=? i) && (i <? dst + n))%nat with false by lia.
      rewrite nth_error_skipn_add. f_equal. lia.
Qed.

Lemma moved_length b dst src n :
  (dst <= src)%nat -> (src + n <= length b)%nat -> length (moved b dst src n) = length b.
Proof.
  intros D H. unfold moved. rewrite !app_length, !firstn_length, !skipn_length. lia.
Qed.

Lemma list_ext {A} (l l' : list A) : (forall i, nth_error l i = nth_error l' i) -> l = l'.
Proof.
  revert l'; induction l as [|x l IH]; intros [|y l'] H; auto.
  - specialize (H O). discriminate.
  - specialize (H O). discriminate.
  - pose proof (H O) as H0. cbn in H0. injection H0 as ->. f_equal. apply IH.
    intros i. exact (H (S i)).
Qed.

Lemma slice_nth b i j k :
  nth_error (slice b i j) k = if (k <? j - i)%nat then nth_error b (i + k) else None.
Proof.
  unfold slice. destruct (Nat.ltb_spec k (j - i)) as [H|H].
  - rewrite nth_error_firstn_lt by exact H. apply nth_error_skipn_add.
  - apply nth_error_None. rewrite firstn_length. lia.
Qed.

Lemma slice_same b b' i j :
  (forall k, (i <= k < j)%nat -> nth_error b' k = nth_error b k) -> slice b' i j = slice b i j.
Proof.
  intros H. apply list_ext. intros k. rewrite !slice_nth.
  destruct (Nat.ltb_spec k (j - i)); [|reflexivity]. apply H. lia.
Qed.

Lemma slice_app b i j k : (i <= j <= k)%nat -> slice b i k = slice b i j ++ slice b j k.
Proof.
  intros H. unfold slice. replace (k - i)%nat with ((j - i) + (k - j))%nat by lia.
  rewrite <- (firstn_skipn (j - i) (firstn (j - i + (k - j)) (skipn i b))).
  f_equal.
  - rewrite firstn_firstn. f_equal. lia.
  - rewrite skipn_firstn_comm. f_equal; [lia|].
    apply list_ext. intros m. rewrite !nth_error_skipn_add. f_equal. lia.
Qed.

Lemma slice_nil b i j : (j <= i)%nat -> slice b i j = [].
Proof. intros H. unfold slice. replace (j - i)%nat with O by lia. reflexivity. Qed.

Lemma slice_one b i c : nth_error b i = Some c -> slice b i (S i) = [c].
Proof.
  intros H. apply list_ext. intros [|k]; rewrite slice_nth.
  - replace (0 <? S i - i)%nat with true by lia. rewrite Nat.add_0_r. exact H.
  - replace (S k <? S i - i)%nat with false by lia. destruct k; reflexivity.
Qed.

Lemma slice_length b i j : (j <= length b)%nat -> length (slice b i j) = (j - i)%nat.
Proof. intros H. unfold slice. rewrite firstn_length, skipn_length. lia. Qed.

(** collapsing a gap moves the text together *)
Lemma collapse_ok b g v s :
  gapok v s g -> (s <= length b)%nat ->
  exists b', collapse b g s = Val b' /\ chg v s b b' /\
             slice b' v (s - g_size g) = decoded b g v s.
Proof.
  intros [V G] H. unfold collapse, decoded. destruct (g_end g) as [e|].
  - replace ((g_size g <=? e) && (e <=? s))%nat with true by lia.
    unfold memmove. replace ((e + (s - e) <=? length b) && (e - g_size g + (s - e) <=? length b))%nat
      with true by lia.
    eexists. split; [reflexivity|]. fold (moved b (e - g_size g) e (s - e)). split.
    + split; [apply moved_length; lia|]. intros i Hi. rewrite moved_nth by lia.
      destruct ((e - g_size g <=? i) && (i <? e - g_size g + (s - e)))%nat eqn:E; [|reflexivity].
      lia.
    + rewrite (slice_app _ v (e - g_size g)) by lia. f_equal.
      * apply slice_same. intros k Hk. rewrite moved_nth by lia.
        replace ((e - g_size g <=? k) && (k <? e - g_size g + (s - e)))%nat with false by lia.
        reflexivity.
      * apply list_ext. intros k. rewrite !slice_nth.
        replace (s - g_size g - (e - g_size g))%nat with (s - e)%nat by lia.
        destruct (Nat.ltb_spec k (s - e)) as [K|K]; [|reflexivity].
        rewrite moved_nth by lia.
        replace ((e - g_size g <=? e - g_size g + k) && (e - g_size g + k <? e - g_size g + (s - e)))%nat
          with true by lia.
        f_equal. lia.
  - exists b. split; [reflexivity|]. split; [apply chg_refl|]. rewrite G. f_equal. lia.
Qed.

Lemma push_ok b g v s count :
  gapok v s g -> (s <= length b)%nat ->
  exists b' g', push b g s count = Val (b', g', (s + count)%nat) /\ chg v s b b' /\
                gapok v (s + count) g' /\ decoded b' g' v (s + count) = decoded b g v s.
Proof.
  intros G H. destruct (collapse_ok b g v s G H) as (b' & E & C & D).
  unfold push. rewrite E. cbn [bind]. eexists _, _. split; [reflexivity|]. split; [exact C|].
  destruct G as [V G]. split.
  - split; cbn [g_end g_size]; [lia|]. destruct (g_end g); lia.
  - unfold decoded at 1. cbn [g_end g_size].
    rewrite (slice_nil b' (s + count) (s + count)) by lia. rewrite app_nil_r.
    rewrite <- D. f_equal. destruct (g_end g); lia.
Qed.

Lemma flush_ok b g v s :
  gapok v s g -> (s <= length b)%nat ->
  exists b' e, flush b g s = Val (b', e) /\ chg v s b b' /\ (v <= e <= s)%nat /\
               slice b' v e = decoded b g v s.
Proof.
  intros G H. destruct (collapse_ok b g v s G H) as (b' & E & C & D).
  unfold flush. rewrite E. cbn [bind]. eexists _, _. split; [reflexivity|]. split; [exact C|].
  destruct G as [V G]. destruct (g_end g) as [e|] eqn:GE.
  - split; [lia|exact D].
  - split; [lia|]. rewrite <- D. f_equal. lia.
Qed.

(** one more character that stays where it is *)
Lemma decoded_step b g v s c :
  gapok v s g -> nth_error b s = Some c -> decoded b g v (S s) = decoded b g v s ++ [c].
Proof.
  intros [V G] E. unfold decoded. destruct (g_end g) as [e|].
  - rewrite (slice_app b e s (S s)) by lia. rewrite (slice_one b s c E). now rewrite app_assoc.
  - rewrite (slice_app b v s (S s)) by lia. now rewrite (slice_one b s c E).
Qed.

Lemma decoded_same b b' g v s :
  gapok v s g -> (forall k, (v <= k < s)%nat -> nth_error b' k = nth_error b k) ->
  decoded b' g v s = decoded b g v s.
Proof.
  intros [V G] H. unfold decoded. destruct (g_end g) as [e|].
  - f_equal; apply slice_same; intros k K; apply H; lia.
  - apply slice_same. exact H.
Qed.

Lemma decoded_upd b g v s c :
  gapok v s g -> (s < length b)%nat -> decoded (upd b s c) g v (S s) = decoded b g v s ++ [c].
Proof.
  intros G H. rewrite (decoded_step _ _ _ _ c G) by (now apply upd_eq).
  f_equal. apply decoded_same; [exact G|]. intros k K. apply upd_neq; lia.
Qed.

(** ** References *)

Lemma wrs_ok b v g : forall l s, gapok v s g -> (s + length l <= length b)%nat ->
  exists b', wrs b s l = Val (b', (s + length l)%nat) /\ chg s (s + length l) b b' /\
             decoded b' g v (s + length l) = decoded b g v s ++ l.
Proof.
  intros l. revert b. induction l as [|c l IH]; intros b s G H; cbn [wrs length] in *.
  - exists b. rewrite Nat.add_0_r, app_nil_r. split; [reflexivity|]. split; [apply chg_refl|reflexivity].
  - rewrite wr_ok by lia. cbn [bind].
    destruct (IH (upd b s c) (S s)) as (b' & E & C & D).
    + now apply (gapok_more v s); [|lia].
    + rewrite upd_length by lia. lia.
    + exists b'. rewrite E. replace (S s + length l)%nat with (s + S (length l))%nat in * by lia.
      split; [reflexivity|]. split.
      * eapply chg_trans; [eapply chg_weaken; [apply (chg_upd b s c); lia|lia|lia]|].
        eapply chg_weaken; [exact C|lia|lia].
      * rewrite D. rewrite decoded_upd by (auto; lia). now rewrite <- app_assoc.
Qed.

Lemma replaced_ok b g v s stre l :
  gapok v s g -> (s + length l <= stre)%nat -> (stre <= length b)%nat ->
  exists b' g', replaced b g s stre l = Val (b', g', stre) /\ chg v stre b b' /\
                gapok v stre g' /\ decoded b' g' v stre = decoded b g v s ++ l.
Proof.
  intros G H1 H2. destruct (wrs_ok b v g l s G ltac:(lia)) as (b1 & E & C & D).
  unfold replaced. rewrite E. cbn [bind].
  replace ((s + length l <=? stre)%nat) with true by lia.
  destruct (push_ok b1 g v (s + length l) (stre - (s + length l))) as (b2 & g2 & E2 & C2 & G2 & D2).
  - now apply (gapok_more v s); [|lia].
  - destruct C as [-> _]. lia.
  - rewrite E2. cbn [bind]. exists b2, g2.
    replace (s + length l + (stre - (s + length l)))%nat with stre in * by lia.
    split; [reflexivity|]. split; [|split; [exact G2|congruence]].
    destruct G as [V _].
    eapply chg_trans; [eapply chg_weaken; [exact C|lia|lia]|].
    eapply chg_weaken; [exact C2|lia|lia].
Qed.

Lemma safe_chain L b : okb L b -> forall l i, Forall (fun c => c <> 0) l -> (S i < L)%nat ->
  safe L (fun '(m, i') => (i <= i' < L)%nat /\ (m = true -> i' = i + length l /\ S i' < L)%nat)
       (chain b i l).
Proof.
  intros O. induction l as [|c l IH]; intros i F H; cbn [chain].
  - cbn. lia.
  - inversion F as [|? ? N F' E1]; subst. eapply safe_bind; [apply safe_rd; [apply O|exact H]|].
    intros x E. cbn beta. destruct (N.eqb_spec x c) as [->|D].
    + pose proof (okb_next L b (S i) c O E N) as Q.
      eapply safe_imp; [apply IH; [exact F'|lia]|]. intros [m i'] (A & B). split; [lia|].
      intros T. specialize (B T). cbn [length]. lia.
    + cbn. split; [lia|discriminate].
Qed.

Lemma safe_hexes L b : okb L b -> forall n i u, (i < L)%nat -> (L - i <= n)%nat ->
  safe L (fun '(o, i') => (i <= i' < L)%nat /\ (o <> None -> S i <= i')%nat /\
                       (o <> None -> nth_error b i <> Some 59%N -> S (S i) <= i')%nat) (hexes n b i u).
Proof.
  intros O. induction n as [|n IH]; intros i u H F; [lia|]. cbn [hexes].
  eapply safe_bind; [apply safe_rd; [apply O|exact H]|]. intros ch E. cbn beta.
  destruct ((48 <=? ch) && (ch <=? 57)) eqn:D.
  { pose proof (okb_next L b i ch O E ltac:(lia)) as Q.
    eapply safe_imp; [apply IH; lia|]. intros [o i'] (A & B & C). split; [lia|]. split; [|intros T _; specialize (B T)]; lia. }
  destruct ((97 <=? N.lor ch 32) && (N.lor ch 32 <=? 102)) eqn:X.
  { assert (ch <> 0) as N by (intros ->; cbn in X; discriminate).
    pose proof (okb_next L b i ch O E N) as Q.
    eapply safe_imp; [apply IH; lia|]. intros [o i'] (A & B & C). split; [lia|]. split; [|intros T _; specialize (B T)]; lia. }
  destruct (N.eqb_spec ch 59) as [->|M].
  - pose proof (okb_next L b i 59 O E ltac:(lia)) as Q. cbn. split; [lia|]. split; [lia|congruence].
  - cbn. split; [lia|]. split; congruence.
Qed.

Lemma safe_decs L b : okb L b -> forall n i u, (i < L)%nat -> (L - i <= n)%nat ->
  safe L (fun '(o, i') => (i <= i' < L)%nat /\ (o <> None -> S i <= i')%nat /\
                       (o <> None -> nth_error b i <> Some 59%N -> S (S i) <= i')%nat) (decs n b i u).
Proof.
  intros O. induction n as [|n IH]; intros i u H F; [lia|]. cbn [decs].
  eapply safe_bind; [apply safe_rd; [apply O|exact H]|]. intros ch E. cbn beta.
  destruct ((48 <=? ch) && (ch <=? 57)) eqn:D.
  { pose proof (okb_next L b i ch O E ltac:(lia)) as Q.
    eapply safe_imp; [apply IH; lia|]. intros [o i'] (A & B & C). split; [lia|]. split; [|intros T _; specialize (B T)]; lia. }
  destruct (N.eqb_spec ch 59) as [->|M].
  - pose proof (okb_next L b i 59 O E ltac:(lia)) as Q. cbn. split; [lia|]. split; [lia|congruence].
  - cbn. split; [lia|]. split; congruence.
Qed.

Lemma utf8_length u : (1 <= length (utf8 u) <= 4)%nat.
Proof.
  unfold utf8. destruct (u <? 128); [cbn; lia|]. destruct (u <? 2048); [cbn; lia|].
  destruct (u <? 65536); cbn; lia.
Qed.

(** what every step of decoding keeps *)
Definition decodes (L v s : nat) (b : bytes) : bytes * gap * nat -> Prop :=
  fun '(b', g', s') =>
    okb L b' /\ gapok v s' g' /\ (s < s' < L)%nat /\ chg v s' b b'.

Lemma replaced_safe L b g v s stre l :
  okb L b -> gapok v s g -> (s + length l <= stre)%nat -> (s < stre)%nat -> (stre < L)%nat ->
  safe L (decodes L v s b) (replaced b g s stre l).
Proof.
  intros O G H1 H2 H3. destruct O as (LB & P & Z).
  destruct (replaced_ok b g v s stre l G H1 ltac:(lia)) as (b' & g' & -> & C & G' & _).
  cbn. split; [|split; [exact G'|split; [lia|exact C]]].
  eapply okb_chg; [repeat split; eassumption|exact C|lia].
Qed.

Lemma named_safe L b g v s i l c :
  okb L b -> gapok v s g -> (s < i)%nat -> (S i < L)%nat -> Forall (fun c => c <> 0) l ->
  safe L (decodes L v s b) (named b g s i l c).
Proof.
  intros O G H1 H2 F. unfold named.
  eapply safe_bind; [apply (safe_chain L b O l i F H2)|].
  intros [m i'] (A & B). cbn beta iota. destruct m.
  - destruct (B eq_refl) as [B1 B2]. apply replaced_safe; auto; cbn [length]; lia.
  - cbn. split; [exact O|]. split; [now apply (gapok_more v s); [|lia]|]. split; [lia|apply chg_refl].
Qed.

Lemma nz l : forallb (fun c => negb (c =? 0)) l = true -> Forall (fun c => c <> 0) l.
Proof. intros H. apply Forall_forall. intros x X. eapply forallb_forall in H; [|exact X]. lia. Qed.

Lemma escape_safe L b g v s :
  okb L b -> gapok v s g -> nth_error b s = Some 38 ->
  safe L (decodes L v s b) (escape b g s).
Proof.
  intros O G E. pose proof (okb_next L b s 38 O E ltac:(lia)) as Q.
  assert (forall s', (s < s' < L)%nat -> safe L (decodes L v s b) (Val (b, g, s'))) as STAY.
  { intros s' H. cbn. split; [exact O|]. split; [now apply (gapok_more v s); [|lia]|].
    split; [lia|apply chg_refl]. }
  unfold escape. eapply safe_bind; [apply safe_rd; [apply O|lia]|]. intros c Ec. cbn beta.
  destruct (N.eqb_spec c 35) as [->|_].
  { pose proof (okb_next L b _ _ O Ec ltac:(lia)) as Q1.
    eapply safe_bind; [apply safe_rd; [apply O|lia]|]. intros x Ex. cbn beta.
    destruct (N.eqb_spec x 120) as [->|_].
    - pose proof (okb_next L b _ _ O Ex ltac:(lia)) as Q2.
      eapply safe_bind; [apply safe_rd; [apply O|lia]|]. intros ch Eh. cbn beta.
      destruct (N.eqb_spec ch 59) as [->|N]; [apply STAY; lia|].
      eapply safe_bind.
      { apply (safe_hexes L b O); [lia|]. unfold fuel. destruct O as (-> & _). lia. }
      intros [o i] (A & _ & B). cbn beta iota. destruct o as [u|]; [|apply STAY; lia].
      specialize (B ltac:(discriminate) ltac:(congruence)). pose proof (utf8_length u).
      apply replaced_safe; auto; lia.
    - destruct (N.eqb_spec x 59) as [->|N]; [apply STAY; lia|].
      eapply safe_bind.
      { apply (safe_decs L b O); [lia|]. unfold fuel. destruct O as (-> & _). lia. }
      intros [o i] (A & _ & B). cbn beta iota. destruct o as [u|]; [|apply STAY; lia].
      specialize (B ltac:(discriminate) ltac:(congruence)). pose proof (utf8_length u).
      apply replaced_safe; auto; lia. }
  destruct (N.eqb_spec c 97) as [->|_].
  { pose proof (okb_next L b _ _ O Ec ltac:(lia)) as Q1.
    eapply safe_bind; [apply safe_rd; [apply O|lia]|]. intros x Ex. cbn beta.
    destruct (N.eqb_spec x 109) as [->|_].
    { pose proof (okb_next L b _ _ O Ex ltac:(lia)). apply named_safe; auto; try lia. now apply nz. }
    destruct (N.eqb_spec x 112) as [->|_].
    { pose proof (okb_next L b _ _ O Ex ltac:(lia)). apply named_safe; auto; try lia. now apply nz. }
    apply STAY. lia. }
  destruct (N.eqb_spec c 103) as [->|_].
  { pose proof (okb_next L b _ _ O Ec ltac:(lia)). apply named_safe; auto; try lia. now apply nz. }
  destruct (N.eqb_spec c 108) as [->|_].
  { pose proof (okb_next L b _ _ O Ec ltac:(lia)). apply named_safe; auto; try lia. now apply nz. }
  destruct (N.eqb_spec c 113) as [->|_].
  { pose proof (okb_next L b _ _ O Ec ltac:(lia)). apply named_safe; auto; try lia. now apply nz. }
  apply STAY. lia.
Qed.

(** ** Texts *)

Lemma scan_safe L p b s : okb L b -> p 0 = false -> (s < L)%nat ->
  safe L (fun s' => (s <= s' < L)%nat /\ exists c, nth_error b s' = Some c /\ p c = false)
       (scan_while (fuel b) p b s).
Proof.
  intros O P H. eapply safe_imp.
  - apply (safe_scan_while L p b O P (fuel b) s H). unfold fuel. destruct O as (-> & _). lia.
  - intros s' (A & B & _). auto.
Qed.

Lemma flush_end L b g v s :
  okb L b -> gapok v s g -> (S s < L)%nat ->
  exists b1 e, flush b g s = Val (b1, e) /\ (v <= e <= s)%nat /\
               wr b1 e 0 = Val (upd b1 e 0) /\ okb L (upd b1 e 0) /\
               chg v (S s) b (upd b1 e 0).
Proof.
  intros O G H. destruct (flush_ok b g v s G) as (b1 & e & E & C & V & _);
    [destruct O as (-> & _); lia|].
  assert (length b1 = L) as L1 by (destruct C as [-> _]; apply O).
  assert (okb L b1) as O1 by (eapply okb_chg; [exact O|exact C|lia]).
  exists b1, e. split; [exact E|]. split; [exact V|]. split; [apply wr_ok; lia|]. split.
  - apply okb_upd0; [exact O1|lia].
  - eapply chg_trans; [eapply chg_weaken; [exact C|lia|lia]|].
    eapply chg_weaken; [apply chg_upd; lia|lia|lia].
Qed.

Lemma attr_conv_safe L q v : q <> 0 -> forall n b g s,
  okb L b -> gapok v s g -> (s < L)%nat -> (L - s <= n)%nat ->
  safe L (fun '(o, b') => length b' = L /\
            match o with
            | Some s' => okb L b' /\ (s < s' < L)%nat /\ chg v s' b b'
            | None => True
            end) (attr_conv n b g s q).
Proof.
  intros Q. induction n as [|n IH]; intros b g s O G H F; [lia|]. cbn [attr_conv].
  eapply safe_bind; [apply scan_safe; auto|]. intros s1 (A & c1 & E & _). cbn beta.
  rewrite (rd_ok b s1 c1 E). cbn [bind].
  assert (gapok v s1 g) as G1 by (now apply (gapok_more v s); [|lia]).
  assert (forall b' g' s', okb L b' -> gapok v s' g' -> (s1 < s' < L)%nat -> chg v s' b b' ->
            safe L (fun '(o, b'') => length b'' = L /\
              match o with
              | Some s'' => okb L b'' /\ (s < s'' < L)%nat /\ chg v s'' b b''
              | None => True
              end) (attr_conv n b' g' s' q)) as STEP.
  { intros b' g' s' O' G' H' C'. eapply safe_imp; [apply (IH b' g' s' O' G'); lia|].
    intros [[s''|] b''] (LB & R); [|auto]. destruct R as (O'' & H'' & C'').
    split; [exact LB|]. split; [exact O''|]. split; [lia|].
    eapply chg_trans; [eapply chg_weaken; [exact C'|lia|lia]|exact C'']. }
  destruct (N.eqb_spec c1 q) as [->|NQ].
  { pose proof (okb_next L b s1 q O E Q) as N1.
    destruct (flush_end L b g v s1 O G1 N1) as (b1 & e & -> & V & W & O1 & C1).
    cbn [bind]. rewrite W. cbn [bind safe]. split; [apply O1|]. split; [exact O1|].
    split; [lia|exact C1]. }
  assert (v <= s1)%nat as V1 by (apply G1).
  destruct (is_type ct_space c1) eqn:SP.
  { assert (c1 <> 0) as N0 by (intros ->; discriminate).
    pose proof (okb_next L b s1 c1 O E N0) as N1.
    assert (s1 < length b)%nat as LB by (destruct O as (-> & _); lia).
    pose proof (okb_upd L b s1 32 O N1) as O2.
    pose proof (chg_upd b s1 32 LB) as C2.
    destruct (c1 =? 13).
    - rewrite (wr_ok b s1 32) by lia. cbn [bind].
      eapply safe_bind; [apply safe_rd; [apply O2|exact N1]|]. intros d Ed. cbn beta.
      destruct (N.eqb_spec d 10) as [->|ND].
      + pose proof (okb_next L _ _ _ O2 Ed ltac:(lia)) as N2.
        destruct (push_ok (upd b s1 32) g v (S s1) 1) as (b3 & g3 & -> & C3 & G3 & _).
        * now apply (gapok_more v s1); [|lia].
        * destruct O2 as (-> & _). lia.
        * cbn [bind]. apply STEP; [|exact G3|lia|].
          -- eapply okb_chg; [exact O2|exact C3|lia].
          -- eapply chg_trans; [eapply chg_weaken; [exact C2|lia|lia]|].
             eapply chg_weaken; [exact C3|lia|lia].
      + apply STEP; [exact O2| |lia|].
        * now apply (gapok_more v s1); [|lia].
        * eapply chg_weaken; [exact C2|lia|lia].
    - rewrite (wr_ok b s1 32) by lia. cbn [bind].
      apply STEP; [exact O2| |lia|].
      + now apply (gapok_more v s1); [|lia].
      + eapply chg_weaken; [exact C2|lia|lia]. }
  destruct (N.eqb_spec c1 38) as [->|NA].
  { eapply safe_bind; [apply (escape_safe L b g v s1 O G1 E)|].
    intros [[b3 g3] s3] (O3 & G3 & H3 & C3). cbn beta iota. now apply STEP. }
  destruct (N.eqb_spec c1 0) as [->|NZ].
  { cbn. split; [apply O|exact I]. }
  pose proof (okb_next L b s1 c1 O E NZ) as N1.
  apply STEP; [exact O| |lia|apply chg_refl]. now apply (gapok_more v s1); [|lia].
Qed.

Lemma pcdata_conv_safe L v : forall n b g s,
  okb L b -> gapok v s g -> (s < L)%nat -> (L - s <= n)%nat ->
  safe L (fun '(b', s') => okb L b' /\ (s <= s' < L)%nat /\ chg v s' b b' /\
            (forall c, nth_error b s = Some c -> c <> 0 -> (s < s')%nat))
       (pcdata_conv n b g s).
Proof.
  induction n as [|n IH]; intros b g s O G H F; [lia|]. cbn [pcdata_conv].
  eapply safe_bind.
  { apply (safe_scan_while L _ b O) with (s := s); [reflexivity|exact H|].
    unfold fuel. destruct O as (-> & _). lia. }
  intros s1 (A & (c1 & E & _) & ADV). cbn beta.
  rewrite (rd_ok b s1 c1 E). cbn [bind].
  assert (gapok v s1 g) as G1 by (now apply (gapok_more v s); [|lia]).
  assert (v <= s1)%nat as V1 by (apply G1).
  assert (forall b' g' s', okb L b' -> gapok v s' g' -> (s1 < s' < L)%nat -> chg v s' b b' ->
            safe L (fun '(b'', s'') => okb L b'' /\ (s <= s'' < L)%nat /\ chg v s'' b b'' /\
                      (forall c, nth_error b s = Some c -> c <> 0 -> (s < s'')%nat))
                 (pcdata_conv n b' g' s')) as STEP.
  { intros b' g' s' O' G' H' C'. eapply safe_imp; [apply (IH b' g' s' O' G'); lia|].
    intros [b'' s''] (O'' & H'' & C'' & _).
    split; [exact O''|]. split; [lia|]. split; [|intros; lia].
    eapply chg_trans; [eapply chg_weaken; [exact C'|lia|lia]|exact C'']. }
  destruct (N.eqb_spec c1 60) as [->|NQ].
  { pose proof (okb_next L b s1 60 O E ltac:(lia)) as N1.
    destruct (flush_end L b g v s1 O G1 N1) as (b1 & e & -> & V & W & O1 & C1).
    cbn [bind]. rewrite W. cbn [bind safe]. split; [exact O1|].
    split; [lia|]. split; [exact C1|]. intros; lia. }
  destruct (N.eqb_spec c1 13) as [->|NR].
  { pose proof (okb_next L b s1 13 O E ltac:(lia)) as N1.
    assert (s1 < length b)%nat as LB by (destruct O as (-> & _); lia).
    pose proof (okb_upd L b s1 10 O N1) as O2.
    pose proof (chg_upd b s1 10 LB) as C2.
    rewrite (wr_ok b s1 10) by lia. cbn [bind].
    eapply safe_bind; [apply safe_rd; [apply O2|exact N1]|]. intros d Ed. cbn beta.
    destruct (N.eqb_spec d 10) as [->|ND].
    - pose proof (okb_next L _ _ _ O2 Ed ltac:(lia)) as N2.
      destruct (push_ok (upd b s1 10) g v (S s1) 1) as (b3 & g3 & -> & C3 & G3 & _).
      + now apply (gapok_more v s1); [|lia].
      + destruct O2 as (-> & _). lia.
      + cbn [bind]. apply STEP; [|exact G3|lia|].
        * eapply okb_chg; [exact O2|exact C3|lia].
        * eapply chg_trans; [eapply chg_weaken; [exact C2|lia|lia]|].
          eapply chg_weaken; [exact C3|lia|lia].
    - apply STEP; [exact O2| |lia|].
      + now apply (gapok_more v s1); [|lia].
      + eapply chg_weaken; [exact C2|lia|lia]. }
  destruct (N.eqb_spec c1 38) as [->|NA].
  { eapply safe_bind; [apply (escape_safe L b g v s1 O G1 E)|].
    intros [[b3 g3] s3] (O3 & G3 & H3 & C3). cbn beta iota. now apply STEP. }
  destruct (N.eqb_spec c1 0) as [->|NZ].
  { destruct (flush_ok b g v s1 G1) as (b1 & e & -> & C & V & _);
      [destruct O as (-> & _); lia|]. cbn [bind].
    assert (okb L b1) as O1 by (eapply okb_chg; [exact O|exact C|lia]).
    assert (e < length b1)%nat as LE by (destruct O1 as (-> & _); lia).
    rewrite (wr_ok b1 e 0 LE). cbn [bind safe].
    split; [apply okb_upd0; [exact O1|lia]|]. split; [lia|]. split.
    - eapply chg_trans; [exact C|]. destruct (Nat.eq_dec e s1) as [->|NE].
      + apply chg_upd_same. destruct C as [_ C]. rewrite C by lia. exact E.
      + eapply chg_weaken; [apply chg_upd; exact LE|lia|lia].
    - intros c Ec Nc. destruct (Nat.eq_dec s s1) as [->|]; [congruence|lia]. }
  pose proof (okb_next L b s1 c1 O E NZ) as N1.
  apply STEP; [exact O| |lia|apply chg_refl]. now apply (gapok_more v s1); [|lia].
Qed.

Lemma cdata_conv_safe L v endch : forall n b g s,
  okb L b -> gapok v s g -> (s < L)%nat -> (L - s <= n)%nat ->
  safe L (fun '(o, b') => length b' = L /\
            match o with
            | Some s' => okb L b' /\ (s < s')%nat /\ (S s' < L)%nat /\ chg v s' b b' /\
                         (forall c, nth_error b' (S s') = Some c -> c = 62 \/ c = 0)
            | None => True
            end) (cdata_conv n endch b g s).
Proof.
  induction n as [|n IH]; intros b g s O G H F; [lia|]. cbn [cdata_conv].
  eapply safe_bind; [apply scan_safe; auto|]. intros s1 (A & c1 & E & _). cbn beta.
  rewrite (rd_ok b s1 c1 E). cbn [bind].
  assert (gapok v s1 g) as G1 by (now apply (gapok_more v s); [|lia]).
  assert (v <= s1)%nat as V1 by (apply G1).
  assert (forall b' g' s', okb L b' -> gapok v s' g' -> (s1 < s' < L)%nat -> chg v s' b b' ->
            safe L (fun '(o, b'') => length b'' = L /\
              match o with
              | Some s'' => okb L b'' /\ (s < s'')%nat /\ (S s'' < L)%nat /\ chg v s'' b b'' /\
                            (forall c, nth_error b'' (S s'') = Some c -> c = 62 \/ c = 0)
              | None => True
              end) (cdata_conv n endch b' g' s')) as STEP.
  { intros b' g' s' O' G' H' C'. eapply safe_imp; [apply (IH b' g' s' O' G'); lia|].
    intros [[s''|] b''] (LB & R); [|auto]. destruct R as (O'' & H'' & M'' & C'' & Z'').
    split; [exact LB|]. split; [exact O''|]. split; [lia|]. split; [exact M''|]. split; [|exact Z''].
    eapply chg_trans; [eapply chg_weaken; [exact C'|lia|lia]|exact C'']. }
  destruct (N.eqb_spec c1 13) as [->|NR].
  { pose proof (okb_next L b s1 13 O E ltac:(lia)) as N1.
    assert (s1 < length b)%nat as LB by (destruct O as (-> & _); lia).
    pose proof (okb_upd L b s1 10 O N1) as O2.
    pose proof (chg_upd b s1 10 LB) as C2.
    rewrite (wr_ok b s1 10) by lia. cbn [bind].
    eapply safe_bind; [apply safe_rd; [apply O2|exact N1]|]. intros d Ed. cbn beta.
    destruct (N.eqb_spec d 10) as [->|ND].
    - pose proof (okb_next L _ _ _ O2 Ed ltac:(lia)) as N2.
      destruct (push_ok (upd b s1 10) g v (S s1) 1) as (b3 & g3 & -> & C3 & G3 & _).
      + now apply (gapok_more v s1); [|lia].
      + destruct O2 as (-> & _). lia.
      + cbn [bind]. apply STEP; [|exact G3|lia|].
        * eapply okb_chg; [exact O2|exact C3|lia].
        * eapply chg_trans; [eapply chg_weaken; [exact C2|lia|lia]|].
          eapply chg_weaken; [exact C3|lia|lia].
    - apply STEP; [exact O2| |lia|].
      + now apply (gapok_more v s1); [|lia].
      + eapply chg_weaken; [exact C2|lia|lia]. }
  eapply safe_bind; [apply (safe_starts_end L b endch 62 O [93; 93] s1); [now apply nz|lia]|].
  intros x X. cbn beta. destruct x.
  { destruct (X eq_refl) as [X1 X2]. cbn [length] in X1, X2.
    destruct (flush_end L b g v s1 O G1 ltac:(lia)) as (b1 & e & -> & V & W & O1 & C1).
    cbn [bind]. rewrite W. cbn [bind safe]. split; [apply O1|]. split; [exact O1|].
    split; [lia|]. split; [lia|]. split; [exact C1|].
    intros c Ec. apply X2. destruct C1 as [_ C1]. rewrite C1 in Ec by lia. rewrite <- Ec.
    f_equal. lia. }
  destruct (N.eqb_spec c1 0) as [->|NZ].
  { cbn. split; [apply O|exact I]. }
  pose proof (okb_next L b s1 c1 O E NZ) as N1.
  apply STEP; [exact O| |lia|apply chg_refl]. now apply (gapok_more v s1); [|lia].
Qed.

(** ** Doctypes *)

Ltac fuel_lia O := unfold fuel; destruct O as (-> & _); lia.

Lemma scan_for_starts L l b s :
  okb L b -> l <> [] -> Forall (fun c => c <> 0) l -> (s < L)%nat ->
  safe L (fun s' => (s <= s' < L)%nat /\
                    ((exists c, nth_error b s' = Some c /\ c <> 0 /\ (s' + length l < L)%nat) \/
                     nth_error b s' = Some 0))
       (scan_for (fuel b) (starts l) b s).
Proof.
  intros O N F H. apply (safe_scan_for L (starts l) b (fun s' => (s' + length l < L)%nat) O).
  - intros s' c E Nc. pose proof (okb_next L b s' c O E Nc). apply safe_starts; auto; lia.
  - exact H.
  - fuel_lia O.
Qed.

Lemma scan_for_end L endch l e b s :
  okb L b -> Forall (fun c => c <> 0) l -> (s < L)%nat ->
  safe L (fun s' => (s <= s' < L)%nat /\
                    ((exists c, nth_error b s' = Some c /\ c <> 0 /\
                                ((s' + length l < L)%nat /\
                                 forall d, nth_error b (s' + length l) = Some d -> d = e \/ d = 0)) \/
                     nth_error b s' = Some 0))
       (scan_for (fuel b) (starts_end endch l e) b s).
Proof.
  intros O F H.
  apply (safe_scan_for L (starts_end endch l e) b
           (fun s' => (s' + length l < L)%nat /\
                      forall d, nth_error b (s' + length l) = Some d -> d = e \/ d = 0) O).
  - intros s' c E Nc. pose proof (okb_next L b s' c O E Nc). apply safe_starts_end; auto; lia.
  - exact H.
  - fuel_lia O.
Qed.

Lemma doctype_primitive_safe L b s :
  okb L b -> (s < L)%nat ->
  safe L (fun s' => (s < s' < L)%nat) (doctype_primitive b s).
Proof.
  intros O H. unfold doctype_primitive.
  eapply safe_bind; [apply safe_rd; [apply O|exact H]|]. intros c E. cbn beta.
  destruct ((c =? 34) || (c =? 39)) eqn:Q.
  - pose proof (okb_next L b s c O E ltac:(lia)) as N1.
    eapply safe_bind; [apply (scan_for_starts L [c] b (S s) O)|].
    + discriminate.
    + constructor; [lia|constructor].
    + exact N1.
    + intros s' (A & [ (d & Ed & Nd & M) | Z ]); cbn beta.
      * rewrite (rd_ok b s' d Ed). cbn [bind]. replace (d =? 0) with false by lia.
        cbn in *. lia.
      * rewrite (rd_ok b s' 0 Z). cbn [bind]. cbn. destruct O as (-> & _). lia.
  - eapply safe_bind; [apply (safe_starts L b O [60; 63] s); [now apply nz|exact H]|].
    intros [|] X; cbn beta iota.
    + specialize (X eq_refl). cbn [length] in X.
      eapply safe_bind; [apply (scan_for_starts L [63; 62] b (s + 2) O)|].
      * discriminate.
      * now apply nz.
      * lia.
      * intros s' (A & [ (d & Ed & Nd & M) | Z ]); cbn beta.
        -- rewrite (rd_ok b s' d Ed). cbn [bind]. replace (d =? 0) with false by lia.
           cbn in *. lia.
        -- rewrite (rd_ok b s' 0 Z). cbn [bind]. cbn. destruct O as (-> & _). lia.
    + eapply safe_bind; [apply (safe_starts L b O [60; 33; 45; 45] s); [now apply nz|exact H]|].
      intros [|] Y; cbn beta iota.
      * specialize (Y eq_refl). cbn [length] in Y.
        eapply safe_bind; [apply (scan_for_starts L [45; 45; 62] b (s + 4) O)|].
        -- discriminate.
        -- now apply nz.
        -- lia.
        -- intros s' (A & [ (d & Ed & Nd & M) | Z ]); cbn beta.
           ++ rewrite (rd_ok b s' d Ed). cbn [bind]. replace (d =? 0) with false by lia.
              cbn in *. lia.
           ++ rewrite (rd_ok b s' 0 Z). cbn [bind]. cbn. destruct O as (-> & _). lia.
      * cbn. destruct O as (-> & _). lia.
Qed.

Lemma ignore_loop_safe L b : okb L b -> forall n s depth, (s < L)%nat -> (L - s <= n)%nat ->
  safe L (fun s' => (s < s' < L)%nat) (ignore_loop n b s depth).
Proof.
  intros O. induction n as [|n IH]; intros s depth H F; [lia|]. cbn [ignore_loop].
  eapply safe_bind; [apply safe_rd; [apply O|exact H]|]. intros c E. cbn beta.
  destruct (N.eqb_spec c 0) as [->|NZ].
  { cbn. destruct O as (-> & _). lia. }
  pose proof (okb_next L b s c O E NZ) as N1.
  eapply safe_bind; [apply (safe_starts L b O [60; 33; 91] s); [now apply nz|exact H]|].
  intros [|] X; cbn beta iota.
  { specialize (X eq_refl). cbn [length] in X.
    eapply safe_imp; [apply IH; lia|]. cbn beta. intros; lia. }
  eapply safe_bind; [apply (safe_starts L b O [93; 93; 62] s); [now apply nz|exact H]|].
  intros [|] Y; cbn beta iota.
  { specialize (Y eq_refl). cbn [length] in Y. destruct depth as [|d].
    - cbn. lia.
    - eapply safe_imp; [apply IH; lia|]. cbn beta. intros; lia. }
  eapply safe_imp; [apply IH; lia|]. cbn beta. intros; lia.
Qed.

Lemma group_loop_safe L b endch : okb L b -> forall n s depth, (s < L)%nat -> (L - s <= n)%nat ->
  safe L (fun s' => (s <= s' < L)%nat /\ (exists c, nth_error b s' = Some c /\ (c = 0 \/ c = 62)))
       (group_loop n endch b s depth).
Proof.
  intros O. induction n as [|n IH]; intros s depth H F; [lia|]. cbn [group_loop].
  eapply safe_bind; [apply safe_rd; [apply O|exact H]|]. intros c E. cbn beta.
  destruct (N.eqb_spec c 0) as [->|NZ].
  { destruct (negb (depth =? 0)%nat || negb (endch =? 62)); cbn.
    - destruct O as (-> & _). lia.
    - split; [lia|]. exists 0. auto. }
  pose proof (okb_next L b s c O E NZ) as N1.
  assert (forall s' d', (s < s' < L)%nat ->
    safe L (fun s' => (s <= s' < L)%nat /\ (exists c, nth_error b s' = Some c /\ (c = 0 \/ c = 62)))
         (group_loop n endch b s' d')) as STEP.
  { intros s' d' H'. eapply safe_imp; [apply IH; lia|]. cbn beta. intros a (A & B). split; [lia|exact B]. }
  eapply safe_bind; [apply (safe_starts L b O [60; 33] s); [now apply nz|exact H]|].
  intros o X. cbn beta.
  eapply safe_bind with (P := fun x => o = true -> nth_error b (s + 2) = Some x).
  { destruct o.
    - specialize (X eq_refl). cbn [length] in X.
      eapply safe_imp; [apply safe_rd; [apply O|exact X]|]. auto.
    - cbn. discriminate. }
  intros x Y. cbn beta.
  destruct (o && negb (x =? 45)) eqn:OX.
  { apply andb_prop in OX. destruct OX as [-> NX]. specialize (X eq_refl). specialize (Y eq_refl).
    cbn [length] in X.
    destruct (N.eqb_spec x 91) as [->|_].
    - pose proof (okb_next L b _ _ O Y ltac:(lia)) as N3.
      eapply safe_bind.
      { unfold doctype_ignore. apply (ignore_loop_safe L b O); [lia|fuel_lia O]. }
      intros s' S'. cbn beta in *. apply STEP. lia.
    - apply STEP. lia. }
  destruct ((c =? 60) || (c =? 34) || (c =? 39)).
  { eapply safe_bind; [apply (doctype_primitive_safe L b s O H)|].
    intros s' S'. cbn beta in *. apply STEP. lia. }
  destruct (N.eqb_spec c 62) as [->|_].
  { destruct depth as [|d].
    - cbn. split; [lia|]. exists 62. auto.
    - apply STEP. lia. }
  apply STEP. lia.
Qed.

(** ** Tags *)

(** the open elements: each has a name inside the buffer, except the document,
    which is the outermost *)
Fixpoint stok (L : nat) (st : list frame) : Prop :=
  match st with
  | [] => False
  | f :: r =>
      match r with
      | [] => f_name f = None
      | _ => (exists nm, f_name f = Some nm /\ (nm < L)%nat) /\ stok L r
      end
  end.

Lemma stok_add_kid L k st : stok L st -> stok L (add_kid k st).
Proof. destruct st as [|f [|p r]]; cbn; auto. Qed.

Lemma stok_add_attr L a st : stok L st -> stok L (add_attr a st).
Proof. destruct st as [|f [|p r]]; cbn; auto. Qed.

Lemma stok_push L s st : stok L st -> (s < L)%nat -> stok L (push_node s st).
Proof.
  intros H S. destruct st as [|f r]; [destruct H|]. cbn [push_node stok f_name].
  split; [exists s; auto|exact H].
Qed.

Definition named_top (st : list frame) : Prop :=
  match st with f :: _ => f_name f <> None | [] => False end.

Lemma named_top_attr a st : named_top st -> named_top (add_attr a st).
Proof. destruct st; cbn; auto. Qed.

Lemma pop_safe L st : stok L st -> named_top st -> safe L (stok L) (pop_node st).
Proof.
  intros S T. destruct st as [|f [|p r]]; [destruct S|contradiction|].
  cbn [pop_node]. cbn in S. destruct S as [(nm & E & _) S]. rewrite E. cbn [safe].
  now apply stok_add_kid.
Qed.

(** what a tag leaves behind *)
Definition goes_on (L s : nat) (b : bytes) : bytes * nat * list frame -> Prop :=
  fun '(b', s', st') => okb L b' /\ (s < s' < L)%nat /\ chg s s' b b' /\ stok L st'.

Lemma exclamation_safe L endch b s st :
  okb L b -> stok L st -> nth_error b s = Some 33 -> (0 < s)%nat ->
  safe L (goes_on L s b) (exclamation endch b s st).
Proof.
  intros O ST E33 P. pose proof (okb_next L b s 33 O E33 ltac:(lia)) as N1.
  assert (length b = L) as LB by apply O.
  unfold exclamation. eapply safe_bind; [apply safe_rd; [apply O|exact N1]|]. intros c E. cbn beta.
  destruct (N.eqb_spec c 45) as [->|N45].
  { pose proof (okb_next L b _ _ O E ltac:(lia)) as N2.
    eapply safe_bind; [apply safe_rd; [apply O|exact N2]|]. intros d Ed. cbn beta.
    destruct (N.eqb_spec d 45) as [->|ND].
    - pose proof (okb_next L b _ _ O Ed ltac:(lia)) as N3.
      eapply safe_bind; [apply (scan_for_end L endch [45; 45] 62 b _ O); [now apply nz|exact N3]|].
      intros s' (A & [ (x & Ex & Nx & M & Z) | Z ]); cbn beta; cbn [length] in *.
      + rewrite (rd_ok b s' x Ex). cbn [bind]. replace (x =? 0) with false by lia.
        destruct (rd_in b (s' + 2)) as (y & Ey & ->); [lia|]. cbn [bind].
        destruct (N.eqb_spec y 62) as [->|NY].
        * pose proof (okb_next L b _ _ O Ey ltac:(lia)) as N4.
          cbn. repeat split; auto; try lia; apply O.
        * cbn. repeat split; auto; try lia; apply O.
      + rewrite (rd_ok b s' 0 Z). cbn [bind]. cbn. lia.
    - cbn. lia. }
  destruct (N.eqb_spec c 91) as [->|N91].
  { pose proof (okb_next L b _ _ O E ltac:(lia)) as N2.
    eapply safe_bind; [apply (safe_chain L b O [67; 68; 65; 84; 65; 91] (S s)); [now apply nz|lia]|].
    intros [m i] (A & B). cbn beta iota. destruct m; [|cbn; lia].
    destruct (B eq_refl) as [B1 B2]. cbn [length] in B1.
    eapply safe_bind.
    { apply (cdata_conv_safe L (S i) endch (fuel b) b no_gap (S i) O); [now apply gapok_no|lia|fuel_lia O]. }
    intros [[s'|] b'] (LB' & R); cbn beta iota.
    - destruct R as (O' & H' & M' & C' & Z').
      eapply safe_bind; [apply safe_rd; [apply O'|exact M']|]. intros y Ey. cbn beta.
      destruct (N.eqb_spec y 62) as [->|NY].
      + pose proof (okb_next L b' _ _ O' Ey ltac:(lia)) as N4.
        cbn. split; [exact O'|]. split; [lia|]. split; [|now apply stok_add_kid].
        eapply chg_weaken; [exact C'|lia|lia].
      + cbn. split; [exact O'|]. split; [lia|]. split; [|now apply stok_add_kid].
        eapply chg_weaken; [exact C'|lia|lia].
    - cbn. lia. }
  eapply safe_bind; [apply (safe_starts_end L b endch 69 O [68; 79; 67; 84; 89; 80] (S s)); [now apply nz|lia]|].
  intros [|] X; cbn beta iota.
  { destruct (X eq_refl) as [X1 _]. cbn [length] in X1.
    destruct (nested st); [cbn; lia|].
    eapply safe_bind.
    { unfold doctype_group. apply (group_loop_safe L b endch O); [lia|fuel_lia O]. }
    intros s' (A & x & Ex & Hx). cbn beta.
    assert (s < s')%nat by lia.
    rewrite (rd_ok b s' x Ex). cbn [bind]. destruct (N.eqb_spec x 0) as [->|NX].
    - cbn. split; [exact O|]. split; [lia|]. split; [apply chg_refl|exact ST].
    - pose proof (okb_next L b _ _ O Ex NX) as N4.
      rewrite wr_ok by lia. cbn. split; [apply okb_upd; auto|]. split; [lia|]. split; [|exact ST].
      eapply chg_weaken; [apply chg_upd; lia|lia|lia]. }
  destruct ((c =? 0) && (endch =? 45)); [cbn; lia|].
  destruct ((c =? 0) && (endch =? 91)); cbn; lia.
Qed.

Lemma question_safe L endch b s :
  okb L b -> nth_error b s = Some 63 ->
  safe L (fun s' => (s < s' < L)%nat) (question endch b s).
Proof.
  intros O E63. pose proof (okb_next L b s 63 O E63 ltac:(lia)) as N1.
  assert (length b = L) as LB by apply O.
  unfold question. eapply safe_bind; [apply safe_rd; [apply O|exact N1]|]. intros c E. cbn beta.
  destruct (negb (is_type ct_start_symbol c)); [cbn; lia|].
  eapply safe_bind; [apply (scan_safe L (is_type ct_symbol) b (S s) O eq_refl N1)|].
  intros s1 (A & c1 & E1 & _). cbn beta. rewrite (rd_ok b s1 c1 E1). cbn [bind].
  destruct (N.eqb_spec c1 0) as [->|NZ]; [cbn; lia|].
  eapply safe_bind; [apply (scan_for_end L endch [63] 62 b s1 O); [now apply nz|lia]|].
  intros s2 (A2 & [ (x & Ex & Nx & M & _) | Z ]); cbn beta; cbn [length] in *.
  - rewrite (rd_ok b s2 x Ex). cbn [bind]. replace (x =? 0) with false by lia.
    destruct (rd_in b (S s2)) as (y & Ey & ->); [lia|]. cbn [bind].
    destruct (N.eqb_spec y 62) as [->|NY].
    + pose proof (okb_next L b _ _ O Ey ltac:(lia)) as N4. cbn. lia.
    + cbn. lia.
  - rewrite (rd_ok b s2 0 Z). cbn [bind]. cbn. lia.
Qed.

Lemma start_is_symbol c : is_type ct_start_symbol c = true -> is_type ct_symbol c = true.
Proof.
  unfold is_type. set (x := nth (N.to_nat c) chartype_table 192).
  assert (forallb (fun x => (N.land x ct_start_symbol =? 0) || negb (N.land x ct_symbol =? 0))
                  (192 :: chartype_table) = true) as A by (vm_compute; reflexivity).
  assert (In x (192 :: chartype_table)) as I.
  { destruct (nth_in_or_default (N.to_nat c) chartype_table 192) as [I|I].
    - right. exact I.
    - left. symmetry. exact I. }
  rewrite forallb_forall in A. specialize (A x I). cbn beta in A. lia.
Qed.

Lemma attributes_safe L endch : forall n b s st,
  okb L b -> stok L st -> named_top st -> (s < L)%nat -> (L - s <= n)%nat ->
  safe L (fun '(b', s', st') => okb L b' /\ (s <= s' < L)%nat /\ chg s s' b b' /\ stok L st')
       (attributes n endch b s st).
Proof.
  induction n as [|n IH]; intros b s st O ST NT H F; [lia|]. cbn [attributes].
  eapply safe_bind; [apply (safe_skip_ws L b s O H)|].
  intros s1 (A1 & (c & E & _) & _). cbn beta. rewrite (rd_ok b s1 c E). cbn [bind].
  assert (length b = L) as LB by apply O.
  destruct (is_type ct_start_symbol c) eqn:SS.
  { pose proof (start_is_symbol c SS) as SY.
    eapply safe_bind.
    { apply (safe_scan_while L (is_type ct_symbol) b O eq_refl (fuel b) s1); [lia|fuel_lia O]. }
    intros s2 (A2 & (ch & Eh & _) & ADV). specialize (ADV c E SY). cbn beta.
    rewrite (rd_ok b s2 ch Eh). cbn [bind]. rewrite wr_ok by lia. cbn [bind].
    pose proof (okb_upd0 L b s2 O ltac:(lia)) as O2.
    pose proof (chg_upd b s2 0 ltac:(lia)) as C2.
    assert (length (upd b s2 0) = L) as LB2 by apply O2.
    eapply safe_bind with
      (P := fun '(ch', s') => (s2 < s' <= L)%nat /\ (ch' <> 0 -> (s' < L)%nat)).
    { destruct (is_type ct_space ch) eqn:SP.
      - assert (ch <> 0) as NZ by (intros ->; discriminate).
        pose proof (okb_next L b s2 ch O Eh NZ) as N2.
        eapply safe_bind; [apply (safe_skip_ws L (upd b s2 0) (S s2) O2); lia|].
        intros s3 (A3 & (d & Ed & _) & _). cbn beta. rewrite (rd_ok _ s3 d Ed). cbn [bind safe].
        split; [lia|]. intros ND. exact (okb_next L _ s3 d O2 Ed ND).
      - cbn [safe]. split; [lia|]. intros ND. exact (okb_next L b s2 ch O Eh ND). }
    intros [ch' s3] (A3 & M3). cbn beta iota.
    destruct (N.eqb_spec ch' 61) as [->|_]; [|cbn; lia].
    specialize (M3 ltac:(lia)).
    eapply safe_bind; [apply (safe_skip_ws L (upd b s2 0) s3 O2 M3)|].
    intros s4 (A4 & (q & Eq & _) & _). cbn beta. rewrite (rd_ok _ s4 q Eq). cbn [bind].
    destruct ((q =? 34) || (q =? 39)) eqn:Q; [|cbn; lia].
    pose proof (okb_next L _ s4 q O2 Eq ltac:(lia)) as N4.
    eapply safe_bind.
    { apply (attr_conv_safe L q (S s4) ltac:(lia) (fuel (upd b s2 0)) (upd b s2 0) no_gap (S s4) O2);
        [now apply gapok_no|lia|fuel_lia O2]. }
    intros [[s5|] b5] (LB5 & R); cbn beta iota; [|cbn; lia].
    destruct R as (O5 & H5 & C5).
    eapply safe_bind; [apply safe_rd; [apply O5|lia]|]. intros x Ex. cbn beta.
    destruct (is_type ct_start_symbol x); [cbn; lia|].
    eapply safe_imp.
    { apply (IH b5 s5 (add_attr (s1, S s4) st) O5); [now apply stok_add_attr|now apply named_top_attr|lia|lia]. }
    intros [[b6 s6] st6] (O6 & H6 & C6 & S6). split; [exact O6|]. split; [lia|]. split; [|exact S6].
    eapply chg_trans; [eapply chg_weaken; [exact C2|lia|lia]|].
    eapply chg_trans; [eapply chg_weaken; [exact C5|lia|lia]|].
    eapply chg_weaken; [exact C6|lia|lia]. }
  destruct (N.eqb_spec c 47) as [->|_].
  { pose proof (okb_next L b s1 47 O E ltac:(lia)) as N1.
    eapply safe_bind; [apply safe_rd; [apply O|exact N1]|]. intros x Ex. cbn beta.
    destruct (N.eqb_spec x 62) as [->|_].
    - pose proof (okb_next L b _ _ O Ex ltac:(lia)) as N2.
      eapply safe_bind; [apply (pop_safe L st ST NT)|]. intros st' S'. cbn.
      split; [exact O|]. split; [lia|]. split; [apply chg_refl|exact S'].
    - destruct ((x =? 0) && (endch =? 62)); [|cbn; lia].
      eapply safe_bind; [apply (pop_safe L st ST NT)|]. intros st' S'. cbn.
      split; [exact O|]. split; [lia|]. split; [apply chg_refl|exact S']. }
  destruct (N.eqb_spec c 62) as [->|_].
  { pose proof (okb_next L b _ _ O E ltac:(lia)) as N2. cbn.
    split; [exact O|]. split; [lia|]. split; [apply chg_refl|exact ST]. }
  destruct ((c =? 0) && (endch =? 62)); cbn; [|lia].
  split; [exact O|]. split; [lia|]. split; [apply chg_refl|exact ST].
Qed.

Lemma match_name_safe L b : okb L b -> forall n s name,
  (s < L)%nat -> (name < L)%nat -> (L - s <= n)%nat ->
  safe L (fun o => match o with
                   | None => True
                   | Some (s', name') => (s <= s' < L)%nat /\ (name' < L)%nat
                   end) (match_name n b s name).
Proof.
  intros O. induction n as [|n IH]; intros s name H N F; [lia|]. cbn [match_name].
  eapply safe_bind; [apply safe_rd; [apply O|exact H]|]. intros c E. cbn beta.
  destruct (is_type ct_symbol c) eqn:SY.
  - assert (c <> 0) as NZ by (intros ->; discriminate).
    eapply safe_bind; [apply safe_rd; [apply O|exact N]|]. intros d Ed. cbn beta.
    destruct (N.eqb_spec c d) as [->|ND]; [|exact I].
    pose proof (okb_next L b s d O E NZ). pose proof (okb_next L b name d O Ed NZ).
    eapply safe_imp; [apply IH; lia|]. intros [[s' name']|]; [|auto]. lia.
  - cbn. lia.
Qed.

Lemma end_tag_safe L endch b s st :
  okb L b -> stok L st -> (s < L)%nat ->
  safe L (fun '(b', s', st') => okb L b' /\ (s <= s' < L)%nat /\ chg s s' b b' /\ stok L st')
       (end_tag endch b s st).
Proof.
  intros O ST H. assert (length b = L) as LB by apply O. unfold end_tag.
  destruct st as [|f r] eqn:EST; [destruct ST|].
  destruct (f_name f) as [name|] eqn:FN; [|cbn; lia].
  assert (name < L)%nat as NL.
  { cbn in ST. destruct r; [congruence|]. destruct ST as [(nm & E & Q) _]. congruence. }
  eapply safe_bind; [apply (match_name_safe L b O); [exact H|exact NL|fuel_lia O]|].
  intros [[s1 n1]|]; cbn beta iota; [|cbn; lia]. intros (A & B).
  destruct (rd_in b n1) as (x & Ex & ->); [lia|]. cbn [bind].
  destruct (N.eqb_spec x 0) as [->|NX]; cbn [negb].
  - eapply safe_bind; [apply (pop_safe L (f :: r) ST)|].
    { cbn. congruence. }
    intros st' S'. cbn beta.
    eapply safe_bind; [apply (safe_skip_ws L b s1 O); lia|].
    intros s2 (A2 & (c & Ec & _) & _). cbn beta. rewrite (rd_ok b s2 c Ec). cbn [bind].
    destruct (N.eqb_spec c 0) as [->|NC].
    + destruct (negb (endch =? 62)); cbn; [lia|].
      split; [exact O|]. split; [lia|]. split; [apply chg_refl|exact S'].
    + destruct (N.eqb_spec c 62) as [->|N62]; cbn [negb]; [|cbn; lia].
      pose proof (okb_next L b _ _ O Ec ltac:(lia)) as N2. cbn.
      split; [exact O|]. split; [lia|]. split; [apply chg_refl|exact S'].
  - destruct (rd_in b s1) as (c & Ec & ->); [lia|]. cbn [bind].
    eapply safe_bind with (P := fun _ => True).
    { destruct ((c =? 0) && (x =? endch)); [|exact I].
      pose proof (okb_next L b _ _ O Ex NX) as N2.
      eapply safe_imp; [apply safe_rd; [apply O|exact N2]|auto]. }
    intros y _. cbn beta. destruct ((c =? 0) && (x =? endch) && (y =? 0)); cbn; lia.
Qed.

Lemma tag_safe L endch b s st :
  okb L b -> stok L st -> (0 < s)%nat -> (s < L)%nat ->
  safe L (goes_on L s b) (tag endch b s st).
Proof.
  intros O ST P H. assert (length b = L) as LB by apply O. unfold tag.
  destruct (rd_in b s) as (c & E & ->); [lia|]. cbn [bind].
  destruct (is_type ct_start_symbol c) eqn:SS.
  { pose proof (start_is_symbol c SS) as SY.
    eapply safe_bind.
    { apply (safe_scan_while L (is_type ct_symbol) b O eq_refl (fuel b) s); [lia|fuel_lia O]. }
    intros s2 (A2 & (ch & Eh & _) & ADV). specialize (ADV c E SY). cbn beta.
    rewrite (rd_ok b s2 ch Eh). cbn [bind]. rewrite wr_ok by lia. cbn [bind].
    pose proof (okb_upd0 L b s2 O ltac:(lia)) as O2.
    pose proof (chg_upd b s2 0 ltac:(lia)) as C2.
    assert (length (upd b s2 0) = L) as LB2 by apply O2.
    pose proof (stok_push L s st ST H) as ST2.
    assert (named_top (push_node s st)) as NT by (cbn; congruence).
    destruct (N.eqb_spec ch 62) as [->|_].
    { pose proof (okb_next L b _ _ O Eh ltac:(lia)) as N2. cbn.
      split; [exact O2|]. split; [lia|]. split; [|exact ST2].
      eapply chg_weaken; [exact C2|lia|lia]. }
    destruct (is_type ct_space ch) eqn:SP.
    { assert (ch <> 0) as NZ by (intros ->; discriminate).
      pose proof (okb_next L b _ _ O Eh NZ) as N2.
      eapply safe_imp; [apply (attributes_safe L endch (fuel (upd b s2 0)) _ (S s2) _ O2 ST2 NT);
                        [lia|fuel_lia O2]|].
      intros [[b' s'] st'] (O' & H' & C' & S'). cbn. split; [exact O'|]. split; [lia|].
      split; [|exact S'].
      eapply chg_trans; [eapply chg_weaken; [exact C2|lia|lia]|].
      eapply chg_weaken; [exact C'|lia|lia]. }
    destruct (N.eqb_spec ch 47) as [->|_].
    { pose proof (okb_next L b _ _ O Eh ltac:(lia)) as N2.
      eapply safe_bind; [apply safe_rd; [apply O2|exact N2]|]. intros x Ex. cbn beta.
      destruct (negb (endswith endch x 62)) eqn:EW; [cbn; lia|].
      eapply safe_bind; [apply (pop_safe L _ ST2 NT)|]. intros st' S'. cbn beta.
      destruct (N.eqb_spec x 62) as [->|_].
      - pose proof (okb_next L _ _ _ O2 Ex ltac:(lia)) as N3. cbn.
        split; [exact O2|]. split; [lia|]. split; [|exact S'].
        eapply chg_weaken; [exact C2|lia|lia].
      - cbn. split; [exact O2|]. split; [lia|]. split; [|exact S'].
        eapply chg_weaken; [exact C2|lia|lia]. }
    destruct (N.eqb_spec ch 0) as [->|_].
    { destruct (negb (endch =? 62)); cbn; [lia|].
      split; [exact O2|]. split; [lia|]. split; [|exact ST2]. now apply chg_upd_same. }
    cbn. lia. }
  destruct (N.eqb_spec c 47) as [->|_].
  { pose proof (okb_next L b _ _ O E ltac:(lia)) as N2.
    eapply safe_imp; [apply (end_tag_safe L endch b (S s) st O ST N2)|].
    intros [[b' s'] st'] (O' & H' & C' & S'). cbn. split; [exact O'|]. split; [lia|].
    split; [eapply chg_weaken; [exact C'|lia|lia]|exact S']. }
  destruct (N.eqb_spec c 63) as [->|_].
  { eapply safe_bind; [apply (question_safe L endch b s O E)|]. intros s' S'. cbn beta in *.
    cbn. split; [exact O|]. split; [lia|]. split; [apply chg_refl|exact ST]. }
  destruct (N.eqb_spec c 33) as [->|_].
  { now apply exclamation_safe. }
  destruct ((c =? 0) && (endch =? 63)); cbn; lia.
Qed.

Lemma tree_safe L endch : forall n b s st in_tag,
  okb L b -> stok L st -> (s < L)%nat -> (in_tag = true -> (0 < s)%nat) -> (L - s <= n)%nat ->
  safe L (fun '(b', s', st') => okb L b' /\ (s <= s' < L)%nat /\ chg s s' b b' /\ stok L st')
       (tree n endch b s st in_tag).
Proof.
  induction n as [|n IH]; intros b s st in_tag O ST H P F; [lia|]. cbn [tree].
  assert (length b = L) as LB by apply O.
  assert (forall b' s' st' t', okb L b' -> stok L st' -> (s < s' < L)%nat -> chg s s' b b' ->
            safe L (fun '(b'', s'', st'') => okb L b'' /\ (s <= s'' < L)%nat /\ chg s s'' b b'' /\ stok L st'')
                 (tree n endch b' s' st' t')) as STEP.
  { intros b' s' st' t' O' S' H' C'. eapply safe_imp; [apply (IH b' s' st' t' O' S'); lia|].
    intros [[b'' s''] st''] (O'' & H'' & C'' & S''). split; [exact O''|]. split; [lia|].
    split; [|exact S''].
    eapply chg_trans; [eapply chg_weaken; [exact C'|lia|lia]|].
    eapply chg_weaken; [exact C''|lia|lia]. }
  destruct in_tag.
  - eapply safe_bind; [apply (tag_safe L endch b s st O ST (P eq_refl) H)|].
    intros [[b' s'] st'] (O' & H' & C' & S'). cbn beta iota. now apply STEP.
  - destruct (rd_in b s) as (c & E & ->); [lia|]. cbn [bind].
    destruct (N.eqb_spec c 0) as [->|NZ].
    { cbn. split; [exact O|]. split; [lia|]. split; [apply chg_refl|exact ST]. }
    pose proof (okb_next L b s c O E NZ) as N1.
    destruct (N.eqb_spec c 60) as [->|N60].
    { apply STEP; [exact O|exact ST|lia|apply chg_refl]. }
    eapply safe_bind; [apply (safe_skip_ws L b s O H)|].
    intros s1 (A1 & (c1 & E1 & W1) & ADV). cbn beta. rewrite (rd_ok b s1 c1 E1). cbn [bind].
    destruct ((c1 =? 60) || (c1 =? 0)) eqn:C1.
    { apply STEP; [exact O|exact ST| |apply chg_refl].
      destruct (Nat.eq_dec s s1) as [<-|]; [|lia].
      assert (c1 = c) by congruence. subst c1. lia. }
    destruct (nested st).
    + eapply safe_bind.
      { apply (pcdata_conv_safe L s (fuel b) b no_gap s O); [now apply gapok_no|lia|fuel_lia O]. }
      intros [b2 s2] (O2 & H2 & C2 & ADV2). specialize (ADV2 c E NZ). cbn beta iota.
      eapply safe_bind; [apply safe_rd; [apply O2|lia]|]. intros x Ex. cbn beta.
      destruct (x =? 0).
      * cbn. split; [exact O2|]. split; [lia|]. split; [exact C2|now apply stok_add_kid].
      * apply STEP; [exact O2|now apply stok_add_kid|lia|exact C2].
    + eapply safe_bind; [apply (scan_for_starts L [60] b s O); [discriminate|now apply nz|lia]|].
      intros s2 (A2 & [ (x & Ex & Nx & M) | Z ]); cbn beta; cbn [length] in *.
      * rewrite (rd_ok b s2 x Ex). cbn [bind]. replace (x =? 0) with false by lia.
        apply STEP; [exact O|exact ST|lia|apply chg_refl].
      * rewrite (rd_ok b s2 0 Z). cbn [bind]. cbn.
        split; [exact O|]. split; [lia|]. split; [apply chg_refl|exact ST].
Qed.

Lemma parse_safe b :
  safe (length b) (fun '(b', kids) => length b' = length b) (parse b).
Proof.
  unfold parse. destruct (length b) as [|last] eqn:LB; [cbn; lia|].
  destruct (rd_in b last) as (endch & Ee & ->); [lia|]. cbn [bind].
  rewrite wr_ok by lia. cbn [bind].
  assert (okb (S last) (upd b last 0)) as O.
  { split; [rewrite upd_length; lia|]. split; [lia|].
    replace (S last - 1)%nat with last by lia. apply upd_eq. lia. }
  eapply safe_bind with (P := fun s => (s < S last)%nat).
  { unfold skip_bom. eapply safe_bind.
    - apply (safe_starts (S last) (upd b last 0) O [239; 187; 191] 0); [now apply nz|lia].
    - intros [|] X; cbn.
      + specialize (X eq_refl). cbn [length] in X. lia.
      + lia. }
  intros s H. cbn beta.
  assert (safe (S last) (fun '(b', kids) => length b' = S last) (parse_tree endch (upd b last 0) s)) as T.
  { unfold parse_tree. eapply safe_bind.
    - apply (tree_safe (S last) endch (fuel (upd b last 0)) _ s [root] false O);
        [reflexivity|exact H|discriminate|fuel_lia O].
    - intros [[b' s'] st'] (O' & H' & C' & S'). cbn beta iota.
      assert (length b' = S last) by apply O'.
      destruct st' as [|f [|g r]]; cbn; lia. }
  destruct (parse_tree endch (upd b last 0) s) as [[b' kids]|st off b'| |]; cbn [safe] in T |- *; auto.
  - destruct (endch =? 60); [cbn; lia|]. destruct (negb (existsb is_elem kids)); cbn; lia.
  - destruct T as [T1 T2]. split; [|exact T2].
    destruct (((0 <? off) && (off =? last))%nat && (endch =? 0)); lia.
Qed.
