(** C113: opening address files, local ones and by HTTP. *)
From Coq Require Import NArith ZArith List Bool Lia ZifyBool ZifyN ZifyNat PeanoNat.
From Verif Require Import Files FilesSpec.
Import ListNotations.
Open Scope N_scope.

(** ** The stream *)
Lemma read_n_spec n : forall s b full r, read_n n s = (b, full, r) ->
  b ++ concat r = concat s /\ (if full then List.length b = n else (List.length b < n)%nat /\ r = []).
Proof.
  intros s. revert n. induction s as [|p s IH]; intros [|n] b full r H; cbn [read_n] in H; try (injection H as <- <- <-; cbn; split; [reflexivity|lia]).
  - injection H as <- <- <-. cbn. split; [reflexivity|]. split; [lia|reflexivity].
  - destruct (Nat.ltb_spec (S n) (List.length p)) as [L|L].
    + assert (Q : b = firstn (S n) p /\ full = true /\ r = skipn (S n) p :: s) by (repeat split; congruence). destruct Q as (-> & -> & ->). cbn [concat]. rewrite app_assoc, firstn_skipn. split; [reflexivity|]. rewrite firstn_length. lia.
    + destruct (read_n (S n - List.length p) s) as [[b' f'] r'] eqn:E. injection H as <- <- <-. apply IH in E. destruct E as [E1 E2].
      cbn [concat]. rewrite <- app_assoc, E1, app_length. split; [reflexivity|]. destruct f'; [lia|]. destruct E2; split; [lia|assumption].
Qed.
Lemma put_at_len buf i b : (i + List.length b <= List.length buf)%nat -> List.length (put_at buf i b) = List.length buf.
Proof. intros H. unfold put_at. rewrite !app_length, firstn_length, skipn_length. lia. Qed.
Lemma put_at_first buf i b : (i <= List.length buf)%nat -> firstn (i + List.length b) (put_at buf i b) = firstn i buf ++ b.
Proof.
  intros H. unfold put_at. rewrite app_assoc, firstn_app. replace (i + List.length b)%nat with (List.length (firstn i buf ++ b)) by (rewrite app_length, firstn_length; lia).
  rewrite Nat.sub_diag, firstn_all. cbn. apply app_nil_r.
Qed.
Lemma loop_spec blk e : (0 < blk)%nat -> forall fuel buf size s, List.length buf = (size + blk)%nat -> (List.length (concat s) / blk < fuel)%nat ->
  read_loop blk fuel buf size s e = match e with FEof => RGot (firstn size buf ++ concat s) | FErr => RFail end.
Proof.
  intros B. induction fuel as [|fuel IH]; intros buf size s L F; [destruct (Nat.nlt_0_r _ F)|]. cbn [read_loop].
  destruct (Nat.ltb_spec (List.length buf) (size + blk)); [lia|]. destruct (read_n blk s) as [[b full] r] eqn:E. apply read_n_spec in E. destruct E as [E1 E2].
  destruct full.
  - assert (LP : List.length (put_at buf size b) = List.length buf) by (apply put_at_len; lia).
    rewrite IH.
    + rewrite <- E1, app_assoc. destruct e; [|reflexivity]. f_equal. f_equal. rewrite firstn_app.
      replace (size + List.length b - List.length (put_at buf size b))%nat with 0%nat by lia. cbn [firstn]. rewrite app_nil_r. apply put_at_first. lia.
    + rewrite app_length, repeat_length, LP. lia.
    + rewrite <- E1, app_length, E2 in F. replace (blk + List.length (concat r))%nat with (List.length (concat r) + 1 * blk)%nat in F by lia. rewrite Nat.div_add, Nat.add_1_r in F by (clear F; lia). apply Nat.succ_lt_mono. exact F.
  - destruct E2 as [E2 ->]. cbn [concat] in E1. rewrite app_nil_r in E1. subst b. destruct e; [|reflexivity]. f_equal. apply put_at_first. lia.
Qed.

(** What HttpGet does with the bytes received. *)
Definition judge (info : bool) (b : bytes) : got :=
  let p := response b in
  if info && (negb (p_version p) || match p_status p with None => true | _ => false end) then GUnset
  else if same (p_method p) HTTP then match p_status p with None => GUnset | Some v => if (v =? 200)%Z then GTrue p else GFalse end
  else GFalse.
Lemma get_spec blk info url n : (0 < blk)%nat -> n_name n = true -> n_conn n = true -> n_write n = true ->
  http_get blk info url n = ([request (fst (split_url url)) (snd (split_url url))], match n_fin n with FEof => judge info (concat (n_pieces n)) | FErr => GFalse end).
Proof.
  intros B H1 H2 H3. unfold http_get. destruct (split_url url) as [h q]. rewrite H1, H2, H3. cbn [negb fst snd].
  rewrite (loop_spec blk (n_fin n) B) by (rewrite ?repeat_length; lia). cbn [firstn app]. destruct (n_fin n); reflexivity.
Qed.

(** ** The parts of a reply *)
Lemma white_b c : is_space c = true <-> white c.
Proof. unfold is_space, white. lia. Qed.
Lemma white_f c : ~ white c -> is_space c = false.
Proof. unfold is_space, white. lia. Qed.
Lemma skip_id c l : ~ white c -> skip (c :: l) = c :: l.
Proof. intros H. cbn. rewrite (white_f _ H). reflexivity. Qed.
Lemma skip_stripped b : stripped b (skip b).
Proof.
  induction b as [|c b (w & E & W & S)]; [exists []; cbn; auto|]. cbn [skip]. destruct (is_space c) eqn:K.
  - exists (c :: w). split; [cbn; congruence|]. split; [constructor; [apply white_b; exact K|exact W]|exact S].
  - exists []. split; [reflexivity|]. split; [constructor|]. intros H. apply white_b in H. congruence.
Qed.
Lemma stripped_unique b c d : stripped b c -> stripped b d -> c = d.
Proof.
  intros (w & E & W & S) (v & F & V & T). subst b. revert v F V. induction W as [|x w X W IH]; intros v F V.
  - destruct v as [|y v]; [exact F|]. cbn in F. subst c. inversion V; subst. contradiction.
  - destruct V as [|y v Y V].
    + cbn in F. subst d. contradiction.
    + injection F as <- F. apply (IH v); assumption.
Qed.
Lemma digit_b c : digit c -> is_digit c = true.
Proof. unfold digit, is_digit. lia. Qed.
Lemma digits_spec d : Forall digit d -> forall r, match r with c :: _ => is_digit c = false | [] => True end -> digits (d ++ r) = (d, r).
Proof.
  induction 1 as [|c d C D IH]; intros r R; cbn [app digits].
  - destruct r as [|c r]; [reflexivity|]. cbn. rewrite R. reflexivity.
  - rewrite (digit_b _ C), IH by exact R. reflexivity.
Qed.
Lemma sign_digit c l : digit c -> sign (c :: l) = (false, c :: l).
Proof. intros H. unfold sign. unfold digit in H. replace (c =? 45) with false by lia. replace (c =? 43) with false by lia. reflexivity. Qed.
Lemma real_number a b r : number a -> number b -> real (a ++ [46] ++ b ++ 32 :: r) = Some (32 :: r).
Proof.
  intros [N1 A] [N2 B]. unfold real. destruct a as [|c a]; [congruence|]. inversion A as [|? ? C A']; subst.
  cbn [app]. rewrite (sign_digit c _ C). cbn [snd]. change (c :: a ++ 46 :: b ++ 32 :: r) with ((c :: a) ++ 46 :: b ++ 32 :: r).
  rewrite (digits_spec _ A) by reflexivity. cbn [N.eqb Pos.eqb]. rewrite (digits_spec _ B) by reflexivity. reflexivity.
Qed.
Lemma int_three x y z r : digit x -> digit y -> digit z ->
  int32 ([x; y; z] ++ 32 :: r) = Some (((Z.of_N x - 48) * 100 + (Z.of_N y - 48) * 10 + (Z.of_N z - 48))%Z, 32 :: r).
Proof.
  intros X Y W. unfold int32. cbn [app]. rewrite (sign_digit x _ X). change (x :: y :: z :: 32 :: r) with ([x; y; z] ++ 32 :: r).
  rewrite (digits_spec [x; y; z]); [|repeat (apply Forall_cons; [assumption|]); apply Forall_nil|reflexivity]. cbn [value fold_left]. unfold digit in *.
  match goal with |- (if ?b then _ else _) = _ => replace b with true by lia end. f_equal. f_equal. lia.
Qed.
Lemma upto_line l r : Forall (fun c => c <> 13) l -> upto CRLF (l ++ eol ++ r) = (l, eol ++ r).
Proof.
  induction 1 as [|c l C L IH]; [reflexivity|]. cbn [app]. cbn [upto]. replace (starts CRLF (c :: l ++ eol ++ r)) with false; [rewrite IH; reflexivity|].
  unfold CRLF. cbn [starts]. replace (13 =? c) with false by lia. reflexivity.
Qed.
Lemma upto_line2 l r : Forall (fun c => c <> 13) l -> upto (CRLF ++ CRLF) (l ++ r) = let (a, b) := upto (CRLF ++ CRLF) r in (l ++ a, b).
Proof.
  induction 1 as [|c l C L IH]; [cbn [app]; destruct (upto _ r); reflexivity|]. cbn [app upto]. replace (starts _ (c :: l ++ r)) with false; [rewrite IH; destruct (upto _ r); reflexivity|].
  unfold CRLF. cbn [app starts]. replace (13 =? c) with false by lia. reflexivity.
Qed.
Lemma upto_cons p c t : starts p (c :: t) = false -> upto p (c :: t) = let (a, r) := upto p t in (c :: a, r).
Proof. intros H. cbn [upto]. rewrite H. reflexivity. Qed.
Lemma upto_headers hs : hs <> [] -> Forall line hs -> forall r, exists h, upto (CRLF ++ CRLF) (lines hs ++ eol ++ r) = (h, eol ++ eol ++ r) /\ h <> [].
Proof.
  intros N L. induction L as [|l hs [L1 L2] L IH]; [congruence|]. intros r. unfold lines. cbn [map concat]. fold (lines hs). rewrite <- !app_assoc, (upto_line2 l _ L1).
  destruct hs as [|l2 hs].
  - cbn. exists l. rewrite app_nil_r. split; [reflexivity|]. destruct l; [contradiction|discriminate].
  - destruct (IH ltac:(discriminate) r) as (h & E & H). unfold lines in E |- *. cbn [map concat] in E |- *. fold (lines hs) in E |- *.
    inversion L as [|? ? [K1 K2] _]; subst. destruct l2 as [|c l2]; [contradiction|].
    assert (C : c <> 13) by (inversion K1; assumption).
    change (eol ++ (((c :: l2) ++ eol) ++ lines hs) ++ eol ++ r) with (13 :: 10 :: (((c :: l2) ++ eol) ++ lines hs) ++ eol ++ r).
    assert (U : upto (CRLF ++ CRLF) (13 :: 10 :: (((c :: l2) ++ eol) ++ lines hs) ++ eol ++ r) = let (a, b) := upto (CRLF ++ CRLF) ((((c :: l2) ++ eol) ++ lines hs) ++ eol ++ r) in (13 :: 10 :: a, b)).
    { rewrite upto_cons; [rewrite upto_cons; [destruct (upto _ ((((c :: l2) ++ eol) ++ lines hs) ++ eol ++ r)); reflexivity|reflexivity]|].
      unfold CRLF. cbn [app starts]. replace (13 =? c) with false by lia. reflexivity. }
    rewrite U. match goal with |- context [upto ?p ?x] => replace (upto p x) with (h, eol ++ eol ++ r) by (symmetry; exact E) end.
    eexists. split; [reflexivity|]. destruct l; discriminate.
Qed.

Lemma response_reply a b x y z reason hs body : number a -> number b -> digit x -> digit y -> digit z -> line reason -> hs <> [] -> Forall line hs ->
  exists h, response (reply a b [x; y; z] reason hs body) = mkResp HTTP true (Some ((Z.of_N x - 48) * 100 + (Z.of_N y - 48) * 10 + (Z.of_N z - 48))%Z) reason h (skip body).
Proof.
  intros A B X Y W [R1 R2] HN H. destruct (upto_headers hs HN H body) as (h & U & HH). exists h.
  unfold reply, response. cbn [app upto_slash is_space N.leb N.compare Pos.compare Pos.compare_cont andb orb N.eqb Pos.eqb].
  cbn [skip is_space N.leb N.compare Pos.compare Pos.compare_cont andb orb N.eqb Pos.eqb].
  assert (SA : forall l, skip (a ++ l) = a ++ l).
  { intros l. destruct A as [AN A]. destruct a as [|c a]; [congruence|]. apply skip_id. inversion A as [|? ? C _]; subst. unfold digit, white in *. lia. }
  rewrite SA. change (a ++ 46 :: b ++ 32 :: x :: y :: z :: 32 :: ?r) with (a ++ [46] ++ b ++ 32 :: ([x; y; z] ++ 32 :: r)). rewrite (real_number a b _ A B).
  assert (SX : forall l, skip (32 :: [x; y; z] ++ l) = [x; y; z] ++ l).
  { intros l. change (skip (32 :: [x; y; z] ++ l)) with (skip (x :: [y; z] ++ l)). apply skip_id. unfold digit, white in *. lia. }
  rewrite SX, (int_three x y z _ X Y W). unfold sequence at 1.
  destruct reason as [|c reason]; [contradiction|].
  assert (SR : forall l, skip (32 :: (c :: reason) ++ l) = (c :: reason) ++ l).
  { intros l. change (skip (32 :: (c :: reason) ++ l)) with (skip (c :: reason ++ l)). apply skip_id. exact R2. }
  rewrite SR, (upto_line _ _ R1). change (skipn (List.length CRLF) (eol ++ ?l)) with l. unfold sequence.
  assert (SH : skip (lines hs ++ eol ++ body) = lines hs ++ eol ++ body).
  { destruct H as [|l hs' [L1 L2] _]; [congruence|]. destruct l as [|d l]; [contradiction|]. unfold lines. cbn [map concat app]. apply skip_id. exact L2. }
  rewrite SH, U. destruct h as [|d h]; [congruence|]. reflexivity.
Qed.

Lemma same_spec a : forall b, same a b = true <-> a = b.
Proof.
  induction a as [|x a IH]; intros [|y b]; cbn; try (split; congruence). rewrite andb_true_iff, IH. split.
  - intros [E ->]. apply N.eqb_eq in E. congruence.
  - intros E. injection E as -> ->. rewrite N.eqb_refl. auto.
Qed.
Lemma plain_filter l : plain l -> filter (fun c => negb (is_space c)) l = l.
Proof. induction 1 as [|c l C L IH]; [reflexivity|]. cbn. rewrite (white_f _ C). cbn. congruence. Qed.
Lemma split_spec host path : host_ok host -> plain path -> split_url (host ++ 47 :: path) = (host, path).
Proof.
  intros (N & P & S) Q. unfold split_url.
  assert (U : upto_slash (host ++ 47 :: path) = (host, 47 :: path)).
  { clear N. induction P as [|c l C L IH]; [reflexivity|]. inversion S as [|? ? S1 S2]; subst. cbn [app upto_slash]. rewrite (white_f _ C), IH by exact S2. replace (c =? 47) with false by lia. reflexivity. }
  rewrite U. destruct host as [|c host]; [congruence|]. rewrite skip_id by (unfold white; lia). cbn [N.eqb Pos.eqb]. rewrite (plain_filter _ Q). reflexivity.
Qed.

(** C113 (HTTP): a web server that answers with a status line, headers and a body, in whatever
    pieces this arrives: the right request was sent; if the status is 200, the callback is
    called once, with the body (without white space that it begins with), else it is not
    called and CannotOpenFile is thrown. *)
Theorem C113_http blk info n host path a b x y z reason hs body :
  (0 < blk)%nat -> host_ok host -> plain path ->
  n_name n = true -> n_conn n = true -> n_write n = true -> n_fin n = FEof ->
  number a -> number b -> digit x -> digit y -> digit z -> line reason -> hs <> [] -> Forall line hs ->
  concat (n_pieces n) = reply a b [x; y; z] reason hs body ->
  let url := host ++ 47 :: path in
  fst (http_get blk info url n) = [ask host path] /\
  ([x; y; z] = [50; 48; 48] -> exists c, stripped body c /\ open_http blk info url n = ([(url, c)], EDone)) /\
  ([x; y; z] <> [50; 48; 48] -> open_http blk info url n = ([], ECannotOpen)).
Proof.
  intros B HO PA N1 N2 N3 N4 A1 A2 X Y W RE HN HH ST url. pose proof (get_spec blk info url n B N1 N2 N3) as G. unfold url in *.
  rewrite (split_spec _ _ HO PA), N4, ST in G. cbn [fst snd] in G. unfold open_http. rewrite G. cbn [fst snd].
  split; [reflexivity|]. destruct (response_reply a b x y z reason hs body A1 A2 X Y W RE HN HH) as (h & R). unfold judge. rewrite R. cbn [p_version p_status p_method negb orb].
  rewrite andb_false_r. change (same HTTP HTTP) with true. cbv iota. split.
  - intros E. injection E as -> -> ->. exists (skip body). split; [apply skip_stripped|]. reflexivity.
  - intros E. match goal with |- context [if ?v then _ else _] => destruct v eqn:V end; [|reflexivity]. exfalso. apply E. unfold digit in *. assert (x = 50 /\ y = 48 /\ z = 48) by lia. destruct H as (-> & -> & ->). reflexivity.
Qed.

(** C113 (failures): without a connection, or if it is lost before the server closes it, the
    callback is not called and CannotOpenFile is thrown; how the reply is cut into pieces
    makes no difference, whatever it is. *)
Theorem C113_failures blk info url n : (0 < blk)%nat -> n_name n = true ->
  (n_conn n = false \/ n_write n = false \/ n_fin n = FErr) -> open_http blk info url n = ([], ECannotOpen).
Proof.
  intros B N1 H. unfold open_http. destruct (n_conn n) eqn:C; [|unfold http_get; destruct (split_url url); rewrite N1, C; reflexivity].
  destruct (n_write n) eqn:W; [|unfold http_get; destruct (split_url url); rewrite N1, C, W; reflexivity].
  destruct H as [H|[H|H]]; try discriminate. rewrite (get_spec blk info url n B N1 C W), H. reflexivity.
Qed.
Theorem C113_pieces blk blk' info url n n' : (0 < blk)%nat -> (0 < blk')%nat ->
  n_name n = n_name n' -> n_conn n = n_conn n' -> n_write n = n_write n' -> n_fin n = n_fin n' -> concat (n_pieces n) = concat (n_pieces n') ->
  http_get blk info url n = http_get blk' info url n'.
Proof.
  intros B B' H1 H2 H3 H4 H5. destruct (n_name n) eqn:E1; [|unfold http_get; rewrite E1, <- H1; reflexivity].
  destruct (n_conn n) eqn:E2; [|unfold http_get; rewrite E1, <- H1, E2, <- H2; reflexivity]. destruct (n_write n) eqn:E3; [|unfold http_get; rewrite E1, <- H1, E2, <- H2, E3, <- H3; reflexivity].
  rewrite !get_spec by auto. rewrite H4, H5. reflexivity.
Qed.

(** C113 (any reply): the callback is called at most once, with an end of what was received;
    nothing is written past the end of the buffer. *)
Lemma suffix_trans a b c : suffix a b -> suffix b c -> suffix a c.
Proof. intros [u ->] [v ->]. exists (v ++ u). apply app_assoc. Qed.
Lemma suffix_refl a : suffix a a.
Proof. exists []. reflexivity. Qed.
Lemma suffix_cons x a b : suffix a b -> suffix a (x :: b).
Proof. intros [u ->]. exists (x :: u). reflexivity. Qed.
Lemma suffix_skip l : suffix (skip l) l.
Proof. destruct (skip_stripped l) as (w & E & _). exists w. exact E. Qed.
Lemma suffix_digits l : suffix (snd (digits l)) l.
Proof. induction l as [|c l IH]; [apply suffix_refl|]. cbn. destruct (is_digit c); [|apply suffix_refl]. destruct (digits l). apply suffix_cons. exact IH. Qed.
Lemma suffix_sign l : suffix (snd (sign l)) l.
Proof. destruct l as [|c l]; [apply suffix_refl|]. cbn. destruct (c =? 45); [apply suffix_cons, suffix_refl|]. destruct (c =? 43); [apply suffix_cons, suffix_refl|apply suffix_refl]. Qed.
Lemma suffix_upto p l : suffix (snd (upto p l)) l.
Proof. induction l as [|c l IH]; [apply suffix_refl|]. cbn. destruct (starts p (c :: l)); [apply suffix_refl|]. destruct (upto p l). apply suffix_cons. exact IH. Qed.
Lemma suffix_slash l : suffix (snd (upto_slash l)) l.
Proof.
  induction l as [|c l IH]; [apply suffix_refl|]. cbn. destruct (is_space c); [apply suffix_cons; exact IH|]. destruct (c =? 47); [apply suffix_refl|]. destruct (upto_slash l). apply suffix_cons. exact IH.
Qed.
Lemma suffix_skipn (n : nat) (l : text) : suffix (skipn n l) l.
Proof. exists (firstn n l). symmetry. apply firstn_skipn. Qed.
Lemma suffix_expo l : suffix (expo l) l.
Proof.
  destruct l as [|c l]; [apply suffix_refl|]. cbn [expo]. destruct ((c =? 101) || (c =? 69)); [|apply suffix_refl]. pose proof (suffix_digits (snd (sign l))) as D.
  destruct (digits (snd (sign l))) as [[|d ds] r]; [apply suffix_refl|]. apply suffix_cons. eapply suffix_trans; [exact D|apply suffix_sign].
Qed.
Lemma suffix_real l r : real l = Some r -> suffix r l.
Proof.
  unfold real. pose proof (suffix_digits (snd (sign l))) as D. destruct (digits (snd (sign l))) as [d r1] eqn:E. cbn [snd] in D.
  assert (D1 : suffix r1 l) by (eapply suffix_trans; [exact D|apply suffix_sign]). clear D E.
  destruct r1 as [|c t].
  - destruct d; [discriminate|]. intros Q. injection Q as <-. exact D1.
  - destruct (c =? 46).
    + pose proof (suffix_digits t) as F. destruct (digits t) as [f r'] eqn:E. cbn [snd] in F. intros Q.
      assert (Q' : r = expo r') by (destruct d; [destruct f; [discriminate|]|]; congruence). subst r. eapply suffix_trans; [apply suffix_expo|]. eapply suffix_trans; [exact F|].
      eapply suffix_trans; [|exact D1]. apply suffix_cons, suffix_refl.
    + intros Q. assert (Q' : r = expo (c :: t)) by (destruct d; [discriminate|congruence]). subst r. eapply suffix_trans; [apply suffix_expo|exact D1].
Qed.
Lemma suffix_int l v r : int32 l = Some (v, r) -> suffix r l.
Proof.
  unfold int32. pose proof (suffix_sign l) as S. destruct (sign l) as [g l']. cbn [snd] in S. pose proof (suffix_digits l') as D. destruct (digits l') as [d r1]. cbn [snd] in D.
  destruct d; [discriminate|]. match goal with |- (if ?b then _ else _) = _ -> _ => destruct b end; [|discriminate]. intros Q. injection Q as _ <-. eapply suffix_trans; eassumption.
Qed.
Lemma suffix_sequence p l a r : sequence p l = Some (a, r) -> suffix r l.
Proof.
  unfold sequence. pose proof (suffix_upto p (skip l)) as U. destruct (upto p (skip l)) as [u v]. cbn [snd] in U. destruct u; [discriminate|]. intros Q. injection Q as _ <-.
  eapply suffix_trans; [apply suffix_skipn|]. eapply suffix_trans; [exact U|apply suffix_skip].
Qed.
Lemma suffix_nil l : suffix [] l.
Proof. exists l. symmetry. apply app_nil_r. Qed.
Lemma response_suffix l : suffix (p_content (response l)) l.
Proof.
  unfold response. pose proof (suffix_slash l) as S0. destruct (upto_slash l) as [m r0]. cbn [snd] in S0. destruct m; [apply suffix_nil|].
  pose proof (suffix_skip r0) as S1. destruct (skip r0) as [|c r1]; [apply suffix_nil|]. destruct (c =? 47); [|apply suffix_nil].
  destruct (real (skip r1)) as [r2|] eqn:R; [|apply suffix_nil]. apply suffix_real in R. destruct (int32 (skip r2)) as [[v r3]|] eqn:I; [|apply suffix_nil]. apply suffix_int in I.
  destruct (sequence CRLF r3) as [[t r4]|] eqn:Q; [|apply suffix_nil]. apply suffix_sequence in Q. destruct (sequence (CRLF ++ CRLF) r4) as [[h r5]|] eqn:Q2; [|apply suffix_nil]. apply suffix_sequence in Q2.
  cbn [p_content]. eapply suffix_trans; [apply suffix_skip|]. eapply suffix_trans; [exact Q2|]. eapply suffix_trans; [exact Q|]. eapply suffix_trans; [exact I|]. eapply suffix_trans; [apply suffix_skip|].
  eapply suffix_trans; [exact R|]. eapply suffix_trans; [apply suffix_skip|]. eapply suffix_trans; [|exact S0]. eapply suffix_trans; [|exact S1]. apply suffix_cons, suffix_refl.
Qed.
Theorem C113_any blk info url n : (0 < blk)%nat -> snd (http_get blk info url n) <> GBad /\
  (fst (open_http blk info url n) = [] \/ exists c, open_http blk info url n = ([(url, c)], EDone) /\ suffix c (concat (n_pieces n)) /\ n_fin n = FEof).
Proof.
  intros B. unfold open_http. destruct (n_name n) eqn:N1; [|unfold http_get; destruct (split_url url); rewrite N1; cbn; split; [discriminate|auto]].
  destruct (n_conn n) eqn:N2; [|unfold http_get; destruct (split_url url); rewrite N1, N2; cbn; split; [discriminate|auto]].
  destruct (n_write n) eqn:N3; [|unfold http_get; destruct (split_url url); rewrite N1, N2, N3; cbn; split; [discriminate|auto]].
  rewrite (get_spec blk info url n B N1 N2 N3). cbn [fst snd]. destruct (n_fin n); [|split; [discriminate|auto]].
  unfold judge. set (p := response (concat (n_pieces n))). destruct (info && _); [split; [discriminate|auto]|]. destruct (same (p_method p) HTTP); [|split; [discriminate|auto]].
  destruct (p_status p) as [v|]; [|split; [discriminate|auto]]. destruct (v =? 200)%Z; [|split; [discriminate|auto]]. split; [discriminate|]. right. exists (p_content p). split; [reflexivity|]. split; [apply response_suffix|reflexivity].
Qed.

(** C113 (local files): each regular file that the expression stands for is given to the
    callback, in order and with its content, if there is one and all can be opened and are
    not empty.  If one cannot be opened, those before it have been given and CannotOpenFile
    is thrown; if there is none, FileNotFound. *)
Definition is_file (fs : bytes -> node) (p : bytes) : bool := match fs p with NShut | NFile _ => true | _ => false end.
Lemma located_absolute parent ws names : Forall2 (located parent) ws names -> names = map (fun w => absolute w parent) ws.
Proof.
  induction 1 as [|w p ws names H F IH]; [reflexivity|]. cbn [map]. f_equal; [|exact IH].
  destruct H as [r|w H]; [reflexivity|]. unfold absolute. destruct w as [|c w]; [reflexivity|].
  cbn [starts]. destruct (N.eqb_spec 47 c) as [<-|]; [|reflexivity]. now contradiction (H w).
Qed.
Theorem C113_local fs ws parent names : Forall2 (located parent) ws names ->
  let ps := filter (is_file fs) names in
  Forall (fun p => fs p <> NFile []) ps ->
  exists given rest, ps = map fst given ++ rest /\ Forall (fun g => fs (fst g) = NFile (snd g)) given /\
    open_local fs (Some ws) parent = (given, match ps, rest with [], _ => ENotFound | _, [] => EDone | _, _ => ECannotOpen end) /\
    match rest with p :: _ => fs p = NShut | [] => True end.
Proof.
  intros LN ps H. unfold open_local, shell_expand. fold (is_file fs). rewrite <- (located_absolute _ _ _ LN). change (filter _ names) with ps.
  assert (K : forall p, In p ps -> is_file fs p = true) by (intros p I; apply filter_In in I; apply I).
  clearbody ps. destruct ps as [|p0 ps0]; [exists [], []; cbn; auto|]. set (l := p0 :: ps0) in *.
  assert (G : exists given rest, l = map fst given ++ rest /\ Forall (fun g => fs (fst g) = NFile (snd g)) given /\ open_each fs l = (given, match rest with [] => EDone | _ => ECannotOpen end) /\ match rest with p :: _ => fs p = NShut | [] => True end).
  { clearbody l. induction l as [|p l IH]; [exists [], []; cbn; auto|]. inversion H as [|? ? H1 H2]; subst.
    pose proof (K p (or_introl eq_refl)) as KP. unfold is_file in KP. cbn [open_each]. destruct (fs p) as [| | |b] eqn:E; try discriminate.
    - exists [], (p :: l). cbn. auto.
    - destruct IH as (g & r & E1 & E2 & E3 & E4); [exact H2|intros q I; apply K; right; exact I|]. destruct b as [|c b]; [congruence|]. rewrite E3.
      exists ((p, c :: b) :: g), r. cbn [map fst app]. split; [congruence|]. split; [constructor; [exact E|exact E2]|]. auto. }
  destruct G as (g & r & E1 & E2 & E3 & E4). exists g, r. split; [exact E1|]. split; [exact E2|]. split; [|exact E4]. rewrite E3. unfold l. destruct r; reflexivity.
Qed.

(** *** Cases *)
Example C113_http_case : exists n hs, let body := [60; 110; 62] in
  n_pieces n <> [] /\ concat (n_pieces n) = reply [49] [49] [50; 48; 48] [79; 75] hs ([10; 32] ++ body) /\ Forall line hs /\ hs <> [] /\ n_fin n = FEof /\
  open_http 8 true [119; 47; 97; 46; 120] n = ([([119; 47; 97; 46; 120], body)], EDone) /\ host_ok [119] /\ plain [97; 46; 120] /\ number [49] /\ line [79; 75].
Proof.
  exists (mkNet true true true [firstn 3 (reply [49] [49] [50; 48; 48] [79; 75] [[88; 58; 32; 89]; [90; 58]] ([10; 32] ++ [60; 110; 62])); []; skipn 3 (reply [49] [49] [50; 48; 48] [79; 75] [[88; 58; 32; 89]; [90; 58]] ([10; 32] ++ [60; 110; 62]))] FEof), [[88; 58; 32; 89]; [90; 58]].
  cbv zeta. split; [discriminate|]. split; [reflexivity|]. split; [|split; [discriminate|split; [reflexivity|split; [reflexivity|]]]].
  - repeat constructor; unfold white; lia.
  - repeat split; try discriminate; repeat constructor; unfold white; try lia.
Qed.
Definition some_fs (p : bytes) : node := match p with [47; 97] => NFile [1; 2] | [47; 98] => NOther | [47; 99] => NFile [3] | [47; 100] => NShut | _ => NNone end.
Example C113_local_case : open_local some_fs (Some [[97]; [47; 98]; [99]; [101]]) [] = ([([47; 97], [1; 2]); ([47; 99], [3])], EDone) /\
  open_local some_fs (Some [[97]; [47; 100]; [99]]) [] = ([([47; 97], [1; 2])], ECannotOpen) /\ open_local some_fs (Some [[98]]) [] = ([], ENotFound) /\
  Forall2 (located []) [[97]; [47; 98]; [99]; [101]] [[47; 97]; [47; 98]; [47; 99]; [47; 101]] /\
  Forall (fun p => some_fs p <> NFile []) (filter (is_file some_fs) [[47; 97]; [47; 98]; [47; 99]; [47; 101]]).
Proof.
  repeat split; [|repeat constructor; discriminate].
  repeat (apply Forall2_cons; [first [apply L_absolute|apply L_relative; discriminate]|]). apply Forall2_nil.
Qed.
Example C113_failures_case : open_http 8 true [119] (mkNet true true true [[72]] FErr) = ([], ECannotOpen) /\ (0 < 8)%nat.
Proof. split; [reflexivity|lia]. Qed.
Example C113_pieces_case : concat [[72; 84]; []; [84; 80]] = concat [[72]; [84; 84; 80]] /\
  http_get 2 false [119] (mkNet true true true [[72; 84]; []; [84; 80]] FEof) = http_get 3 false [119] (mkNet true true true [[72]; [84; 84; 80]] FEof).
Proof. split; reflexivity. Qed.
Example C113_any_case : fst (open_http 16 false [119; 47; 97] (mkNet true true true [[72; 84; 84; 80; 47; 49; 32; 50; 48; 48; 32; 88; 13; 10; 65; 13; 10; 13; 10; 1; 2]] FEof)) = [([119; 47; 97], [1; 2])].
Proof.
  unfold open_http. rewrite get_spec by (try reflexivity; apply Nat.ltb_lt; vm_compute; reflexivity). vm_compute. reflexivity.
Qed.

(** *** What is false *)
Definition a_url : bytes := [119; 47; 97].
Definition serves (b : bytes) : net := mkNet true true true [b] FEof.

(** A reply without headers is allowed (RFC 1945): its body is taken for headers, and the
    callback gets an empty file although all went well. *)
Theorem C113_no_headers_refuted : ~ forall info n a b reason hs body c, number a -> number b -> line reason -> Forall line hs ->
  concat (n_pieces n) = reply a b [50; 48; 48] reason hs body -> n = serves (concat (n_pieces n)) -> stripped body c -> open_http 16 info a_url n = ([(a_url, c)], EDone).
Proof.
  intros H. specialize (H true (serves (reply [49] [48] [50; 48; 48] [79; 75] [] [60; 110; 62])) [49] [48] [79; 75] [] [60; 110; 62] [60; 110; 62]).
  assert (open_http 16 true a_url (serves (reply [49] [48] [50; 48; 48] [79; 75] [] [60; 110; 62])) = ([(a_url, [])], EDone)) as E by (vm_compute; reflexivity).
  rewrite E in H. assert (F : ([(a_url, [])], EDone) = ([(a_url, [60; 110; 62])], EDone)); [|discriminate].
  apply H; try reflexivity; try (repeat constructor; unfold digit, white; try discriminate; lia).
  exists []. split; [reflexivity|]. split; [constructor|]. unfold white. lia.
Qed.

(** Nor need there be a reason (RFC 7230, 3.1.2): then a header is taken for it, and if there
    was only one header the body for headers. *)
Theorem C113_no_reason_refuted : ~ forall info n a b reason hs body c, number a -> number b -> Forall (fun x => x <> 13) reason -> hs <> [] -> Forall line hs ->
  concat (n_pieces n) = reply a b [50; 48; 48] reason hs body -> n = serves (concat (n_pieces n)) -> stripped body c -> open_http 16 info a_url n = ([(a_url, c)], EDone).
Proof.
  intros H. specialize (H true (serves (reply [49] [49] [50; 48; 48] [] [[88; 58; 32; 89]] [60; 110; 62])) [49] [49] [] [[88; 58; 32; 89]] [60; 110; 62] [60; 110; 62]).
  assert (open_http 16 true a_url (serves (reply [49] [49] [50; 48; 48] [] [[88; 58; 32; 89]] [60; 110; 62])) = ([(a_url, [])], EDone)) as E by (vm_compute; reflexivity).
  rewrite E in H. assert (F : ([(a_url, [])], EDone) = ([(a_url, [60; 110; 62])], EDone)); [|discriminate].
  apply H; try reflexivity; try discriminate; try (repeat constructor; unfold digit, white; try discriminate; lia).
  exists []. split; [reflexivity|]. split; [constructor|]. unfold white. lia.
Qed.

(** A reply that ends too early is taken for a whole one, although the header says how long
    the body is ("Content-Length: 3"). *)
Theorem C113_cut_refuted : ~ forall info n a b reason hs body sent, number a -> number b -> line reason -> hs <> [] -> Forall line hs ->
  In ([67; 111; 110; 116; 101; 110; 116; 45; 76; 101; 110; 103; 116; 104; 58; 32] ++ [48 + N.of_nat (List.length body)]) hs -> (List.length body < 10)%nat ->
  reply a b [50; 48; 48] reason hs body = concat (n_pieces n) ++ sent -> n = serves (concat (n_pieces n)) ->
  fst (open_http 64 info a_url n) = [] \/ sent = [].
Proof.
  intros H. set (h := [67; 111; 110; 116; 101; 110; 116; 45; 76; 101; 110; 103; 116; 104; 58; 32; 51]).
  specialize (H true (serves (reply [49] [49] [50; 48; 48] [79; 75] [h] [60])) [49] [49] [79; 75] [h] [60; 110; 62] [110; 62]).
  assert (fst (open_http 64 true a_url (serves (reply [49] [49] [50; 48; 48] [79; 75] [h] [60]))) = [(a_url, [60])]) as E by (vm_compute; reflexivity).
  rewrite E in H. assert (F : [(a_url, [60])] = [] \/ [110; 62] = []); [|destruct F; discriminate].
  apply H; try reflexivity; try discriminate; try (unfold h; repeat constructor; unfold digit, white; try discriminate; lia).
Qed.

(** Not every failure is a CannotOpenFile: an unknown host is an exception of another kind; with a
    status line that has no status, or with none at all if Info messages are logged, a
    status that was never set decides. *)
Theorem C113_errors_refuted : ~ forall info n, match snd (open_http 16 info a_url n) with EDone | ECannotOpen => True | _ => False end.
Proof. intros H. specialize (H true (mkNet false true true [] FEof)). exact H. Qed.
Theorem C113_unset_refuted : ~ (forall info n, n_name n = true -> snd (open_http 16 info a_url n) <> EUndefined) /\
  (forall n, n_name n = true -> n_conn n = true -> n_write n = true -> n_fin n = FEof -> concat (n_pieces n) = [] -> snd (open_http 16 true a_url n) = EUndefined).
Proof.
  split.
  - intros H. apply (H false (serves [72; 84; 84; 80; 47; 49; 46; 49; 13; 10])); reflexivity.
  - intros n N1 N2 N3 N4 E. unfold open_http. rewrite get_spec by (assumption || lia). rewrite N4, E. reflexivity.
Qed.

(** An expression that the shell rejects, such as one with a parenthesis: nothing is known
    about what is read; and so with an empty file. *)
Theorem C113_expression_refuted : ~ forall fs words parent, snd (open_local fs words parent) <> EUndefined.
Proof. intros H. apply (H some_fs None []). reflexivity. Qed.
Theorem C113_empty_refuted : ~ forall fs ws parent, snd (open_local fs (Some ws) parent) <> EUndefined.
Proof. intros H. apply (H (fun _ => NFile []) [[97]] []). reflexivity. Qed.

Print Assumptions C113_http.
Print Assumptions C113_failures.
Print Assumptions C113_pieces.
Print Assumptions C113_any.
Print Assumptions C113_local.
Print Assumptions C113_no_headers_refuted.
Print Assumptions C113_no_reason_refuted.
Print Assumptions C113_cut_refuted.
Print Assumptions C113_errors_refuted.
Print Assumptions C113_unset_refuted.
Print Assumptions C113_expression_refuted.
Print Assumptions C113_empty_refuted.
