(** The invariant of the executions of [Hub.v]. *)
From Coq Require Import NArith ZArith List Bool Lia PeanoNat ZifyBool ZifyNat ZifyN.
From Verif Require Import Hub HubSpec HubProofs.
Import ListNotations.
Open Scope N_scope.

(** ** Traces and lists *)
Lemma sent_app a b : sent (a ++ b) = sent a ++ sent b. Proof. apply flat_map_app. Qed.
Lemma execs_app a b : execs (a ++ b) = execs a ++ execs b. Proof. apply flat_map_app. Qed.
Lemma answers_app a b : answers (a ++ b) = answers a ++ answers b. Proof. apply flat_map_app. Qed.

Lemma sends_sent vs : sends vs = length (sent (map EHub vs)).
Proof.
  unfold sends, sent. induction vs as [|v vs IH]; [reflexivity|]. cbn [map flat_map filter]. rewrite app_length, <- IH. destruct v; reflexivity.
Qed.
Lemma execs_hub vs : execs (map EHub vs) = [].
Proof. unfold execs. induction vs as [|v vs IH]; [reflexivity|exact IH]. Qed.
Lemma errors_quiet ps c : c <> 0 -> sent (map EHub (map (fun p => VResp p c []) ps)) = [] /\ answers (map EHub (map (fun p => VResp p c []) ps)) = [].
Proof.
  intros H. unfold sent, answers. induction ps as [|p ps (A & B)]; [auto|]. cbn [map flat_map]. rewrite A, B. destruct (N.eqb_spec c 0); [congruence|auto].
Qed.

Lemma carried_app {D} (exec : D -> bytes -> D * bytes) a : forall d b,
  carried exec d (a ++ b) = (fst (carried exec (fst (carried exec d a)) b), snd (carried exec d a) ++ snd (carried exec (fst (carried exec d a)) b)).
Proof.
  induction a as [|x a IH]; intros d b; cbn [app carried fst snd]; [destruct (carried exec d b); reflexivity|].
  destruct (exec d x) as [d1 r]. rewrite IH. destruct (carried exec d1 a) as [d2 rs]. cbn [fst snd]. destruct (carried exec d2 b). reflexivity.
Qed.
Lemma firstn_next {A} (l : list A) : forall n x, nth_error l n = Some x -> firstn (S n) l = firstn n l ++ [x].
Proof. induction l as [|y l IH]; intros [|n] x H; try discriminate; cbn in *; [congruence|]. f_equal. apply IH, H. Qed.
Lemma combine_next {A B} (l : list A) : forall (r : list B) m x y, nth_error l m = Some x -> nth_error r m = Some y ->
  combine (firstn (S m) l) r = combine (firstn m l) r ++ [(x, y)].
Proof.
  induction l as [|a l IH]; intros [|b r] [|m] x y H1 H2; try discriminate; cbn in *; try congruence.
  f_equal. apply IH; assumption.
Qed.
Lemma combine_more {A B} (l : list A) : forall (r s : list B), (length l <= length r)%nat -> combine l (r ++ s) = combine l r.
Proof.
  induction l as [|a l IH]; intros r s H; [reflexivity|]. destruct r as [|b r]; cbn in H; [lia|]. cbn. f_equal. apply IH. lia.
Qed.
Lemma skipn_cons {A} (l : list A) : forall n x t, skipn n l = x :: t -> nth_error l n = Some x /\ skipn (S n) l = t.
Proof. induction l as [|y l IH]; intros [|n] x t H; try discriminate; cbn in *; [injection H as -> ->; auto|]. apply IH, H. Qed.
Lemma skipn_app_le {A} n (l r : list A) : (n <= length l)%nat -> skipn n (l ++ r) = skipn n l ++ r.
Proof. intros H. rewrite skipn_app. replace (n - length l)%nat with 0%nat by lia. reflexivity. Qed.
Lemma nth_rev_tl {A} (l : list A) i x : nth_error (rev (tl l)) i = Some x -> nth_error (rev l) i = Some x.
Proof. destruct l as [|y l]; [destruct i; discriminate|]. cbn [tl rev]. intros H. rewrite nth_error_app1; [exact H|]. apply nth_error_Some. congruence. Qed.
Lemma nth_error_more {A} (l r : list A) i x : nth_error l i = Some x -> nth_error (l ++ r) i = Some x.
Proof. intros H. rewrite nth_error_app1; [exact H|]. apply nth_error_Some. congruence. Qed.

Lemma nth_error_skipn_add {A} (l : list A) m : forall j, nth_error (skipn m l) j = nth_error l (m + j).
Proof. revert l. induction m as [|m IH]; intros [|x l] j; cbn; auto. destruct j; reflexivity. Qed.

Section I.
Variable D : Type.
Variable exec : D -> bytes -> D * bytes.
Variable hack : bool.
Variable depth absmax lag : nat.
Hypothesis D1 : (1 <= depth)%nat.
Notation K := (window depth absmax).
Hypothesis LAG : N.of_nat (lag + K + depth) < 65534.
Variable d0 : D.
Variable b : N.
Hypothesis B : id_ok b.
Notation step := (step D exec hack depth absmax).
Notation receive := (receive D exec hack depth).
Notation world := (world D).

(** A datagram to the target: a status request, a request or the request for a
    reply; [s] are the requests forwarded, [born] their number at that time. *)
Definition up_ok (s : list flight) (born : nat) (p : bytes) : Prop :=
  p = status_req \/
  exists k f, nth_error s k = Some f /\ (k < born)%nat /\ (born <= k + K)%nat /\ (p = f_hdr f ++ f_body f \/ p = resend_pkt (f_hdr f)).

(** A datagram from the target: a status or the reply to a request, of those
    ([n]) carried out; [rs] the replies. *)
Definition down_ok (s : list flight) (rs : list bytes) (n born : nat) (p : bytes) : Prop :=
  (exists x, (x <= n)%nat /\ p = status_with depth (idn b x)) \/
  exists k f r, nth_error s k = Some f /\ nth_error rs k = Some r /\ (born <= k + K + depth)%nat /\ p = f_hdr f ++ r.

(** An entry of the history of the target, [i] places before the newest. *)
Definition hist_entry (s : list flight) (rs : list bytes) (n i : nat) (id : N) (p : bytes) : Prop :=
  ((i < n)%nat /\ id = idn b (n - 1 - i) /\ exists f r, nth_error s (n - 1 - i) = Some f /\ nth_error rs (n - 1 - i) = Some r /\ p = f_hdr f ++ r) \/
  ((n <= i)%nat /\ (id = 0 \/ exists j, (j + n <= i)%nat /\ id = dec_ids (dec_id b) j)).

(** The device client: [m] requests have been answered. *)
Definition mode_ok (h : hub) (s : list flight) (m : nat) : Prop :=
  match h_mode h with
  | MIdle => s = [] /\ h_fl h = []
  | MSetup r v2 _ => s = [] /\ h_fl h = [] /\ v2 = true /\ fits hack r
  | MLoop => h_fl h = skipn m s /\ h_next h = idn b (length s) /\ (h_max h <= K)%nat
  | MStat _ _ | MWait _ _ => h_fl h = skipn m s /\ h_next h = idn b (length s) /\ (h_max h <= K)%nat
  | MDead => True
  end.

Record inv (w : world) (tr : list ev) (m n : nat) : Prop := {
  i_sent : w_sent _ w = length (sent tr);
  i_mn : (m <= n <= length (sent tr))%nat;
  i_win : (length (sent tr) <= m + K)%nat;
  i_hdr : forall k f, nth_error (sent tr) k = Some f -> f_hdr f = ctl_header (idn b k) (order hack);
  i_ex : map fst (execs tr) = firstn n (map f_body (sent tr));
  i_run : carried exec d0 (map fst (execs tr)) = (v_d _ (w_dev _ w), map snd (execs tr));
  i_ans : answers tr = map (fun x => (f_pid (fst x), f_orig (fst x) ++ snd x)) (combine (firstn m (sent tr)) (map snd (execs tr)));
  i_last : v_last _ (w_dev _ w) < 65536;
  i_next : next_id (v_last _ (w_dev _ w)) = idn b n;
  i_len : length (v_hist _ (w_dev _ w)) = depth;
  i_hist : forall i id p, nth_error (rev (v_hist _ (w_dev _ w))) i = Some (id, p) -> hist_entry (sent tr) (map snd (execs tr)) n i id p;
  i_up : forall g, In g (w_up _ w) -> g_sock g = w_sock _ w -> (g_born g <= w_sent _ w)%nat /\ up_ok (sent tr) (g_born g) (g_bytes g);
  i_down : forall g, In g (w_down _ w) -> g_sock g = w_sock _ w -> (g_born g <= w_sent _ w)%nat /\ down_ok (sent tr) (map snd (execs tr)) n (g_born g) (g_bytes g);
  i_mode : mode_ok (w_hub _ w) (sent tr) m;
  i_box : Forall (fits hack) (h_box (w_hub _ w))
}.

Lemma inv_execs w tr m n : inv w tr m n -> length (execs tr) = n.
Proof using D1 LAG B d0 exec hack absmax.
  intros I. pose proof (i_ex _ _ _ _ I) as E. pose proof (i_mn _ _ _ _ I). apply (f_equal (@length _)) in E.
  rewrite firstn_length, !map_length in E. lia.
Qed.

Lemma up_more s t born p : up_ok s born p -> up_ok (s ++ t) born p.
Proof using D1 LAG B d0 exec hack absmax. intros [->|(k & f & H1 & H2)]; [left; reflexivity|]. right. exists k, f. split; [apply nth_error_more, H1|exact H2]. Qed.
Lemma down_more s t rs us n n' born p : (n <= n')%nat -> down_ok s rs n born p -> down_ok (s ++ t) (rs ++ us) n' born p.
Proof using D1 LAG B d0 exec hack absmax.
  intros N [(x & H1 & H2)|(k & f & r & H1 & H2 & H3)]; [left; exists x; split; [lia|exact H2]|].
  right. exists k, f, r. split; [apply nth_error_more, H1|]. split; [apply nth_error_more, H2|exact H3].
Qed.
Lemma hist_more s t rs us n i id p : hist_entry s rs n i id p -> hist_entry (s ++ t) (rs ++ us) n i id p.
Proof using D1 LAG B d0 exec hack absmax.
  intros [(H1 & H2 & f & r & H3 & H4 & H5)|H]; [|right; exact H]. left. split; [exact H1|]. split; [exact H2|].
  exists f, r. auto using nth_error_more.
Qed.

(** The target takes a datagram. *)
Lemma step_up w tr m n i keep w' e : inv w tr m n -> timely hack lag w (LUp i keep) -> step w (LUp i keep) = Some (w', e) ->
  exists n', inv w' (tr ++ e) m n'.
Proof using D1 LAG B d0 exec hack absmax.
  intros I T ST. cbn [Hub.step] in ST. destruct (nth_error (w_up D w) i) as [g|] eqn:G; [|discriminate].
  destruct (T g G) as (SK & TM). assert (GI := nth_error_In _ _ G). destruct (i_up _ _ _ _ I g GI SK) as (BN & U).
  assert (X := inv_execs _ _ _ _ I). destruct I. unfold hist_entry in i_hist0.
  assert (KEEP : forall x, In x (if keep then w_up D w else drop i (w_up D w)) -> In x (w_up D w)) by (destruct keep; [auto|intros; eapply in_drop; eassumption]).
  assert (QUIET : forall r, receive (w_dev D w) (g_bytes g) = (w_dev D w, r, None) ->
     match r with Some p => down_ok (sent tr) (map snd (execs tr)) n (w_sent D w) p | None => True end -> exists n', inv w' (tr ++ e) m n').
  { intros r RE DN. rewrite RE in ST. injection ST as <- <-. exists n. rewrite app_nil_r. split; cbn [w_sent w_dev w_up w_down w_sock w_hub]; try assumption; auto.
    intros x Hx S. apply in_app_or in Hx. destruct Hx as [Hx|Hx]; [auto|]. destruct r as [p|]; cbn in Hx; [|contradiction]. destruct Hx as [<-|[]].
    cbn [g_born g_bytes]. split; [lia|exact DN]. }
  destruct U as [U|(k & f & F & K1 & K2 & U)].
  - rewrite U in QUIET. eapply QUIET; [apply receive_status|]. cbn beta iota. left. exists n. split; [lia|].
    unfold status_reply, status_with. rewrite i_next0. reflexivity.
  - assert (FH := i_hdr0 k f F). destruct U as [U|U]; rewrite FH in U.
    + rewrite U, receive_ctl in QUIET by apply idn_ok. rewrite U, receive_ctl in ST by apply idn_ok. rewrite i_next0 in *.
      destruct (N.eqb_spec (idn b k) (idn b n)) as [E|E]; [|exact (QUIET None eq_refl Logic.I)]. clear QUIET.
      apply idn_inj in E; [|lia|lia]. subst k.
      destruct (exec (v_d D (w_dev D w)) (f_body f)) as [d r] eqn:EX. injection ST as <- <-. exists (S n).
      assert (EXE : execs (tr ++ [EExec (f_body f) r]) = execs tr ++ [(f_body f, r)]) by (rewrite execs_app; reflexivity).
      assert (SE : sent (tr ++ [EExec (f_body f) r]) = sent tr) by (rewrite sent_app; apply app_nil_r).
      assert (AN : answers (tr ++ [EExec (f_body f) r]) = answers tr) by (rewrite answers_app; apply app_nil_r).
      assert (NR : nth_error (map snd (execs tr) ++ [r]) n = Some r).
      { rewrite nth_error_app2; rewrite map_length, X; [|lia]. rewrite Nat.sub_diag. reflexivity. }
      assert (NL : (n < length (sent tr))%nat) by (apply nth_error_Some; congruence).
      split; rewrite ?EXE, ?SE, ?AN, ?map_app; cbn [w_sent w_dev w_up w_down w_sock w_hub v_d v_last v_hist map fst snd]; auto.
      * lia.
      * rewrite i_ex0. symmetry. apply firstn_next. apply map_nth_error, F.
      * rewrite carried_app, i_run0. cbn [fst snd carried]. rewrite EX. reflexivity.
      * rewrite i_ans0. f_equal. symmetry. apply combine_more. rewrite firstn_length, map_length, X. lia.
      * pose proof (idn_ok b n) as [? ?]. lia.
      * rewrite next_inc by apply idn_ok. symmetry. apply idn_S.
      * rewrite app_length. cbn [length]. destruct (v_hist D (w_dev D w)) eqn:HH; cbn in i_len0 |- *; lia.
      * intros j id p H. rewrite rev_app_distr in H. cbn [rev app] in H. destruct j as [|j]; cbn [nth_error] in H.
        -- injection H as <- <-. left. split; [lia|]. replace (S n - 1 - 0)%nat with n by lia. split; [reflexivity|].
           exists f, r. rewrite FH. auto.
        -- apply nth_rev_tl, i_hist0 in H. destruct H as [(H1 & H2 & f' & r' & H3 & H4 & H5)|(H1 & H2)].
           ++ left. split; [lia|]. replace (S n - 1 - S j)%nat with (n - 1 - j)%nat by lia. split; [exact H2|].
              exists f', r'. auto using nth_error_more.
           ++ right. split; [lia|]. destruct H2 as [H2|(j' & H2 & H3)]; [left; exact H2|right; exists j'; split; [lia|exact H3]].
      * intros x Hx S. apply in_app_or in Hx. destruct Hx as [Hx|[<-|[]]].
        -- destruct (i_down0 x Hx S) as (A & C). split; [exact A|]. rewrite <- (app_nil_r (sent tr)). eapply down_more; [|exact C]. lia.
        -- cbn [g_born g_bytes]. split; [lia|]. right. exists n, f, r. split; [exact F|]. split; [exact NR|]. split; [lia|]. rewrite FH. reflexivity.
    + rewrite U in QUIET. eapply QUIET; [apply receive_resend, idn_ok|].
      destruct (find_reply (v_hist D (w_dev D w)) (idn b k)) as [p|] eqn:FR; [|exact Logic.I].
      unfold find_reply in FR. destruct (find _ _) as [[id q]|] eqn:FI; [|discriminate]. injection FR as ->.
      apply find_some in FI. destruct FI as (FI & ID). cbn [fst] in ID. apply N.eqb_eq in ID. apply In_nth_error in FI. destruct FI as (j & FI).
      assert (JL : (j < depth)%nat) by (rewrite <- i_len0, <- rev_length; apply nth_error_Some; congruence).
      destruct (i_hist0 _ _ _ FI) as [(H1 & H2 & f' & r' & H3 & H4 & H5)|(H1 & [H2|(j' & H2 & H3)])].
      * right. exists (n - 1 - j)%nat, f', r'. split; [exact H3|]. split; [exact H4|]. split; [lia|exact H5].
      * pose proof (idn_ok b k) as [? ?]. lia.
      * exfalso. subst id. assert (KL : (k < length (sent tr))%nat) by (apply nth_error_Some; congruence). apply (dec_ids_far b j' k B); [lia|symmetry; exact H3].
Qed.

(** ** The device client *)
Lemma inv_hub w tr m n m' h' ps vs down :
  inv w tr m n -> (forall x, In x down -> In x (w_down _ w)) ->
  let s := sent tr ++ sent (map EHub vs) in
  (forall k f, nth_error s k = Some f -> f_hdr f = ctl_header (idn b k) (order hack)) ->
  (m' <= n)%nat -> (length s <= m' + K)%nat ->
  answers tr ++ answers (map EHub vs) = map (fun x => (f_pid (fst x), f_orig (fst x) ++ snd x)) (combine (firstn m' s) (map snd (execs tr))) ->
  (forall p, In p ps -> up_ok s (length s) p) ->
  mode_ok h' s m' -> Forall (fits hack) (h_box h') ->
  inv (fst (apply_hub _ (mkW _ (w_hub _ w) (w_sock _ w) (w_sent _ w) (w_up _ w) down (w_dev _ w)) (h', ps, vs))) (tr ++ map EHub vs) m' n.
Proof using D1 LAG B d0 exec hack absmax.
  intros I DN s HD M W AN PS MO BX. assert (X := inv_execs _ _ _ _ I). destruct I.
  assert (EXE : execs (tr ++ map EHub vs) = execs tr) by (rewrite execs_app, execs_hub; apply app_nil_r).
  assert (SE : sent (tr ++ map EHub vs) = s) by apply sent_app.
  assert (SL : length s = (length (sent tr) + sends vs)%nat) by (unfold s; rewrite app_length, sends_sent; reflexivity).
  unfold apply_hub. cbn [w_hub w_sock w_sent w_up w_down w_dev fst].
  split; rewrite ?EXE, ?SE, ?answers_app; cbn [w_sent w_dev w_up w_down w_sock w_hub]; auto.
  - lia.
  - lia.
  - unfold s. rewrite i_ex0, map_app. symmetry. rewrite firstn_app, map_length. replace (n - length (sent tr))%nat with 0%nat by lia. apply app_nil_r.
  - intros i id p H. apply i_hist0 in H. unfold s. rewrite <- (app_nil_r (map snd (execs tr))). apply hist_more, H.
  - intros g H S. apply in_app_or in H. destruct H as [H|H].
    + destruct (i_up0 g H S) as (A & C). split; [lia|apply up_more, C].
    + apply in_map_iff in H. destruct H as (p & <- & H). cbn [g_born g_bytes]. split; [lia|]. rewrite i_sent0, <- SL. apply PS, H.
  - intros g H S. destruct (i_down0 g (DN g H) S) as (A & C). split; [lia|].
    unfold s. rewrite <- (app_nil_r (map snd (execs tr))). eapply down_more; [|exact C]. lia.
Qed.

(** The same if nothing is forwarded or answered. *)
Lemma inv_quiet w tr m n h' ps vs down :
  inv w tr m n -> (forall x, In x down -> In x (w_down _ w)) ->
  sent (map EHub vs) = [] -> answers (map EHub vs) = [] ->
  (forall p, In p ps -> up_ok (sent tr) (length (sent tr)) p) ->
  mode_ok h' (sent tr) m -> Forall (fits hack) (h_box h') ->
  inv (fst (apply_hub _ (mkW _ (w_hub _ w) (w_sock _ w) (w_sent _ w) (w_up _ w) down (w_dev _ w)) (h', ps, vs))) (tr ++ map EHub vs) m n.
Proof using D1 LAG B d0 exec hack absmax.
  intros I DN S A PS MO BX. apply (inv_hub w tr m n m); try assumption; rewrite ?S, ?A, ?app_nil_r; try assumption; try (apply I).
Qed.

Lemma sent_app1 s (x : flight) : length (s ++ [x]) = S (length s).
Proof using D1 LAG B d0 exec hack absmax. rewrite app_length. cbn. lia. Qed.

(** A request is sent. *)
Lemma inv_send w tr m n h1 r down :
  inv w tr m n -> (forall x, In x down -> In x (w_down _ w)) ->
  h_mode h1 = MLoop -> h_fl h1 = skipn m (sent tr) -> h_next h1 = idn b (length (sent tr)) -> (h_max h1 <= K)%nat ->
  (length (sent tr) < m + K)%nat -> fits hack r -> Forall (fits hack) (h_box h1) ->
  inv (fst (apply_hub _ (mkW _ (w_hub _ w) (w_sock _ w) (w_sent _ w) (w_up _ w) down (w_dev _ w)) (send_request h1 r)))
      (tr ++ map EHub (snd (send_request h1 r))) m n.
Proof using D1 LAG B d0 exec hack absmax.
  intros I DN MO FL NX MX W FT0 BX. destruct (fits_parse _ _ FT0) as (_ & FT). unfold send_request. destruct (parse_ctl (q_pkt r)) as [e|] eqn:P.
  - rewrite (FT e eq_refl) in *. rewrite NX.
    destruct (N.eqb_spec (idn b (length (sent tr))) 0) as [Z|_]; [pose proof (idn_ok b (length (sent tr))) as [? ?]; lia|].
    set (f := mkFl (q_pid r) (hdr (q_pkt r)) (ctl_header (idn b (length (sent tr))) (order hack)) (body (q_pkt r))).
    cbn [snd]. pose proof (i_mn _ _ _ _ I) as MN. pose proof (inv_execs _ _ _ _ I) as X.
    apply (inv_hub w tr m n m); try assumption; change (sent (map EHub [VSend f])) with [f]; try (cbn [h_box]; assumption).
    + intros k g H. destruct (Nat.lt_ge_cases k (length (sent tr))) as [KL|KL].
      * rewrite nth_error_app1 in H by exact KL. apply (i_hdr _ _ _ _ I k g H).
      * rewrite nth_error_app2 in H by exact KL. destruct (k - length (sent tr))%nat as [|q] eqn:Q; [|destruct q; discriminate].
        injection H as <-. unfold f. cbn [f_hdr]. do 2 f_equal. lia.
    + lia.
    + rewrite sent_app1. lia.
    + change (answers (map EHub [VSend f])) with (@nil (pid * bytes)). rewrite app_nil_r, (i_ans _ _ _ _ I). do 2 f_equal.
      rewrite firstn_app. replace (m - length (sent tr))%nat with 0%nat by lia. cbn [firstn]. symmetry. apply app_nil_r.
    + intros p [<-|[]]. right. exists (length (sent tr)), f. rewrite sent_app1. split; [|split; [lia|split; [lia|left; reflexivity]]].
      rewrite nth_error_app2 by lia. rewrite Nat.sub_diag. reflexivity.
    + unfold mode_ok. cbn [h_mode h_fl h_next h_max]. rewrite MO, FL, sent_app1. split; [symmetry; apply skipn_app_le; lia|].
      split; [symmetry; apply idn_S|exact MX].
  - cbn [snd]. apply inv_quiet; try assumption; try reflexivity; [intros p []|].
    unfold mode_ok. rewrite MO. auto.
Qed.

(** A reply is given. *)
Lemma inv_forward w tr m n h1 k f r down :
  inv w tr m n -> (forall x, In x down -> In x (w_down _ w)) ->
  h_mode h1 = MLoop -> h_fl h1 = skipn m (sent tr) -> h_next h1 = idn b (length (sent tr)) -> (h_max h1 <= K)%nat -> Forall (fits hack) (h_box h1) ->
  nth_error (sent tr) k = Some f -> nth_error (map snd (execs tr)) k = Some r -> (length (sent tr) <= k + lag + K + depth)%nat ->
  exists m', (m <= m')%nat /\ inv (fst (apply_hub _ (mkW _ (w_hub _ w) (w_sock _ w) (w_sent _ w) (w_up _ w) down (w_dev _ w)) (forward_reply h1 (f_hdr f ++ r))))
      (tr ++ map EHub (snd (forward_reply h1 (f_hdr f ++ r)))) m' n.
Proof using D1 LAG B d0 exec hack absmax.
  intros I DN MO FL NX MX BX F R LG.
  assert (Q : inv (fst (apply_hub _ (mkW _ (w_hub _ w) (w_sock _ w) (w_sent _ w) (w_up _ w) down (w_dev _ w)) (h1, [], []))) (tr ++ map EHub []) m n).
  { apply inv_quiet; try assumption; try reflexivity; [intros p []|]. unfold mode_ok. rewrite MO. auto. }
  pose proof (i_mn _ _ _ _ I) as MN. pose proof (i_win _ _ _ _ I) as WN. pose proof (inv_execs _ _ _ _ I) as X.
  unfold forward_reply. destruct (h_fl h1) as [|f0 fl] eqn:HF; [exists m; split; [lia|exact Q]|].
  assert (FH := i_hdr _ _ _ _ I k f F). rewrite FH.
  destruct (Nat.ltb_spec (length (ctl_header (idn b k) (order hack) ++ r)) 4) as [L|_].
  { exfalso. destruct (ctl_header_form (idn b k) (order hack)) as (? & ? & ? & ? & E). rewrite E in L. cbn in L. lia. }
  destruct (same _ _) eqn:SM; [|exists m; split; [lia|exact Q]].
  apply same_spec in SM. rewrite hdr_ctl in SM. rewrite body_ctl. symmetry in FL. apply skipn_cons in FL. destruct FL as (F0 & FL).
  rewrite (i_hdr _ _ _ _ I m f0 F0) in SM. apply ctl_header_inj in SM; [|apply idn_ok|apply idn_ok].
  assert (KN : (k < n)%nat) by (rewrite <- X, <- (map_length snd); apply nth_error_Some; congruence).
  apply idn_inj in SM; [|lia|lia]. subst k. rewrite F in F0. injection F0 as <-.
  exists (S m). split; [lia|]. cbn [snd].
  apply (inv_hub w tr m n (S m)); try assumption; change (sent (map EHub [VResp (f_pid f) E_OK (f_orig f ++ r)])) with (@nil flight); rewrite ?app_nil_r.
  - apply I.
  - lia.
  - rewrite (combine_next _ _ _ _ _ F R), map_app, (i_ans _ _ _ _ I). reflexivity.
  - intros p [].
  - unfold mode_ok. cbn [h_mode h_fl h_next h_max]. rewrite MO. auto.
Qed.

Lemma fits_version r : fits hack r -> first_version (q_pkt r) = None \/ first_version (q_pkt r) = Some true.
Proof using D1 LAG B d0 exec hack absmax. intros F. destruct (fits_parse _ _ F) as (H & _). destruct (first_version (q_pkt r)) as [[|]|]; auto. congruence. Qed.

Lemma inv_world w tr m n : inv w tr m n -> w = mkW _ (w_hub _ w) (w_sock _ w) (w_sent _ w) (w_up _ w) (w_down _ w) (w_dev _ w).
Proof using D1 LAG B d0 exec hack absmax. destruct w; reflexivity. Qed.

Lemma crash_quiet w tr m n h down : inv w tr m n -> (forall x, In x down -> In x (w_down _ w)) ->
  inv (fst (apply_hub _ (mkW _ (w_hub _ w) (w_sock _ w) (w_sent _ w) (w_up _ w) down (w_dev _ w)) (crash h))) (tr ++ map EHub (snd (crash h))) m n.
Proof using D1 LAG B d0 exec hack absmax. intros I DN. unfold crash. cbn [snd]. apply inv_quiet; try assumption; try reflexivity; [intros p []|constructor]. Qed.
Lemma give_up_quiet w tr m n h ps c down : inv w tr m n -> (forall x, In x down -> In x (w_down _ w)) -> c <> 0 ->
  inv (fst (apply_hub _ (mkW _ (w_hub _ w) (w_sock _ w) (w_sent _ w) (w_up _ w) down (w_dev _ w)) (give_up h ps c))) (tr ++ map EHub (snd (give_up h ps c))) m n.
Proof using D1 LAG B d0 exec hack absmax.
  intros I DN C. unfold give_up. cbn [snd]. destruct (errors_quiet (ps ++ map q_pid (h_box h)) c C) as (A1 & A2).
  apply inv_quiet; try assumption; try reflexivity; [intros p []|constructor].
Qed.

(** The packets sent in a recovery. *)
Lemma repeat_up tr w m n h t : inv w tr m n -> h_fl h = skipn m (sent tr) -> forall p, In p (repeat_pkts h t) -> up_ok (sent tr) (length (sent tr)) p.
Proof using D1 LAG B d0 exec hack absmax.
  intros I FL p H. pose proof (i_win _ _ _ _ I) as WN.
  assert (X : exists f, In f (h_fl h) /\ (p = f_hdr f ++ f_body f \/ p = resend_pkt (f_hdr f))).
  { destruct t; cbn [repeat_pkts] in H; apply in_map_iff in H; destruct H as (f & <- & H); exists f; auto. }
  destruct X as (f & FI & E). rewrite FL in FI. apply In_nth_error in FI. destruct FI as (j & J).
  assert (J' : nth_error (sent tr) (m + j) = Some f) by (rewrite nth_error_skipn_add in J; exact J).
  assert ((m + j < length (sent tr))%nat) by (apply nth_error_Some; congruence).
  right. exists (m + j)%nat, f. split; [exact J'|]. split; [lia|]. split; [lia|exact E].
Qed.

Lemma apply_ev w o : snd (apply_hub D w o) = map EHub (snd o).
Proof using D1 LAG B d0 exec hack absmax. destruct o as [[h ps] vs]. reflexivity. Qed.
Lemma apply_split w o w' e : apply_hub D w o = (w', e) -> w' = fst (apply_hub D w o) /\ e = map EHub (snd o).
Proof using D1 LAG B d0 exec hack absmax. intros H. rewrite <- apply_ev with (w := w), H. auto. Qed.

Lemma step_take w tr m n w' e : inv w tr m n -> step w LTake = Some (w', e) -> exists m', (m <= m')%nat /\ inv w' (tr ++ e) m' n.
Proof using D1 LAG B d0 exec hack absmax.
  intros I ST. exists m. split; [lia|]. cbn [Hub.step] in ST. destruct (take (w_hub D w)) as [o|] eqn:TK; [|discriminate].
  cbn [option_map] in ST. injection ST as ST. apply apply_split in ST. destruct ST as (-> & ->).
  pose proof (i_mode _ _ _ _ I) as MO. pose proof (i_box _ _ _ _ I) as BX. rewrite (inv_world _ _ _ _ I).
  unfold take in TK. destruct (h_box (w_hub D w)) as [|r t] eqn:BE; [discriminate|]. inversion BX as [|? ? FT BX']; subst.
  unfold mode_ok in MO. destruct (h_mode (w_hub D w)) as [|r0 v2 togo| |k0 togo|k0 t0|] eqn:MD; try discriminate.
  - destruct MO as (S0 & F0). destruct (fits_version r FT) as [V|V]; rewrite V in TK; injection TK as <-; [apply crash_quiet; auto|].
    cbn [snd]. apply inv_quiet; auto; [intros p [<-|[]]; left; reflexivity|]. unfold mode_ok, set_mode. cbn [h_mode h_fl]. auto.
  - destruct MO as (FL & NX & MX). destruct (Nat.ltb_spec (length (h_fl (w_hub D w))) (h_max (w_hub D w))) as [L|]; [|discriminate]. injection TK as <-.
    rewrite FL, skipn_length in L. apply inv_send; cbn [h_mode h_fl h_next h_max h_box]; auto. lia.
Qed.

Lemma step_time w tr m n w' e : inv w tr m n -> step w LTime = Some (w', e) -> exists m', (m <= m')%nat /\ inv w' (tr ++ e) m' n.
Proof using D1 LAG B d0 exec hack absmax.
  intros I ST. exists m. split; [lia|]. cbn [Hub.step] in ST. destruct (expire (w_hub D w)) as [o|] eqn:TK; [|discriminate].
  cbn [option_map] in ST. injection ST as ST. apply apply_split in ST. destruct ST as (-> & ->).
  pose proof (i_mode _ _ _ _ I) as MO. pose proof (i_box _ _ _ _ I) as BX. rewrite (inv_world _ _ _ _ I).
  unfold expire in TK. unfold mode_ok in MO. destruct (h_mode (w_hub D w)) as [|r0 v2 togo| |k0 togo|k0 t0|] eqn:MD; try discriminate.
  - destruct MO as (S0 & F0 & -> & FT). destruct (Nat.leb togo 1); injection TK as <-; [apply give_up_quiet; auto; discriminate|].
    cbn [snd]. apply inv_quiet; auto; [intros p [<-|[]]; left; reflexivity|]. unfold mode_ok, set_mode. cbn [h_mode h_fl]. auto.
  - assert (ST : o = (set_mode (w_hub D w) (MStat 0 5), [status_req], []) \/ o = (set_mode (w_hub D w) MDead, [], [])).
    { destruct (Nat.ltb _ _); [|injection TK as <-; auto]. destruct (h_box (w_hub D w)); [|discriminate]. destruct (h_fl (w_hub D w)); injection TK as <-; auto. }
    destruct ST as [-> | ->]; cbn [snd].
    + apply inv_quiet; auto; intros p [<-|[]]; left; reflexivity.
    + apply inv_quiet; auto; [intros p []|exact Logic.I].
  - destruct (Nat.leb togo 1); injection TK as <-; [apply give_up_quiet; auto; discriminate|].
    cbn [snd]. apply inv_quiet; auto; intros p [<-|[]]; left; reflexivity.
  - destruct (Nat.eqb (k0 + 1) 5); injection TK as <-; [apply give_up_quiet; auto; destruct t0; discriminate|].
    cbn [snd]. apply inv_quiet; auto; intros p [<-|[]]; left; reflexivity.
Qed.

Lemma step_down w tr m n i keep w' e : inv w tr m n -> timely hack lag w (LDown i keep) -> step w (LDown i keep) = Some (w', e) ->
  exists m', (m <= m')%nat /\ inv w' (tr ++ e) m' n.
Proof using D1 LAG B d0 exec hack absmax.
  intros I T ST. cbn [Hub.step] in ST. destruct (nth_error (w_down D w) i) as [g|] eqn:G; [|discriminate].
  destruct (Nat.eqb_spec (g_sock g) (w_sock D w)) as [SK|]; [|discriminate].
  destruct (recv absmax (w_hub D w) (g_bytes g)) as [o|] eqn:RV; [|discriminate].
  assert (TM := T g G). assert (GI := nth_error_In _ _ G). destruct (i_down _ _ _ _ I g GI SK) as (BN & U).
  injection ST as ST. apply apply_split in ST. destruct ST as (-> & ->).
  set (down := if keep then w_down D w else drop i (w_down D w)).
  assert (KEEP : forall x, In x down -> In x (w_down D w)) by (unfold down; destruct keep; [auto|intros; eapply in_drop; eassumption]).
  pose proof (i_mode _ _ _ _ I) as MO. pose proof (i_box _ _ _ _ I) as BX. pose proof (i_mn _ _ _ _ I) as MN. pose proof (i_sent _ _ _ _ I) as SN.
  assert (DB : N.of_nat depth < 2 ^ 32) by (change (2 ^ 32) with 4294967296; lia).
  destruct U as [(x & XN & U)|(k & f & r & F & R & K1 & U)]; rewrite U in RV.
  - unfold recv in RV. rewrite hdr_status_with in RV. change (same [0x20; 0; 0; 0xF1] [0x20; 0; 0; 0xF1]) with true in RV. cbn beta iota in RV.
    rewrite parse_status_with in RV by (try apply idn_ok; assumption).
    unfold mode_ok in MO. destruct (h_mode (w_hub D w)) as [|r0 v2 togo| |k0 togo|k0 t0|] eqn:MD; try discriminate.
    + exists m. split; [lia|]. injection RV as <-. apply crash_quiet; auto.
    + exists m. split; [lia|]. injection RV as <-. destruct MO as (S0 & F0 & V2 & FT). rewrite S0 in MN. cbn in MN.
      replace x with 0%nat by lia. replace m with 0%nat in * by lia.
      apply inv_send; cbn [h_mode h_fl h_next h_max h_box]; auto; rewrite ?S0; cbn [length]; auto; unfold window; lia.
    + exists m. split; [lia|]. injection RV as <-. destruct MO as (FL & NX & MX).
      assert (FW : forward_reply (w_hub D w) (status_with depth (idn b x)) = (w_hub D w, [], [])).
      { unfold forward_reply. destruct (h_fl (w_hub D w)) as [|f0 fl] eqn:HF; [reflexivity|].
        rewrite hdr_status_with. replace (Nat.ltb (length (status_with depth (idn b x))) 4) with false by reflexivity.
        destruct (same _ _) eqn:SM; [|reflexivity]. exfalso. apply same_spec in SM. symmetry in FL. apply skipn_cons in FL. destruct FL as (F0 & _).
        rewrite (i_hdr _ _ _ _ I m f0 F0) in SM. symmetry in SM. exact (ctl_not_status _ _ SM). }
      rewrite FW. cbn [snd]. apply inv_quiet; auto; [intros p []|]. unfold mode_ok. rewrite MD. auto.
    + exists m. split; [lia|]. destruct MO as (FL & NX & MX). destruct (h_fl (w_hub D w)) as [|f0 fl] eqn:HF; injection RV as <-; [apply crash_quiet; auto|]. rewrite <- HF in FL. cbn [snd].
      apply inv_quiet; auto; [eapply repeat_up; eauto|]. unfold mode_ok, set_mode. cbn [h_mode h_fl h_next h_max]. auto.
    + exists m. split; [lia|]. destruct (h_fl (w_hub D w)) as [|f0 fl] eqn:HF; [discriminate|]. destruct (same _ _) eqn:SM; [|discriminate].
      exfalso. apply same_spec in SM. destruct MO as (FL & _). symmetry in FL. apply skipn_cons in FL. destruct FL as (F0 & _).
      rewrite (i_hdr _ _ _ _ I m f0 F0) in SM. symmetry in SM. exact (ctl_not_status _ _ SM).
  - assert (FH := i_hdr _ _ _ _ I k f F).
    assert (NS : same (hdr (f_hdr f ++ r)) [0x20; 0; 0; 0xF1] = false).
    { destruct (same _ _) eqn:SM; [|reflexivity]. apply same_spec in SM. rewrite FH, hdr_ctl in SM. exfalso. exact (ctl_not_status _ _ SM). }
    unfold recv in RV. rewrite NS in RV. cbn beta iota in RV.
    unfold mode_ok in MO. destruct (h_mode (w_hub D w)) as [|r0 v2 togo| |k0 togo|k0 t0|] eqn:MD; try discriminate.
    + exists m. split; [lia|]. injection RV as <-. apply crash_quiet; auto.
    + injection RV as <-. destruct MO as (FL & NX & MX). eapply inv_forward; eauto. lia.
    + destruct (h_fl (w_hub D w)) as [|f0 fl] eqn:HF; [discriminate|]. destruct (same _ _) eqn:SM; [|discriminate]. injection RV as <-.
      destruct MO as (FL & NX & MX). eapply inv_forward; eauto; unfold set_mode; cbn [h_mode h_fl h_next h_max h_box]; auto; [congruence|lia].
Qed.

Theorem step_inv w tr m n l w' e : inv w tr m n -> timely hack lag w l -> step w l = Some (w', e) ->
  exists m' n', (m <= m')%nat /\ inv w' (tr ++ e) m' n'.
Proof using D1 LAG B d0 exec hack absmax.
  intros I T ST. destruct l as [r| | |i keep|i keep|i|i|p|].
  - exists m, n. split; [lia|]. cbn [Hub.step] in ST. destruct I. cbn [timely] in T.
    destruct (h_mode (w_hub D w)) eqn:MD; injection ST as <- <-; rewrite ?app_nil_r;
      (split; rewrite ?sent_app, ?execs_app, ?answers_app; change (sent [ELost r]) with (@nil flight); change (execs [ELost r]) with (@nil (bytes * bytes));
       change (answers [ELost r]) with (@nil (pid * bytes)); rewrite ?app_nil_r; cbn [w_hub w_sock w_sent w_up w_down w_dev h_box]; auto);
      try (unfold mode_ok in i_mode0 |- *; cbn [h_mode h_fl h_next h_max]; rewrite MD in *; exact i_mode0);
      apply Forall_app; auto.
  - destruct (step_take _ _ _ _ _ _ I ST) as (m' & A & C). exists m', n. auto.
  - destruct (step_time _ _ _ _ _ _ I ST) as (m' & A & C). exists m', n. auto.
  - destruct (step_up _ _ _ _ _ _ _ _ I T ST) as (n' & A). exists m, n'. auto.
  - destruct (step_down _ _ _ _ _ _ _ _ I T ST) as (m' & A & C). exists m', n. auto.
  - exists m, n. split; [lia|]. injection ST as <- <-. rewrite app_nil_r. destruct I. split; cbn [w_hub w_sock w_sent w_up w_down w_dev]; auto.
    intros g H. apply i_up0. eapply in_drop, H.
  - exists m, n. split; [lia|]. injection ST as <- <-. rewrite app_nil_r. destruct I. split; cbn [w_hub w_sock w_sent w_up w_down w_dev]; auto.
    intros g H. apply i_down0. eapply in_drop, H.
  - destruct T.
  - destruct T.
Qed.

Theorem run_inv ls : forall w tr m n w' e, inv w tr m n -> along step (timely hack lag) w ls -> run D exec hack depth absmax w ls = Some (w', e) ->
  exists m' n', (m <= m')%nat /\ inv w' (tr ++ e) m' n'.
Proof using D1 LAG B d0 exec hack absmax.
  induction ls as [|l ls IH]; intros w tr m n w' e I A R.
  - injection R as <- <-. exists m, n. rewrite app_nil_r. auto.
  - cbn [run] in R. cbn [along] in A. destruct A as (T & A). destruct (step w l) as [[w1 e1]|] eqn:ST; [|discriminate].
    destruct (run D exec hack depth absmax w1 ls) as [[w2 e2]|] eqn:RN; [|discriminate]. injection R as <- <-.
    destruct (step_inv _ _ _ _ _ _ _ I T ST) as (m1 & n1 & L1 & I1).
    destruct (IH _ _ _ _ _ _ I1 A RN) as (m2 & n2 & L2 & I2). exists m2, n2. rewrite app_assoc. split; [lia|exact I2].
Qed.
End I.

Theorem inv_fresh {D} exec hack depth absmax (w : world D) : fresh hack depth w ->
  inv D exec hack depth absmax (v_d _ (w_dev _ w)) (next_id (v_last _ (w_dev _ w))) w [] 0 0.
Proof.
  intros (MD & FL & BX & SN & U & V & (L & LN & H)). rewrite Forall_forall in U, V.
  split; cbn [sent execs answers flat_map map length]; auto; try lia.
  - intros [|k] f; discriminate.
  - symmetry. apply idn_0, next_ok, L.
  - intros i id p E. right. split; [lia|]. destruct (H i id p E) as [->|(Z & j & J & ->)]; [left; reflexivity|].
    right. exists j. split; [lia|]. rewrite dec_next by assumption. reflexivity.
  - intros g G S. destruct (U g G S).
  - intros g G S. destruct (V g G S).
  - unfold mode_ok. rewrite MD. auto.
Qed.
