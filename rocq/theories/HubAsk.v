(** The requests in the device client of [Hub.v] and what becomes of them. *)
From Coq Require Import NArith ZArith List Bool Lia PeanoNat ZifyBool ZifyNat ZifyN Permutation.
From Verif Require Import Hub HubSpec HubProofs HubInv.
Import ListNotations.
Open Scope N_scope.

Lemma ended_app a b : ended (a ++ b) = ended a ++ ended b. Proof. apply flat_map_app. Qed.
Lemma asked_app a b : asked (a ++ b) = asked a ++ asked b. Proof. apply flat_map_app. Qed.
Lemma ended_resp ps c : ended (map EHub (map (fun p => VResp p c []) ps)) = ps.
Proof. unfold ended. induction ps as [|p ps IH]; [reflexivity|]. cbn [map flat_map app]. f_equal. exact IH. Qed.

(** What one action of the device client does to the requests in it: [ids] their
    senders, before; the request [r] if it is put aside is counted. *)
Definition books (o : outcome) (ids : list pid) : Prop :=
  settled (fst (fst o)) /\ (In VCrash (snd o) \/ ended (map EHub (snd o)) ++ waiting (fst (fst o)) = ids).
Definition books_perm (o : outcome) (ids : list pid) : Prop :=
  settled (fst (fst o)) /\ (In VCrash (snd o) \/ Permutation (ended (map EHub (snd o)) ++ waiting (fst (fst o))) ids).

Lemma books_weak o ids : books o ids -> books_perm o ids.
Proof. intros (A & [B|B]); split; auto. right. rewrite B. apply Permutation_refl. Qed.

Lemma books_crash h ids : books (crash h) ids.
Proof. split; [cbn; auto|left; left; reflexivity]. Qed.
Lemma books_give_up h ps c : books (give_up h ps c) (ps ++ map q_pid (h_box h)).
Proof. split; [cbn; auto|right]. unfold give_up. cbn [fst snd]. rewrite ended_resp. apply app_nil_r. Qed.
Lemma books_forward h p : h_mode h = MLoop -> books (forward_reply h p) (waiting h).
Proof.
  intros M. unfold forward_reply. assert (Q : books (h, [], []) (waiting h)) by (split; [cbn [fst]; unfold settled; rewrite M; exact I|right; reflexivity]).
  destruct (h_fl h) as [|f fl] eqn:F; [exact Q|]. destruct (Nat.ltb _ _); [apply books_crash|]. destruct (same _ _); [|exact Q].
  split; [unfold settled; cbn [fst h_mode]; rewrite M; exact I|]. right. cbn [fst snd]. unfold waiting, fl_pids. cbn [h_mode h_fl h_box]. rewrite M, F. reflexivity.
Qed.
Lemma books_send_ctl h r : h_mode h = MLoop -> is_ctl r = true -> books (send_request h r) (fl_pids h ++ q_pid r :: map q_pid (h_box h)).
Proof.
  intros M C. unfold send_request. rewrite is_ctl_parse in C. destruct (parse_ctl (q_pkt r)) as [e|]; [|discriminate].
  destruct (h_next h =? 0); [cbn [fst snd]; split; [cbn; auto|left; left; reflexivity]|].
  split; [unfold settled; cbn [fst h_mode]; rewrite M; exact I|]. right. cbn [fst snd]. unfold waiting, fl_pids. cbn [h_mode h_fl h_box]. rewrite M, map_app, <- app_assoc. reflexivity.
Qed.
Lemma books_send h r : h_mode h = MLoop -> books_perm (send_request h r) (fl_pids h ++ q_pid r :: map q_pid (h_box h)).
Proof.
  intros M. destruct (is_ctl r) eqn:C; [apply books_weak, books_send_ctl; assumption|].
  unfold send_request. rewrite is_ctl_parse in C. destruct (parse_ctl (q_pkt r)) as [e|]; [discriminate|].
  split; [cbn [fst]; unfold settled; rewrite M; exact I|]. right. cbn [fst snd]. unfold waiting. rewrite M. change (ended (map EHub [VResp (q_pid r) E_VERSION []])) with [q_pid r].
  cbn [app]. apply Permutation_middle.
Qed.
Lemma waiting_mode h m : (forall r v t, m <> MSetup r v t) -> (forall r v t, h_mode h <> MSetup r v t) -> waiting (set_mode h m) = waiting h.
Proof. intros A B. unfold waiting, set_mode, fl_pids. cbn [h_mode h_fl h_box]. destruct m; destruct (h_mode h); try reflexivity; exfalso; (eapply A; reflexivity) || (eapply B; reflexivity). Qed.

(** The requests in the device client are control packets. *)
Definition all_ctl (h : hub) : Prop :=
  Forall (fun r => is_ctl r = true) (h_box h) /\ match h_mode h with MSetup r _ _ => is_ctl r = true | _ => True end.

Lemma take_books h o : settled h -> take h = Some o -> books_perm o (waiting h) /\ (all_ctl h -> books o (waiting h)).
Proof.
  intros S T. unfold take in T. destruct (h_box h) as [|r t] eqn:B; [discriminate|].
  destruct (h_mode h) eqn:M; try discriminate.
  - unfold settled in S. rewrite M in S. destruct (first_version (q_pkt r)) as [v2|]; injection T as <-.
    + assert (Q : books (set_mode (mkHub MIdle (h_next h) (h_fl h) (h_max h) t) (MSetup r v2 5), [if v2 then status_req else status_req13], []) (waiting h)).
      { split; [exact S|]. right. cbn [fst snd]. unfold waiting, set_mode, fl_pids. cbn [h_mode h_fl h_box]. rewrite M, S, B. reflexivity. }
      split; [apply books_weak, Q|intros _; exact Q].
    + split; [apply books_weak|intros _]; apply books_crash.
  - destruct (Nat.ltb _ _); [|discriminate]. injection T as <-.
    assert (E : waiting h = fl_pids h ++ q_pid r :: map q_pid t) by (unfold waiting; rewrite M, B; reflexivity).
    rewrite E. split; [apply (books_send (mkHub MLoop (h_next h) (h_fl h) (h_max h) t)); reflexivity|].
    intros (A & _). rewrite B in A. inversion A; subst. apply (books_send_ctl (mkHub MLoop (h_next h) (h_fl h) (h_max h) t)); [reflexivity|assumption].
Qed.

Lemma expire_books h o : settled h -> expire h = Some o -> books o (waiting h).
Proof.
  intros S T. unfold expire in T. destruct (h_mode h) eqn:M; try discriminate.
  - unfold settled in S. rewrite M in S. assert (E : waiting h = [q_pid r] ++ map q_pid (h_box h)) by (unfold waiting, fl_pids; rewrite M, S; reflexivity).
    destruct (Nat.leb togo 1); injection T as <-; [rewrite E; apply books_give_up|].
    split; [unfold settled, set_mode; cbn [fst h_mode h_fl]; exact S|right; cbn [fst snd]; rewrite E; unfold waiting, set_mode, fl_pids; cbn [h_mode h_fl h_box]; rewrite S; reflexivity].
  - assert (Q : books (set_mode h (MStat 0 5), [status_req], []) (waiting h)).
    { split; [exact I|right]. cbn [fst snd]. apply waiting_mode; [discriminate|rewrite M; discriminate]. }
    destruct (Nat.ltb _ _); [|injection T as <-; exact Q]. destruct (h_box h) eqn:B; [|discriminate]. destruct (h_fl h) eqn:F; injection T as <-; [|exact Q].
    split; [unfold settled, set_mode; cbn; auto|right]. cbn [fst snd]. apply waiting_mode; [discriminate|rewrite M; discriminate].
  - assert (E : waiting h = fl_pids h ++ map q_pid (h_box h)) by (unfold waiting; rewrite M; reflexivity).
    destruct (Nat.leb togo 1); injection T as <-; [rewrite E; apply books_give_up|].
    split; [exact I|right]. cbn [fst snd]. apply waiting_mode; [discriminate|rewrite M; discriminate].
  - assert (E : waiting h = fl_pids h ++ map q_pid (h_box h)) by (unfold waiting; rewrite M; reflexivity).
    destruct (Nat.eqb (k + 1) 5); injection T as <-; [rewrite E; apply books_give_up|].
    split; [exact I|right]. cbn [fst snd]. apply waiting_mode; [discriminate|rewrite M; discriminate].
Qed.

Lemma recv_books absmax h p o : settled h -> recv absmax h p = Some o -> books_perm o (waiting h) /\ (all_ctl h -> books o (waiting h)).
Proof.
  intros S T. unfold recv in T. destruct (h_mode h) eqn:M; try discriminate.
  - injection T as <-. split; [apply books_weak|intros _]; apply books_crash.
  - destruct (same _ _); [|discriminate]. unfold settled in S. rewrite M in S.
    assert (E : waiting h = q_pid r :: map q_pid (h_box h)) by (unfold waiting, fl_pids; rewrite M, S; reflexivity). rewrite E.
    destruct (parse_status p); injection T as <-.
    + set (h1 := mkHub MLoop next [] (Nat.min (N.to_nat nbuf) absmax) (h_box h)).
      split; [apply (books_send h1); reflexivity|]. intros (_ & A). rewrite M in A. apply (books_send_ctl h1); [reflexivity|exact A].
    + split; [apply books_weak|intros _]; apply (books_give_up h [q_pid r]).
    + split; [apply books_weak|intros _]; apply books_crash.
  - injection T as <-. split; [apply books_weak|intros _]; apply books_forward, M.
  - destruct (same _ _); [|discriminate].
    assert (E : waiting h = fl_pids h ++ map q_pid (h_box h)) by (unfold waiting; rewrite M; reflexivity).
    destruct (parse_status p).
    + destruct (h_fl h) eqn:F; injection T as <-.
      * split; [apply books_weak|intros _]; apply books_crash.
      * match goal with |- books_perm ?o _ /\ _ => assert (Q : books o (waiting h)) end.
        { split; [exact I|right]. cbn [fst snd]. apply waiting_mode; [discriminate|rewrite M; discriminate]. }
        split; [apply books_weak, Q|intros _; exact Q].
    + injection T as <-. rewrite E. split; [apply books_weak|intros _]; apply books_give_up.
    + injection T as <-. split; [apply books_weak|intros _]; apply books_crash.
  - destruct (h_fl h) eqn:F; [discriminate|]. destruct (same _ _); [|discriminate]. injection T as <-.
    rewrite <- (waiting_mode h MLoop) by (try discriminate; rewrite M; discriminate).
    split; [apply books_weak|intros _]; apply books_forward; reflexivity.
Qed.

(** The requests stay control packets. *)
Definition pending (h : hub) : list req := match h_mode h with MSetup r _ _ => [r] | _ => [] end ++ h_box h.
Lemma all_ctl_pending h : all_ctl h <-> Forall (fun r => is_ctl r = true) (pending h).
Proof. unfold all_ctl, pending. destruct (h_mode h); cbn [app]; rewrite ?Forall_cons_iff; tauto. Qed.

(** What is forwarded, and the requests. *)
Definition key (f : flight) := (f_pid f, f_orig f, f_body f).
Definition orig (r : req) := (q_pid r, hdr (q_pkt r), body (q_pkt r)).
Definition keeps (o : outcome) (rs : list req) : Prop :=
  exists rest, map key (sent (map EHub (snd o))) ++ map orig (filter is_ctl (pending (fst (fst o)) ++ rest)) = map orig (filter is_ctl rs) /\
    (h_mode (fst (fst o)) = MDead \/ rest = []) /\ (forall P : req -> Prop, Forall P rs -> Forall P (pending (fst (fst o)))).

Lemma keeps_end h ps vs rs : sent (map EHub vs) = [] -> h_mode h = MDead -> h_box h = [] -> keeps (h, ps, vs) rs.
Proof. intros S M B. exists rs. cbn [fst snd]. unfold pending. rewrite S, M, B. cbn [map app]. auto. Qed.
Lemma keeps_same h ps vs : sent (map EHub vs) = [] -> keeps (h, ps, vs) (pending h).
Proof. intros S. exists []. cbn [fst snd]. rewrite S, app_nil_r. cbn [map app]. auto. Qed.
Lemma keeps_crash h rs : keeps (crash h) rs.
Proof. apply keeps_end; reflexivity. Qed.
Lemma keeps_give_up h ps c rs : c <> 0 -> keeps (give_up h ps c) rs.
Proof. intros C. apply keeps_end; try reflexivity. apply (errors_quiet _ c C). Qed.
Lemma keeps_forward h p : h_mode h = MLoop -> keeps (forward_reply h p) (pending h).
Proof.
  intros M. unfold forward_reply. destruct (h_fl h) as [|f fl]; [apply keeps_same; reflexivity|]. destruct (Nat.ltb _ _); [apply keeps_crash|].
  destruct (same _ _); [|apply keeps_same; reflexivity].
  change (pending h) with (pending (mkHub (h_mode h) (h_next h) fl (h_max h) (h_box h))). apply keeps_same; reflexivity.
Qed.
Lemma keeps_send h r : h_mode h = MLoop -> keeps (send_request h r) (r :: h_box h).
Proof.
  intros M. unfold send_request. destruct (parse_ctl (q_pkt r)) as [e|] eqn:P.
  - destruct (h_next h =? 0).
    + cbn [fst snd]. apply keeps_end; reflexivity.
    + exists []. cbn [fst snd]. unfold pending. cbn [h_mode h_box]. rewrite M, app_nil_r. cbn [app filter]. rewrite (is_ctl_parse r), P. cbn [map].
      split; [reflexivity|]. split; [auto|]. intros Q X. inversion X; assumption.
  - exists []. cbn [fst snd]. unfold pending. rewrite M, app_nil_r. cbn [app filter]. rewrite (is_ctl_parse r), P.
    split; [reflexivity|]. split; [auto|]. intros Q X. inversion X; assumption.
Qed.

Lemma take_keeps h o : take h = Some o -> keeps o (pending h).
Proof.
  intros T. unfold take in T. unfold pending. destruct (h_box h) as [|r t] eqn:B; [discriminate|].
  destruct (h_mode h) eqn:M; try discriminate; cbn [app].
  - destruct (first_version (q_pkt r)) as [v2|]; injection T as <-; [|apply keeps_crash].
    change (r :: t) with (pending (set_mode (mkHub MIdle (h_next h) (h_fl h) (h_max h) t) (MSetup r v2 5))). apply keeps_same; reflexivity.
  - destruct (Nat.ltb _ _); [|discriminate]. injection T as <-. apply (keeps_send (mkHub MLoop (h_next h) (h_fl h) (h_max h) t)); reflexivity.
Qed.
Lemma keeps_mode h m ps : (forall r v t, m <> MSetup r v t) -> (forall r v t, h_mode h <> MSetup r v t) -> keeps (set_mode h m, ps, []) (pending h).
Proof.
  intros A B. assert (E : pending h = pending (set_mode h m)).
  { unfold pending, set_mode. cbn [h_mode h_box]. destruct m; destruct (h_mode h); try reflexivity; exfalso; (eapply A; reflexivity) || (eapply B; reflexivity). }
  rewrite E. apply keeps_same. reflexivity.
Qed.
Lemma expire_keeps h o : expire h = Some o -> keeps o (pending h).
Proof.
  intros T. unfold expire in T. destruct (h_mode h) eqn:M; try discriminate.
  - destruct (Nat.leb togo 1); injection T as <-; [apply keeps_give_up; discriminate|].
    assert (E : pending h = pending (set_mode h (MSetup r v2 (togo - 1)))) by (unfold pending; cbn; rewrite M; reflexivity). rewrite E. apply keeps_same. reflexivity.
  - destruct (Nat.ltb _ _); [|injection T as <-; apply keeps_mode; [discriminate|rewrite M; discriminate]].
    destruct (h_box h) eqn:B; [|discriminate]. destruct (h_fl h); injection T as <-; (apply keeps_mode; [discriminate|rewrite M; discriminate]).
  - destruct (Nat.leb togo 1); injection T as <-; [apply keeps_give_up; discriminate|]. apply keeps_mode; [discriminate|rewrite M; discriminate].
  - destruct (Nat.eqb (k + 1) 5); injection T as <-; [apply keeps_give_up; destruct t; discriminate|]. apply keeps_mode; [discriminate|rewrite M; discriminate].
Qed.
Lemma recv_keeps absmax h p o : recv absmax h p = Some o -> keeps o (pending h).
Proof.
  intros T. unfold recv in T. destruct (h_mode h) eqn:M; try discriminate.
  - injection T as <-. apply keeps_crash.
  - destruct (same _ _); [|discriminate]. destruct (parse_status p); injection T as <-; [|apply keeps_give_up; discriminate|apply keeps_crash].
    unfold pending. rewrite M. cbn [app]. apply (keeps_send (mkHub MLoop next [] (Nat.min (N.to_nat nbuf) absmax) (h_box h))). reflexivity.
  - injection T as <-. apply keeps_forward, M.
  - destruct (same _ _); [|discriminate]. destruct (parse_status p); [destruct (h_fl h)|..]; injection T as <-; try apply keeps_crash.
    + apply keeps_mode; [discriminate|rewrite M; discriminate].
    + apply keeps_give_up; discriminate.
  - destruct (h_fl h) eqn:F; [discriminate|]. destruct (same _ _); [|discriminate]. injection T as <-.
    assert (E : pending h = pending (set_mode h MLoop)) by (unfold pending; cbn; rewrite M; reflexivity). rewrite E. apply keeps_forward. reflexivity.
Qed.

Section A.
Variable D : Type.
Variable exec : D -> bytes -> D * bytes.
Variable hack : bool.
Variable depth absmax : nat.
Notation step := (step D exec hack depth absmax).
Notation run := (run D exec hack depth absmax).

Lemma step_shape w l w' e : step w l = Some (w', e) ->
  (exists o, (take (w_hub D w) = Some o \/ expire (w_hub D w) = Some o \/ exists p, recv absmax (w_hub D w) p = Some o) /\
     w_hub D w' = fst (fst o) /\ e = map EHub (snd o) /\ asked [l] = []) \/
  (w_hub D w' = w_hub D w /\ (e = [] \/ exists b r, e = [EExec b r]) /\ asked [l] = []) \/
  (exists r, l = LCast r /\ h_mode (w_hub D w) = MDead /\ w' = w /\ e = [ELost r]) \/
  (exists r, l = LCast r /\ h_mode (w_hub D w) <> MDead /\ e = [] /\
     w_hub D w' = mkHub (h_mode (w_hub D w)) (h_next (w_hub D w)) (h_fl (w_hub D w)) (h_max (w_hub D w)) (h_box (w_hub D w) ++ [r])) \/
  (l = LRestart /\ h_mode (w_hub D w) = MDead /\ e = [] /\ w_hub D w' = mkHub MIdle 0 [] 0 []).
Proof.
  intros ST. assert (AP : forall w0 o, apply_hub D w0 o = (w', e) -> w_hub D w' = fst (fst o) /\ e = map EHub (snd o)).
  { intros w0 [[h ps] vs] E. injection E as <- <-. auto. }
  destruct l as [r| | |i keep|i keep|i|i|p|]; cbn [Hub.step] in ST.
  - destruct (h_mode (w_hub D w)) eqn:M.
    6: { right; right; left. injection ST as <- <-. exists r. auto. }
    all: right; right; right; left; injection ST as <- <-; exists r; cbn [w_hub]; repeat split; discriminate.
  - destruct (take (w_hub D w)) as [o|] eqn:T; [|discriminate]. injection ST as ST. apply AP in ST. left. exists o. tauto.
  - destruct (expire (w_hub D w)) as [o|] eqn:T; [|discriminate]. injection ST as ST. apply AP in ST. left. exists o. tauto.
  - destruct (nth_error _ _) as [g|]; [|discriminate]. destruct (receive D exec hack depth (w_dev D w) (g_bytes g)) as [[v r] x].
    injection ST as <- <-. right; left. cbn [w_hub]. split; [reflexivity|]. split; [|reflexivity]. destruct x as [[b0 r0]|]; eauto.
  - destruct (nth_error _ _) as [g|]; [|discriminate]. destruct (Nat.eqb _ _); [|discriminate].
    destruct (recv absmax (w_hub D w) (g_bytes g)) as [o|] eqn:T; [|discriminate]. injection ST as ST. apply AP in ST. left. exists o. split; [right; right; eauto|]. tauto.
  - injection ST as <- <-. right; left. auto.
  - injection ST as <- <-. right; left. auto.
  - destruct (recv absmax (w_hub D w) p) as [o|] eqn:T; [|discriminate]. injection ST as ST. apply AP in ST. left. exists o. split; [right; right; eauto|]. tauto.
  - destruct (h_mode (w_hub D w)) eqn:M; try discriminate. injection ST as <- <-. right; right; right; right. auto.
Qed.

Lemma step_books w l w' e : settled (w_hub D w) -> step w l = Some (w', e) -> no_crash e ->
  settled (w_hub D w') /\
  Permutation (ended e ++ waiting (w_hub D w')) (waiting (w_hub D w) ++ map q_pid (asked [l])) /\
  (all_ctl (w_hub D w) -> Forall (fun r => is_ctl r = true) (asked [l]) ->
    ended e ++ waiting (w_hub D w') = waiting (w_hub D w) ++ map q_pid (asked [l]) /\ all_ctl (w_hub D w')).
Proof.
  intros S ST NC. apply step_shape in ST. destruct ST as [(o & T & H & -> & A)|[(H & E & A)|[(r & -> & M & -> & ->)|[(r & -> & M & -> & H)|(-> & M & -> & H)]]]].
  - assert (Q : books_perm o (waiting (w_hub D w)) /\ (all_ctl (w_hub D w) -> books o (waiting (w_hub D w)))).
    { destruct T as [T|[T|(p & T)]]; [eapply take_books; eauto| |eapply recv_books; eauto].
      assert (X := expire_books _ _ S T). split; [apply books_weak, X|auto]. }
    assert (KP : keeps o (pending (w_hub D w))) by (destruct T as [T|[T|(p & T)]]; [eapply take_keeps|eapply expire_keeps|eapply recv_keeps]; eauto).
    assert (NV : ~ In VCrash (snd o)) by (intros V; apply NC, in_map, V).
    rewrite H, A. cbn [map]. rewrite app_nil_r. destruct Q as ((S' & Q1) & Q2). split; [exact S'|]. destruct Q1 as [Q1|Q1]; [contradiction|]. split; [exact Q1|].
    intros AC _. destruct (Q2 AC) as (_ & [Q3|Q3]); [contradiction|]. split; [exact Q3|].
    destruct KP as (rest & _ & _ & P). apply all_ctl_pending. apply P. apply all_ctl_pending. exact AC.
  - rewrite H, A. cbn [map]. rewrite app_nil_r. assert (EE : ended e = []) by (destruct E as [-> |(b0 & r0 & ->)]; reflexivity). rewrite EE. cbn [app]. auto.
  - unfold settled in S. rewrite M in S. destruct S as (S1 & S2).
    assert (W : waiting (w_hub D w) = []) by (unfold waiting, fl_pids; rewrite M, S1, S2; reflexivity). rewrite W. cbn.
    unfold settled. rewrite M, S1, S2. auto.
  - assert (W : waiting (w_hub D w') = waiting (w_hub D w) ++ [q_pid r]) by (rewrite H; unfold waiting, fl_pids; cbn [h_mode h_fl h_box]; rewrite map_app, !app_assoc; reflexivity).
    rewrite W. cbn [ended flat_map app asked map]. split; [|split; [apply Permutation_refl|]].
    + rewrite H. unfold settled in S |- *. cbn [h_mode h_fl h_box]. destruct (h_mode (w_hub D w)); auto. congruence.
    + intros (A1 & A2) F. split; [reflexivity|]. rewrite H. unfold all_ctl. cbn [h_box h_mode]. split; [apply Forall_app; auto|exact A2].
  - unfold settled in S. rewrite M in S. destruct S as (S1 & S2).
    assert (W : waiting (w_hub D w) = []) by (unfold waiting, fl_pids; rewrite M, S1, S2; reflexivity). rewrite W, H. cbn. unfold all_ctl. cbn. auto.
Qed.

Lemma no_crash_app a b : no_crash (a ++ b) -> no_crash a /\ no_crash b.
Proof. unfold no_crash. intros H. split; intros I; apply H, in_or_app; auto. Qed.

Theorem run_books ls : forall w w' tr, settled (w_hub D w) -> run w ls = Some (w', tr) -> no_crash tr ->
  settled (w_hub D w') /\
  Permutation (ended tr ++ waiting (w_hub D w')) (waiting (w_hub D w) ++ map q_pid (asked ls)) /\
  (all_ctl (w_hub D w) -> Forall (fun r => is_ctl r = true) (asked ls) ->
    ended tr ++ waiting (w_hub D w') = waiting (w_hub D w) ++ map q_pid (asked ls)).
Proof.
  induction ls as [|l ls IH]; intros w w' tr S R NC.
  - injection R as <- <-. cbn. rewrite app_nil_r. auto.
  - cbn [Hub.run] in R. destruct (step w l) as [[w1 e1]|] eqn:ST; [|discriminate]. destruct (run w1 ls) as [[w2 e2]|] eqn:RN; [|discriminate]. injection R as <- <-.
    apply no_crash_app in NC. destruct NC as (N1 & N2). destruct (step_books _ _ _ _ S ST N1) as (S1 & P1 & Q1). destruct (IH _ _ _ S1 RN N2) as (S2 & P2 & Q2).
    change (l :: ls) with ([l] ++ ls). rewrite ended_app, asked_app, map_app. split; [exact S2|]. split.
    + rewrite <- app_assoc. eapply Permutation_trans; [apply Permutation_app_head, P2|]. rewrite !app_assoc. apply Permutation_app_tail, P1.
    + intros A F. apply Forall_app in F. destruct F as (F1 & F2). destruct (Q1 A F1) as (Q3 & A1). rewrite <- app_assoc, (Q2 A1 F2), !app_assoc, Q3. reflexivity.
Qed.

(** Without a restart, what is forwarded are the control packets, in order. *)
Theorem run_sent ls : forall w w' tr, ~ In LRestart ls -> run w ls = Some (w', tr) ->
  h_mode (w_hub D w) <> MDead ->
  exists rest, map key (sent tr) ++ rest = map orig (filter is_ctl (pending (w_hub D w) ++ asked ls)) /\
    (h_mode (w_hub D w') <> MDead -> rest = map orig (filter is_ctl (pending (w_hub D w')))).
Proof.
  assert (DEAD : forall ks w w' tr, ~ In LRestart ks -> run w ks = Some (w', tr) -> h_mode (w_hub D w) = MDead -> sent tr = [] /\ h_mode (w_hub D w') = MDead).
  { clear ls. induction ks as [|l ls IH]; intros w w' tr NR R M; [injection R as <- <-; auto|].
    cbn [Hub.run] in R. destruct (step w l) as [[w1 e1]|] eqn:ST; [|discriminate]. destruct (run w1 ls) as [[w2 e2]|] eqn:RN; [|discriminate]. injection R as <- <-.
    assert (X : sent e1 = [] /\ h_mode (w_hub D w1) = MDead).
    { apply step_shape in ST. destruct ST as [(o & T & H & -> & A)|[(H & E & A)|[(r & -> & _ & -> & ->)|[(r & -> & M' & -> & H)|(-> & _ & -> & H)]]]].
      - exfalso. destruct T as [T|[T|(p & T)]]; unfold take, expire, recv in T; rewrite M in T; try discriminate. destruct (h_box (w_hub D w)); discriminate.
      - rewrite H. destruct E as [-> |(b0 & r0 & ->)]; auto.
      - auto.
      - contradiction.
      - exfalso. apply NR. left. reflexivity. }
    destruct X as (X1 & X2). rewrite sent_app, X1. eapply (IH w1); eauto. intros I; apply NR; right; exact I. }
  induction ls as [|l ls IH]; intros w w' tr NR R M.
  - injection R as <- <-. exists (map orig (filter is_ctl (pending (w_hub D w)))). cbn. rewrite app_nil_r. auto.
  - cbn [Hub.run] in R. destruct (step w l) as [[w1 e1]|] eqn:ST; [|discriminate]. destruct (run w1 ls) as [[w2 e2]|] eqn:RN; [|discriminate]. injection R as <- <-.
    assert (NR' : ~ In LRestart ls) by (intros I; apply NR; right; exact I).
    assert (X : exists rest, map key (sent e1) ++ map orig (filter is_ctl (pending (w_hub D w1) ++ rest)) = map orig (filter is_ctl (pending (w_hub D w) ++ asked [l])) /\
      (h_mode (w_hub D w1) = MDead \/ rest = [])).
    { apply step_shape in ST. destruct ST as [(o & T & H & -> & A)|[(H & E & A)|[(r & -> & M' & -> & ->)|[(r & -> & M' & -> & H)|(-> & M' & -> & H)]]]].
      - assert (KP : keeps o (pending (w_hub D w))) by (destruct T as [T|[T|(p & T)]]; [eapply take_keeps|eapply expire_keeps|eapply recv_keeps]; eauto).
        rewrite H, A, app_nil_r. destruct KP as (rest & K1 & K2 & _). exists rest. auto.
      - exists []. rewrite H, A, !app_nil_r. destruct E as [-> |(b0 & r0 & ->)]; auto.
      - contradiction.
      - exists []. rewrite app_nil_r. cbn [sent flat_map map app asked]. split; [|auto]. rewrite H. unfold pending. cbn [h_mode h_box]. rewrite !app_assoc. reflexivity.
      - contradiction. }
    destruct X as (rest & X1 & X2). change (l :: ls) with ([l] ++ ls). rewrite asked_app, sent_app, map_app, app_assoc, (filter_app is_ctl (pending _ ++ _)), map_app, <- X1.
    assert (DE : h_mode (w_hub D w1) = MDead \/ h_mode (w_hub D w1) <> MDead) by (destruct (h_mode (w_hub D w1)); auto; right; discriminate).
    destruct DE as [DE|DE].
    + destruct (DEAD ls w1 w2 e2 NR' RN DE) as (S2 & D2). rewrite S2. cbn [map]. rewrite app_nil_r, <- app_assoc. eexists. split; [reflexivity|]. congruence.
    + destruct X2 as [X2| ->]; [contradiction|]. destruct (IH w1 w2 e2 NR' RN DE) as (rest & R1 & R2). exists rest. split; [|exact R2].
      rewrite app_nil_r, <- !app_assoc, R1, filter_app, map_app. reflexivity.
Qed.
End A.
