(** C88, C90: the transaction managers of the ControlHub and the allowlist. *)
From Coq Require Import NArith ZArith List Bool Lia PeanoNat ZifyBool ZifyNat ZifyN.
From Verif Require Import Hub Manager ManSpec.
Import ListNotations.
Open Scope N_scope.
Ltac Zify.zify_post_hook ::= Z.to_euclidean_division_equations.

Lemma un32_be32 x : x < 2 ^ 32 -> un32 (x / 2 ^ 24 mod 256) (x / 2 ^ 16 mod 256) (x / 2 ^ 8 mod 256) (x mod 256) = x.
Proof. intros H. unfold un32. change (2 ^ 24) with 16777216. change (2 ^ 16) with 65536. change (2 ^ 8) with 256. change (2 ^ 32) with 4294967296 in H. lia. Qed.
Lemma be16_back x : x < 2 ^ 16 -> x / 256 mod 256 * 256 + x mod 256 = x.
Proof. change (2 ^ 16) with 65536. lia. Qed.

Lemma chunk_cons t q reqs : chunk t (q :: reqs) = be32 (fst t) ++ be16 (snd t) ++ be16 (N.of_nat (length q / 4)) ++ q ++ chunk t reqs.
Proof. unfold chunk. cbn [map concat]. rewrite <- !app_assoc. reflexivity. Qed.
Lemma chunk_length t reqs : Forall good_req reqs -> (length (chunk t reqs) mod 4 = 0)%nat.
Proof.
  induction 1 as [|q reqs (H & _) _ IH]; [reflexivity|]. rewrite chunk_cons. unfold be32, be16. rewrite !app_length. cbn [length].
  remember (length (chunk t reqs)) as x. remember (length q) as y. lia.
Qed.

(** ** Unpacking *)
Lemma unpack_chunk allow t : good_target t -> allow t = true -> forall reqs, good_chunk reqs -> forall fuel to n,
  (length (chunk t reqs) < fuel)%nat -> (to = None \/ to = Some t) ->
  unpack allow fuel (chunk t reqs) to n = (map (pair t) reqs, UDone (Some t) (n + length reqs)).
Proof.
  intros (T1 & T2) AL. induction reqs as [|q reqs IH]; intros (NE & G) fuel to n F TO; [congruence|].
  inversion G as [|? ? (G1 & G2) G3]; subst. destruct fuel as [|fuel]; [lia|].
  rewrite chunk_cons in F |- *. unfold be32, be16 in F |- *. cbn [app] in F |- *. cbn [unpack].
  rewrite un32_be32, !be16_back by assumption. rewrite Nat2N.id.
  replace (4 * (length q / 4))%nat with (length q) by lia.
  destruct (Nat.leb_spec (length q) (length (q ++ chunk t reqs))) as [_|L]; [|rewrite app_length in L; lia].
  assert (DS : match to with Some x => Some x | None => if allow (fst t, snd t) then Some (fst t, snd t) else None end = Some t).
  { destruct t as [ip port]. cbn [fst snd]. destruct TO as [-> | ->]; [rewrite AL|]; reflexivity. }
  rewrite DS. rewrite firstn_app, firstn_all, Nat.sub_diag, skipn_app, skipn_all, Nat.sub_diag. cbn [firstn skipn app]. rewrite app_nil_r.
  destruct reqs as [|q2 reqs].
  - cbn. rewrite <- surjective_pairing. do 2 f_equal. lia.
  - destruct (chunk t (q2 :: reqs)) as [|b0 r0] eqn:E; [rewrite chunk_cons in E; discriminate|]. rewrite <- E in *.
    rewrite IH; [|split; [discriminate|assumption]|cbn [length] in F; rewrite !app_length in F; lia|right; reflexivity].
    cbn [map length]. do 2 f_equal. lia.
Qed.

(** A chunk of the client: the requests go to the device client of their target, in
    order, and the chunk is noted with their number. *)
Theorem C88_chunk allow t reqs m : good_target t -> allow t = true -> good_chunk reqs ->
  on_chunk allow m (chunk t reqs) = (mkMan (Some t) (m_q m ++ [length reqs]) (m_acc m) (m_dead m), map (pair t) reqs, []).
Proof.
  intros T A G. unfold on_chunk. rewrite chunk_length by apply G. cbn [Nat.eqb].
  rewrite (unpack_chunk allow t T A reqs G) by (try lia; auto). reflexivity.
Qed.
Definition tgt : target := (0xC0A8C8C8, 50001).
Definition req1 : bytes := [0x20; 0; 1; 0xF0; 1; 2; 3; 4].
Definition req2 : bytes := [0x20; 0; 2; 0xF0].
Lemma good12 : good_target tgt /\ good_chunk [req1; req2] /\ good_chunk [req2].
Proof.
  assert (G1 : good_req req1) by (split; reflexivity). assert (G2 : good_req req2) by (split; reflexivity).
  repeat split; try discriminate; auto.
Qed.
Example C88_chunk_case : on_chunk (fun _ => true) man0 (chunk tgt [req1; req2]) = (mkMan (Some tgt) [2%nat] [] false, [(tgt, req1); (tgt, req2)], []) /\
  length (chunk tgt [req1; req2]) = 28%nat.
Proof. split; reflexivity. Qed.

(** ** Replies *)
Lemma groups_more {A} ks : forall (rs : list A) k, (length rs < k + fold_right plus 0 ks)%nat -> groups (ks ++ [k]) rs = groups ks rs.
Proof.
  induction ks as [|j ks IH]; intros rs k L; cbn [app groups fold_right] in *.
  - destruct (Nat.ltb_spec (length rs) k); [reflexivity|lia].
  - destruct (Nat.ltb_spec (length rs) j); [reflexivity|]. f_equal. apply IH. rewrite skipn_length. lia.
Qed.

(** The invariant: the chunks sent, the replies kept and the numbers queued. *)
Definition sum (ks : list nat) := fold_right plus 0%nat ks.
Lemma sum_app a b : sum (a ++ b) = (sum a + sum b)%nat.
Proof. unfold sum. induction a; cbn; [reflexivity|]. rewrite IHa. lia. Qed.
Lemma groups_run {A} ks : Forall (fun k => k <> 0%nat) ks -> forall (rs : list A) x, (length rs < sum ks)%nat ->
  exists done q acc, ks = done ++ q /\ (sum done <= length rs)%nat /\ acc = skipn (sum done) rs /\
    (match q with k :: _ => (length acc < k)%nat | [] => False end) /\
    groups ks rs = groups done rs /\
    groups ks (rs ++ [x]) = groups ks rs ++ (if Nat.eqb (S (length acc)) (hd 0%nat q) then [acc ++ [x]] else []).
Proof.
  unfold sum. induction 1 as [|k ks NZ F IH]; intros rs x L; cbn [fold_right] in L; [lia|].
  cbn [groups]. destruct (Nat.ltb_spec (length rs) k) as [LT|GE].
  - exists [], (k :: ks), rs. cbn [fold_right app skipn hd groups]. repeat split; try lia.
    rewrite app_length. cbn [length]. destruct (Nat.eqb_spec (S (length rs)) k) as [E|E].
    + destruct (Nat.ltb_spec (length rs + 1) k); [lia|]. rewrite firstn_all2 by (rewrite app_length; cbn; lia).
      rewrite skipn_all2 by (rewrite app_length; cbn; lia). f_equal. clear - F. destruct F as [|j ks NZ F]; [reflexivity|]. cbn [groups length]. destruct (Nat.ltb_spec 0 j); [reflexivity|lia].
    + destruct (Nat.ltb_spec (length rs + 1) k); [reflexivity|lia].
  - destruct (IH (skipn k rs) x) as (done & q & acc & -> & S1 & -> & H & G1 & G2); [rewrite skipn_length; lia|].
    exists (k :: done), q, (skipn (fold_right plus 0%nat (k :: done)) rs).
    assert (SK : skipn (fold_right plus 0%nat done) (skipn k rs) = skipn (fold_right plus 0%nat (k :: done)) rs).
    { cbn [fold_right]. clear. revert k. induction rs as [|y rs IH]; intros [|k]; cbn [skipn plus]; try reflexivity; [rewrite !skipn_nil; reflexivity|apply IH]. }
    rewrite <- SK. cbn [fold_right] in *. rewrite skipn_length in S1. split; [reflexivity|]. split; [lia|]. split; [reflexivity|]. split; [exact H|]. split.
    + cbn [groups]. destruct (Nat.ltb_spec (length rs) k); [lia|]. rewrite G1. reflexivity.
    + rewrite app_length. cbn [length]. destruct (Nat.ltb_spec (length rs + 1) k); [lia|]. rewrite skipn_app. replace (k - length rs)%nat with 0%nat by lia. cbn [skipn].
      rewrite firstn_app. replace (k - length rs)%nat with 0%nat by lia. cbn [firstn]. rewrite app_nil_r, G2. reflexivity.
Qed.
(** State of a manager after chunks of [ks] requests and the responses [rs]. *)
Definition at_point (t : target) (ks : list nat) (rs : list response) (m : man) : Prop :=
  m_dead m = false /\ (ks = [] \/ m_to m = Some t) /\
  exists done, ks = done ++ m_q m /\ m_acc m = skipn (sum done) rs /\ (sum done <= length rs)%nat /\
    match m_q m with k :: _ => (length (m_acc m) < k)%nat | [] => m_acc m = [] end.

Lemma at_unique (ks done done' q q' : list nat) n : Forall (fun k => k <> 0%nat) ks -> ks = done ++ q -> ks = done' ++ q' ->
  (sum done <= n)%nat -> (sum done' <= n)%nat ->
  (match q with k :: _ => (n - sum done < k)%nat | [] => (n - sum done = 0)%nat end) -> (match q' with k :: _ => (n - sum done' < k)%nat | [] => (n - sum done' = 0)%nat end) -> done = done' /\ q = q'.
Proof.
  unfold sum. intros F. revert done done' q q' n. induction F as [|k ks NZ F IH]; intros done done' q q' n E E' L L' H H'.
  - destruct done; [|discriminate]. destruct done'; [|discriminate]. cbn in E, E'. subst. auto.
  - destruct done as [|j done], done' as [|j' done']; cbn [app] in E, E'.
    + subst. auto.
    + injection E' as <- E'. subst q. cbn [fold_right] in *. lia.
    + injection E as <- E. subst q'. cbn [fold_right] in *. lia.
    + injection E as <- E. injection E' as <- E'. cbn [fold_right] in *.
      destruct (IH done done' q q' (n - k)%nat E E') as (-> & ->); try lia; [destruct q; lia|destruct q'; lia|auto].
Qed.

Lemma step_at allow t ks rs m e : good_target t -> allow t = true -> Forall (fun k => k <> 0%nat) ks -> at_point t ks rs m ->
  (match e with TChunk reqs => good_chunk reqs | TResp _ _ => (length rs < sum ks)%nat end) ->
  let '(m', cs, out) := man_step allow m (event_of t e) in
  at_point t (ks ++ map (@length _) (chunks_of [e])) (rs ++ resps_of t [e]) m' /\
  cs = map (pair t) (concat (chunks_of [e])) /\
  groups (ks ++ map (@length _) (chunks_of [e])) (rs ++ resps_of t [e]) = groups ks rs ++ out.
Proof.
  intros T A F (MD & TO & done & E & AC & SD & AK) G. unfold man_step. rewrite MD. destruct e as [reqs|c d]; cbn [event_of].
  - rewrite C88_chunk by assumption. cbn [chunks_of resps_of flat_map map concat app]. rewrite !app_nil_r.
    assert (NZ : length reqs <> 0%nat) by (destruct G as (NE & _); destruct reqs; [congruence|discriminate]).
    assert (LE : (length rs <= sum ks)%nat).
    { rewrite E, sum_app. assert (LA : length (m_acc m) = (length rs - sum done)%nat) by (rewrite AC, skipn_length; reflexivity).
      destruct (m_q m) as [|k q]; [rewrite AK in LA; cbn in LA; lia|]. unfold sum in *. cbn [fold_right]. lia. }
    split; [|split; [reflexivity|]].
    + split; [exact MD|]. split; [right; reflexivity|]. exists done. cbn [m_q m_acc]. rewrite E, <- app_assoc. repeat split; auto.
      destruct (m_q m); cbn [app]; [rewrite AK; cbn; lia|exact AK].
    + rewrite groups_more by (unfold sum in LE; lia). reflexivity.
  - cbn [chunks_of resps_of flat_map map concat app]. rewrite !app_nil_r.
    destruct (groups_run ks F rs (mkR (Some t) c d) G) as (done' & q & acc & E' & SD' & AC' & AK' & _ & GR).
    assert (LA : length (m_acc m) = (length rs - sum done)%nat) by (rewrite AC, skipn_length; reflexivity).
    assert (LA' : length acc = (length rs - sum done')%nat) by (rewrite AC', skipn_length; reflexivity).
    destruct (at_unique ks done done' (m_q m) q (length rs) F E E' SD SD') as (<- & <-).
    { destruct (m_q m); [rewrite AK in LA; cbn in LA; lia|lia]. }
    { destruct q; [destruct AK'|lia]. }
    rewrite <- AC in AC'. subst acc.
    destruct (m_q m) as [|k q] eqn:MQ; [destruct AK'|].
    assert (MT : m_to m = Some t) by (destruct TO as [Z|Z]; [subst ks; destruct done; discriminate|exact Z]).
    unfold on_response. cbn [r_from]. rewrite MT. assert (ST : same_target t t = true) by (unfold same_target; rewrite !N.eqb_refl; reflexivity). rewrite ST, MQ.
    cbn [hd] in GR. rewrite GR. destruct (Nat.eqb_spec (S (length (m_acc m))) k) as [EK|EK].
    + split; [|split; reflexivity]. split; [exact MD|]. split; [right; reflexivity|]. exists (done ++ [k]). cbn [m_q m_acc].
      rewrite <- app_assoc, sum_app. split; [exact E|]. assert (S1 : sum [k] = k) by (unfold sum; cbn; lia). rewrite S1.
      split; [symmetry; apply skipn_all2; rewrite app_length; cbn; lia|]. split; [rewrite app_length; cbn; lia|].
      destruct q as [|k2 q]; [reflexivity|]. cbn. rewrite E in F. apply Forall_app in F. destruct F as (_ & F). inversion F as [|? ? _ F2]; subst. inversion F2; subst. lia.
    + split; [|split; [reflexivity|rewrite app_nil_r; reflexivity]]. split; [exact MD|]. split; [right; reflexivity|]. exists done. cbn [m_q m_acc].
      split; [exact E|]. split; [rewrite AC, skipn_app; replace (sum done - length rs)%nat with 0%nat by lia; reflexivity|]. split; [rewrite app_length; lia|]. rewrite app_length. cbn [length]. lia.
Qed.

(** All chunks are for one target, and never are there more responses than requests:
    the requests are cast in order, and the replies go back in chunks as the
    requests came, none missing, none twice, and the manager goes on. *)
Theorem C88_replies allow t es : good_target t -> allow t = true -> Forall good_chunk (chunks_of es) ->
  (forall es1 es2, es = es1 ++ es2 -> (length (resps_of t es1) <= length (concat (chunks_of es1)))%nat) ->
  let '(m, casts, out) := man_run allow man0 (map (event_of t) es) in
  m_dead m = false /\ casts = map (pair t) (concat (chunks_of es)) /\
  out = groups (map (@length _) (chunks_of es)) (resps_of t es).
Proof.
  intros T A. revert es.
  assert (GEN : forall es es0 m, at_point t (map (@length _) (chunks_of es0)) (resps_of t es0) m -> Forall good_chunk (chunks_of (es0 ++ es)) ->
    (forall es1 es2, es0 ++ es = es1 ++ es2 -> (length (resps_of t es1) <= length (concat (chunks_of es1)))%nat) ->
    let '(m', casts, out) := man_run allow m (map (event_of t) es) in
    m_dead m' = false /\ casts = map (pair t) (concat (chunks_of es)) /\
    groups (map (@length _) (chunks_of (es0 ++ es))) (resps_of t (es0 ++ es)) = groups (map (@length _) (chunks_of es0)) (resps_of t es0) ++ out).
  { assert (CA : forall a b, chunks_of (a ++ b) = chunks_of a ++ chunks_of b) by (intros; apply flat_map_app).
    assert (RA : forall a b, resps_of t (a ++ b) = resps_of t a ++ resps_of t b) by (intros; apply flat_map_app).
    assert (SL : forall l : list (list bytes), sum (map (@length _) l) = length (concat l)).
    { induction l as [|x l IHl]; [reflexivity|]. cbn [map concat]. rewrite app_length, <- IHl. reflexivity. }
    induction es as [|e es IH]; intros es0 m AP F B.
    - cbn [map man_run]. split; [apply AP|]. split; [reflexivity|]. rewrite !app_nil_r. reflexivity.
    - cbn [map man_run].
      assert (NZ : Forall (fun k => k <> 0%nat) (map (@length _) (chunks_of es0))).
      { rewrite CA in F. apply Forall_app in F. destruct F as (F & _). clear - F. induction F as [|x l (NE & _) F IH]; constructor; auto. destruct x; [congruence|discriminate]. }
      assert (G : match e with TChunk reqs => good_chunk reqs | TResp _ _ => (length (resps_of t es0) < sum (map (@length _) (chunks_of es0)))%nat end).
      { destruct e as [reqs|c d].
        - rewrite CA in F. apply Forall_app in F. destruct F as (_ & F). cbn in F. inversion F; assumption.
        - rewrite SL. specialize (B (es0 ++ [TResp c d]) es). rewrite <- app_assoc in B. specialize (B eq_refl). rewrite RA, CA, app_length in B. cbn in B. rewrite app_nil_r in B. lia. }
      pose proof (step_at allow t _ _ m e T A NZ AP G) as ST. destruct (man_step allow m (event_of t e)) as [[m1 c1] o1]. destruct ST as (AP1 & -> & GR).
      rewrite <- map_app, <- CA, <- RA in AP1, GR.
      specialize (IH (es0 ++ [e]) m1 AP1). rewrite <- app_assoc in IH. specialize (IH F B).
      destruct (man_run allow m1 (map (event_of t) es)) as [[m2 c2] o2]. destruct IH as (D & -> & GR2).
      split; [exact D|]. split.
      + change (e :: es) with ([e] ++ es). rewrite CA, concat_app, map_app. reflexivity.
      + cbn [app] in GR2. rewrite GR2, GR, app_assoc. reflexivity. }
  intros es F B. specialize (GEN es [] man0). cbn [app] in GEN.
  assert (AP : at_point t (map (@length _) (chunks_of [])) (resps_of t []) man0).
  { split; [reflexivity|]. split; [left; reflexivity|]. exists []. repeat split; auto. }
  specialize (GEN AP F B). destruct (man_run allow man0 (map (event_of t) es)) as [[m c] o]. destruct GEN as (D & C & G). split; [exact D|]. split; [exact C|].
  rewrite G. reflexivity.
Qed.
Definition es1 : list tevent := [TChunk [req1; req2]; TResp 0 [1; 2; 3; 4]; TChunk [req2]; TResp 0 [5; 6; 7; 8]; TResp 3 []].
Example C88_replies_case :
  good_target tgt /\ Forall good_chunk (chunks_of es1) /\
  (forall a b, es1 = a ++ b -> (length (resps_of tgt a) <= length (concat (chunks_of a)))%nat) /\
  snd (man_run (fun _ => true) man0 (map (event_of tgt) es1)) =
    [[mkR (Some tgt) 0 [1; 2; 3; 4]; mkR (Some tgt) 0 [5; 6; 7; 8]]; [mkR (Some tgt) 3 []]].
Proof.
  destruct good12 as (T & G1 & G2). split; [exact T|]. split; [constructor; [exact G1|constructor; [exact G2|constructor]]|]. split; [|reflexivity].
  intros a b E. unfold es1 in E.
  do 5 (destruct a as [|? a]; [cbn; lia|injection E as <- E]). destruct a; [cbn; lia|discriminate].
Qed.

(** Of the bytes of a reply: the client finds the length, the address, the port, the
    error code and the data. *)
Theorem C88_reply_bytes t c d : good_target t -> c < 2 ^ 16 -> N.of_nat (length d) + 8 < 2 ^ 32 ->
  exists l3 l2 l1 l0 i3 i2 i1 i0 p1 p0 c1 c0, reply_bytes (mkR (Some t) c d) = [l3; l2; l1; l0; i3; i2; i1; i0; p1; p0; c1; c0] ++ d /\
    un32 l3 l2 l1 l0 = N.of_nat (length d) + 8 /\ un32 i3 i2 i1 i0 = fst t /\ p1 * 256 + p0 = snd t /\ c1 * 256 + c0 = c.
Proof.
  intros (T1 & T2) C L. destruct t as [ip port]. unfold reply_bytes. cbn [r_from r_data r_code fst snd] in *. unfold be32, be16.
  repeat eexists; [apply un32_be32; exact L|apply un32_be32; exact T1|apply be16_back; exact T2|apply be16_back; exact C].
Qed.
Example C88_reply_bytes_case : reply_bytes (mkR (Some tgt) 3 [1; 2; 3; 4]) = [0; 0; 0; 12; 0xC0; 0xA8; 200; 200; 195; 81; 0; 3; 1; 2; 3; 4].
Proof. reflexivity. Qed.

(** What the claim does not say of other chunks and messages. *)

(** A chunk of fewer than three words after a good one: the replies of the good one
    are not sent. *)
Theorem C88_malformed_refuted : ~ forall allow t reqs p rs, good_target t -> allow t = true -> good_chunk reqs ->
  length rs = length reqs -> Forall (fun r => r_from r = Some t) rs ->
  In rs (snd (man_run allow man0 (MChunk (chunk t reqs) :: MChunk p :: map MResp rs))).
Proof.
  intros H. destruct good12 as (T & G1 & G2).
  specialize (H (fun _ => true) tgt [req2] [0; 0; 0; 0] [mkR (Some tgt) 0 [1]] T eq_refl G2 eq_refl ltac:(repeat constructor)). exact H.
Qed.

(** Nor are those of any later good chunk. *)
Theorem C88_malformed_after_refuted : ~ forall allow t reqs p rs, good_target t -> allow t = true -> good_chunk reqs ->
  length rs = length reqs -> Forall (fun r => r_from r = Some t) rs ->
  In rs (snd (man_run allow man0 (MChunk p :: MChunk (chunk t reqs) :: map MResp rs))).
Proof.
  intros H. destruct good12 as (T & G1 & G2).
  specialize (H (fun _ => true) tgt [req2] [0; 0; 0; 0] [mkR (Some tgt) 0 [1]] T eq_refl G2 eq_refl ltac:(repeat constructor)). exact H.
Qed.

(** A chunk with requests for two targets: the second is sent to the first. *)
Definition tgt2 : target := (0xC0A8C8C9, 50001).
Lemma good_tgt2 : good_target tgt2. Proof. repeat split. Qed.
Theorem C88_two_targets_refuted : ~ forall allow t1 t2 reqs1 reqs2 q, good_target t1 -> good_target t2 -> (forall t, allow t = true) ->
  good_chunk reqs1 -> good_chunk reqs2 -> In q reqs2 ->
  In (t2, q) (snd (fst (man_run allow man0 [MChunk (chunk t1 reqs1 ++ chunk t2 reqs2)]))).
Proof.
  intros H. destruct good12 as (T & G1 & G2).
  specialize (H (fun _ => true) tgt tgt2 [req2] [req2] req2 T good_tgt2 ltac:(reflexivity) G2 G2 ltac:(left; reflexivity)).
  vm_compute in H. destruct H as [H|[H|[]]]; discriminate H.
Qed.

(** A chunk for another target while replies are expected: they are not sent. *)
Theorem C88_switch_refuted : ~ forall allow t1 t2 reqs1 reqs2 rs, good_target t1 -> good_target t2 -> (forall t, allow t = true) ->
  good_chunk reqs1 -> good_chunk reqs2 -> length rs = length reqs1 -> Forall (fun r => r_from r = Some t1) rs ->
  In rs (snd (man_run allow man0 (MChunk (chunk t1 reqs1) :: MChunk (chunk t2 reqs2) :: map MResp rs))).
Proof.
  intros H. destruct good12 as (T & G1 & G2).
  specialize (H (fun _ => true) tgt tgt2 [req2] [req2] [mkR (Some tgt) 0 [1]] T good_tgt2 ltac:(reflexivity) G2 G2 eq_refl ltac:(repeat constructor)). exact H.
Qed.

(** The message of a malformed status reply (ch_device_client.erl 763) has the tuple of
    the address in it: the client is told nothing. *)
Theorem C88_unnamed_refuted : ~ forall allow t reqs rs, good_target t -> allow t = true -> good_chunk reqs ->
  length rs = length reqs -> Forall (fun r => r_from r = Some t \/ r_from r = None /\ r_code r = E_MALFORMED) rs ->
  In rs (snd (man_run allow man0 (MChunk (chunk t reqs) :: map MResp rs))).
Proof.
  intros H. destruct good12 as (T & G1 & G2).
  specialize (H (fun _ => true) tgt [req2] [mkR None E_MALFORMED []] T eq_refl G2 eq_refl ltac:(repeat constructor; right; split; reflexivity)). exact H.
Qed.

(** ** The allowlist *)

(** A line is about the target. *)
Definition names (l : line) (t : target) : Prop := fst l = fst t /\ (snd l = None \/ snd l = Some (snd t)).

Lemma dict_of_spec ls : forall d x, dict_of ls d x = match find (fun l => fst l =? x) (rev ls) with Some l => Some (snd l) | None => d x end.
Proof.
  induction ls as [|(ip, p) ls IH]; intros d x; [reflexivity|]. cbn [dict_of rev]. rewrite IH.
  generalize (rev ls) as r. intros r. induction r as [|l r IHr]; cbn [find app].
  - cbn. rewrite N.eqb_sym. destruct (ip =? x); reflexivity.
  - destruct (fst l =? x); [reflexivity|exact IHr].
Qed.

(** The last line of an address counts: a target is let through if and only if that
    line is about it. *)
Theorem C90_last ls t : access (Some ls) t = true <->
  exists a l b, ls = a ++ l :: b /\ names l t /\ Forall (fun l' => fst l' <> fst t) b.
Proof.
  unfold access, names. rewrite dict_of_spec. remember (rev ls) as r eqn:ER0. assert (EL : ls = rev r) by (subst r; symmetry; apply rev_involutive). clear ER0. subst ls. split.
  - intros H. induction r as [|l r IH]; [discriminate|]. cbn [find] in H. destruct (N.eqb_spec (fst l) (fst t)) as [E|E].
    + exists (rev r), l, []. split; [reflexivity|]. split; [|constructor]. split; [exact E|]. destruct (snd l) as [p|]; [right; f_equal; lia|left; reflexivity].
    + destruct (IH H) as (a & l0 & b & EQ & NM & F). exists a, l0, (b ++ [l]). cbn [rev]. rewrite EQ, <- app_assoc. split; [reflexivity|]. split; [exact NM|]. apply Forall_app; auto.
  - intros (a & l & b & EQ & (N1 & N2) & F). assert (ER : r = rev b ++ l :: rev a).
    { rewrite <- (rev_involutive r), EQ, rev_app_distr. cbn [rev]. rewrite <- app_assoc. reflexivity. }
    subst r. clear EQ. apply Forall_rev in F. unfold line in *. revert F. generalize (rev b) as rb. intros rb F. induction rb as [|x y IH]; [|inversion F as [|? ? NE F1]; subst]; cbn [app find].
    + rewrite N1, N.eqb_refl. destruct N2 as [-> | ->]; [reflexivity|apply N.eqb_refl].
    + destruct (N.eqb_spec (fst x) (fst t)) as [EE|_]; [destruct (NE EE)|exact (IH F1)].
Qed.
Example C90_last_case : access (Some [(7, Some 1); (8, None); (7, Some 2)]) (7, 2) = true /\ access (Some [(7, Some 1); (8, None); (7, Some 2)]) (7, 1) = false /\
  access (Some [(7, Some 1); (8, None)]) (8, 1) = true.
Proof. repeat split. Qed.

(** If no address has two different lines, a target is let through if and only if a
    line is about it; and a target about which there is no line never is. *)
Theorem C90_access ls t : access (Some ls) t = true -> exists l, In l ls /\ names l t.
Proof.
  intros H. apply C90_last in H. destruct H as (a & l & b & -> & N & _). exists l. split; [apply in_elt|exact N].
Qed.
Example C90_access_case : access (Some [(7, Some 1); (8, None)]) (8, 3) = true /\ access (Some [(7, Some 1); (8, None)]) (9, 3) = false.
Proof. split; reflexivity. Qed.
Theorem C90_access_iff ls t : (forall l l', In l ls -> In l' ls -> fst l = fst l' -> l = l') ->
  (access (Some ls) t = true <-> exists l, In l ls /\ names l t).
Proof.
  intros U. split; [apply C90_access|]. intros (l & I & NM). apply C90_last.
  assert (X : forall k, (exists i, nth_error k i = Some l) -> exists a b, k = a ++ l :: b /\ ~ In l b).
  { induction k as [|y k IH]; intros (i & EI); [destruct i; discriminate|].
    assert (DEC : forall p q : line, {p = q} + {p <> q}) by (decide equality; [decide equality|]; apply N.eq_dec).
    destruct (in_dec DEC l k) as [IN|NI].
    - apply In_nth_error in IN. destruct (IH IN) as (a & b & -> & NB). exists (y :: a), b. auto.
    - destruct i as [|i]; [injection EI as ->; exists [], k; auto|]. cbn in EI. apply nth_error_In in EI. destruct (NI EI). }
  destruct (X ls (In_nth_error _ _ I)) as (a & b & EQ & NB). exists a, l, b. split; [exact EQ|]. split; [exact NM|].
  apply Forall_forall. intros l' IL E. apply NB. rewrite (U l l'); [exact IL|exact I| |destruct NM; congruence].
  rewrite EQ. apply in_or_app. right. right. exact IL.
Qed.
Example C90_access_iff_case : let ls := [(7, Some 1); (8, None)] in
  (forall l l', In l ls -> In l' ls -> fst l = fst l' -> l = l') /\ access (Some ls) (7, 1) = true /\ access (Some ls) (7, 2) = false.
Proof.
  split; [|split; reflexivity]. intros l l' [<-|[<-|[]]] [<-|[<-|[]]]; cbn; intros E; congruence.
Qed.

(** Two ports of one address in the file: only the last is let through. *)
Theorem C90_ports_refuted : ~ forall ls t, (exists l, In l ls /\ names l t) -> access (Some ls) t = true.
Proof.
  intros H. specialize (H [(7, Some 1); (7, Some 2)] (7, 1)). discriminate H. exists (7, Some 1). split; [left; reflexivity|split; [reflexivity|right; reflexivity]].
Qed.

(** Enforcing mode, a target without device client that the list does not let
    through: no request of a chunk for it is cast, and the client gets one reply,
    with code 7.  In permissive mode, or without list, every chunk is passed on. *)
Theorem C90_blocked ls known t reqs m : good_target t -> known t = false -> access (Some ls) t = false -> good_chunk reqs ->
  on_chunk (get_pid (Some ls) false known) m (chunk t reqs) = (m, [], [[mkR (Some t) 7 []]]).
Proof.
  intros (T1 & T2) K A (NE & G). unfold on_chunk. rewrite chunk_length by exact G. cbn [Nat.eqb].
  destruct reqs as [|q reqs]; [congruence|]. inversion G as [|? ? (G1 & G2) G3]; subst.
  rewrite chunk_cons. unfold be32, be16. cbn [app]. cbn [length unpack].
  rewrite un32_be32, !be16_back, Nat2N.id by assumption. replace (4 * (length q / 4))%nat with (length q) by lia.
  destruct (Nat.leb_spec (length q) (length (q ++ chunk t reqs))) as [_|L]; [|rewrite app_length in L; lia].
  rewrite <- surjective_pairing. unfold get_pid. rewrite K, A. reflexivity.
Qed.
Theorem C90_permissive ls known t : get_pid ls true known t = true /\ get_pid None false known t = true.
Proof. unfold get_pid. cbn [access]. rewrite !orb_true_r. auto. Qed.
Example C90_permissive_case : access (Some [(7, None)]) tgt = false /\ get_pid (Some [(7, None)]) true (fun _ => false) tgt = true /\
  get_pid (Some [(7, None)]) false (fun _ => false) tgt = false.
Proof. repeat split. Qed.
Example C90_blocked_case : on_chunk (get_pid (Some [(7, None)]) false (fun _ => false)) man0 (chunk tgt [req1; req2]) = (man0, [], [[mkR (Some tgt) 7 []]]).
Proof. reflexivity. Qed.

(** A chunk of several requests that is blocked gets one reply only. *)
Theorem C90_blocked_count_refuted : ~ forall ls known t reqs, good_target t -> known t = false -> access (Some ls) t = false -> good_chunk reqs ->
  length (concat (snd (man_run (get_pid (Some ls) false known) man0 [MChunk (chunk t reqs)]))) = length reqs.
Proof.
  intros H. destruct good12 as (T & G1 & _). specialize (H [(7, None)] (fun _ => false) tgt [req1; req2] T eq_refl eq_refl G1). discriminate H.
Qed.

Print Assumptions C88_chunk.
Print Assumptions C88_replies.
Print Assumptions C88_reply_bytes.
Print Assumptions C88_malformed_refuted.
Print Assumptions C88_malformed_after_refuted.
Print Assumptions C88_two_targets_refuted.
Print Assumptions C88_switch_refuted.
Print Assumptions C88_unnamed_refuted.
Print Assumptions C90_last.
Print Assumptions C90_access.
Print Assumptions C90_access_iff.
Print Assumptions C90_ports_refuted.
Print Assumptions C90_blocked.
Print Assumptions C90_permissive.
Print Assumptions C90_blocked_count_refuted.
