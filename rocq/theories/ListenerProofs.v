(** Invariants of the ControlHub's listener, managers and statistics. *)
From Coq Require Import NArith ZArith List Bool PeanoNat Lia ZifyBool ZifyNat ZifyN.
From Verif Require Import Hub Manager Listener ListenerSpec.
Import ListNotations.
Open Scope nat_scope.

(** ** Lists of managers *)
Fixpoint sumf (f : client -> nat) (cl : list client) : nat :=
  match cl with [] => 0 | c :: t => f c + sumf f t end.

Lemma sumf_app f a : forall b, sumf f (a ++ b) = sumf f a + sumf f b.
Proof. induction a as [|c a IH]; intros b; cbn [app sumf]; [reflexivity|]. rewrite IH. lia. Qed.
Lemma put_cons cl i c x : put_client (x :: cl) (S i) c = x :: put_client cl i c.
Proof. reflexivity. Qed.
Lemma sumf_put f c' : forall cl i c, nth_error cl i = Some c -> sumf f (put_client cl i c') + f c = sumf f cl + f c'.
Proof.
  induction cl as [|x cl IH]; intros [|i] c E; try discriminate.
  - injection E as ->. unfold put_client. cbn. lia.
  - rewrite put_cons. cbn [sumf]. specialize (IH i c E). lia.
Qed.
Lemma nth_put c' : forall cl i c, nth_error cl i = Some c ->
  forall j, nth_error (put_client cl i c') j = if Nat.eqb j i then Some c' else nth_error cl j.
Proof.
  induction cl as [|x cl IH]; intros [|i] c E [|j]; try discriminate; cbn [Nat.eqb]; try reflexivity.
  rewrite put_cons. cbn [nth_error]. exact (IH i c E j).
Qed.
Lemma length_put c' : forall cl i c, nth_error cl i = Some c -> length (put_client cl i c') = length cl.
Proof.
  induction cl as [|x cl IH]; intros [|i] c E; try discriminate; [reflexivity|].
  rewrite put_cons. cbn [length]. f_equal. exact (IH i c E).
Qed.
Lemma sumf_in f cl i c : nth_error cl i = Some c -> f c <= sumf f cl.
Proof.
  revert i. induction cl as [|x cl IH]; intros [|i] E; try discriminate; cbn [sumf].
  - injection E as ->. lia.
  - specialize (IH _ E). lia.
Qed.
Lemma sumf_pos f cl : 0 < sumf f cl -> exists i c, nth_error cl i = Some c /\ 0 < f c.
Proof.
  induction cl as [|x cl IH]; cbn [sumf]; intros H; [lia|]. destruct (f x) eqn:E.
  - destruct (IH H) as (i & c & A & B). exists (S i), c. auto.
  - exists 0, x. split; [reflexivity|lia].
Qed.
Lemma sumf_two f cl i j c d : nth_error cl i = Some c -> nth_error cl j = Some d -> i <> j -> f c + f d <= sumf f cl.
Proof.
  revert i j. induction cl as [|x cl IH]; intros [|i] [|j] E F N; try discriminate; cbn [sumf]; try lia.
  - injection E as ->. assert (A := sumf_in f cl _ _ F). lia.
  - injection F as ->. assert (A := sumf_in f cl _ _ E). lia.
  - specialize (IH _ _ E F ltac:(lia)). lia.
Qed.

(** ** Messages *)
Definition nmsg (f : smsg -> bool) (l : list smsg) : nat := length (filter f l).
Lemma nmsg_app f a b : nmsg f (a ++ b) = nmsg f a + nmsg f b.
Proof. unfold nmsg. rewrite filter_app, app_length. reflexivity. Qed.
Definition b2n (b : bool) : nat := if b then 1 else 0.
Lemma nmsg_cons f x a : nmsg f (x :: a) = b2n (f x) + nmsg f a.
Proof. unfold nmsg. cbn [filter]. destruct (f x); reflexivity. Qed.
Lemma nmsg_nil f : nmsg f [] = 0.
Proof. reflexivity. Qed.
Definition is_conn (m : smsg) := match m with SConnected => true | _ => false end.
Definition is_disc (m : smsg) := match m with SDisconnected => true | _ => false end.
Definition is_table (i : nat) (m : smsg) := match m with STable j => Nat.eqb j i | _ => false end.
Definition is_trans (i : nat) (m : smsg) := match m with STransfer j => Nat.eqb j i | _ => false end.
Definition occ (i : nat) (l : list nat) : nat := length (filter (Nat.eqb i) l).
Lemma occ_cons i j l : occ i (j :: l) = b2n (Nat.eqb i j) + occ i l.
Proof. unfold occ. cbn [filter]. destruct (Nat.eqb i j); reflexivity. Qed.
Lemma occ_keydelete i j l : occ i (keydelete j l) = occ i l - b2n (Nat.eqb i j).
Proof.
  induction l as [|k l IH]; cbn [keydelete]; [reflexivity|]. destruct (Nat.eqb_spec k j) as [->|N].
  - rewrite occ_cons. lia.
  - rewrite !occ_cons, IH. destruct (Nat.eqb_spec i j) as [->|N']; [|cbn [b2n]; lia].
    destruct (Nat.eqb_spec j k); [congruence|]. cbn [b2n]. lia.
Qed.

(** ** Events *)
Lemma number_app f a b : number f (a ++ b) = (number f a + number f b)%Z.
Proof. unfold number. rewrite filter_app, app_length. lia. Qed.
Lemma peak_from_app : forall a b n m, peak_from n m (a ++ b) =
  peak_from (n + number is_accepted a - number is_left a)%Z (peak_from n m a) b.
Proof.
  induction a as [|e a IH]; intros b n m.
  - cbn [app peak_from]. f_equal. unfold number. cbn. lia.
  - cbn [app peak_from]. rewrite IH. f_equal. unfold number. cbn [filter].
    destruct e; cbn [is_accepted is_left length]; lia.
Qed.
Lemma peak_from_ge : forall a n m, (m <= peak_from n m a)%Z.
Proof. induction a as [|e a IH]; intros n m; cbn [peak_from]; [lia|]. eapply Z.le_trans; [|apply IH]. lia. Qed.
Lemma peak_from_last : forall a n m, (n <= m)%Z -> (n + number is_accepted a - number is_left a <= peak_from n m a)%Z.
Proof.
  induction a as [|e a IH]; intros n m H; cbn [peak_from]; [unfold number; cbn; lia|].
  set (n' := if is_accepted e then (n + 1)%Z else if is_left e then (n - 1)%Z else n).
  specialize (IH n' (Z.max m n') ltac:(lia)). unfold number in *. cbn [filter].
  subst n'. destruct e; cbn [is_accepted is_left length] in *; lia.
Qed.
Lemma peak_now tr : (number is_accepted tr - number is_left tr <= peak tr)%Z.
Proof. assert (H := peak_from_last tr 0 0 ltac:(lia)). unfold peak. lia. Qed.
Lemma peak_mono a b : (peak a <= peak (a ++ b))%Z.
Proof. unfold peak. rewrite peak_from_app. apply peak_from_ge. Qed.

Section Traffic.
Variable wf : bytes -> bool.
Lemma total_app a : forall b, total wf (a ++ b) = add_counters (total wf a) (total wf b).
Proof.
  induction a as [|e a IH]; intros b; cbn [app total].
  - unfold add_counters. destruct (total wf b). reflexivity.
  - rewrite IH. unfold add_counters. cbn [c_in c_bad c_sent]. f_equal; lia.
Qed.
(** The counters of a client: its events that are not refused chunks. *)
Definition mine (i : nat) (tr : list sev) : counters := total wf (filter (of_client i) (not_refused tr)).
Lemma mine_app i a b : mine i (a ++ b) = add_counters (mine i a) (mine i b).
Proof. unfold mine, not_refused. rewrite !filter_app. apply total_app. Qed.
End Traffic.

Lemma add_zero c : add_counters c (mkC 0 0 0) = c.
Proof. destruct c. unfold add_counters. cbn. f_equal; lia. Qed.
Lemma add_zero_l c : add_counters (mkC 0 0 0) c = c.
Proof. destruct c. reflexivity. Qed.

(** ** What a chunk does to the counters *)
Section Chunk.
Variable allow : target -> bool.

Lemma unpack_cons fuel a b c d e f g h t to n : unpack allow (S fuel) (a :: b :: c :: d :: e :: f :: g :: h :: t) to n =
  let this := (un32 a b c d, (e * 256 + f)%N) in
  let len := (4 * N.to_nat (g * 256 + h))%nat in
  if Nat.leb len (length t) then
    match (match to with Some x => Some x | None => if allow this then Some this else None end) with
    | None => ([], UError (mkR (Some this) 7 []))
    | Some x =>
        match skipn len t with
        | [] => ([(x, firstn len t)], UDone (Some this) (S n))
        | tl => let (cs, u) := unpack allow fuel tl (Some x) (S n) in ((x, firstn len t) :: cs, u)
        end
    end
  else if Nat.ltb (length (a :: b :: c :: d :: e :: f :: g :: h :: t)) 12 then ([], UDone None n)
  else ([], UDone (Some this) n).
Proof. reflexivity. Qed.

Lemma unpack_some fuel : forall p x n, exists cs t k, unpack allow fuel p (Some x) n = (cs, UDone t k) /\ k = n + length cs.
Proof.
  induction fuel as [|fuel IH]; intros p x n; [do 3 eexists; split; [reflexivity|cbn; lia]|].
  destruct p as [|a [|b [|c [|d [|e [|f [|g [|h t]]]]]]]]; try (do 3 eexists; split; [reflexivity|cbn; lia]).
  rewrite unpack_cons. cbv zeta. destruct (Nat.leb _ _).
  - destruct (skipn _ t) as [|y l] eqn:E; [do 3 eexists; split; [reflexivity|cbn; lia]|].
    destruct (IH (y :: l) x (S n)) as (cs & t' & k & U & K). rewrite U. do 3 eexists. split; [reflexivity|]. cbn [length]. lia.
  - destruct (Nat.ltb _ _); do 3 eexists; (split; [reflexivity|cbn; lia]).
Qed.
Lemma unpack_none fuel p n : exists cs,
  (exists t k, unpack allow fuel p None n = (cs, UDone t k) /\ k = n + length cs) \/
  (exists r, unpack allow fuel p None n = (cs, UError r) /\ cs = []).
Proof.
  destruct fuel as [|fuel]; [eexists; left; do 2 eexists; split; [reflexivity|cbn; lia]|].
  destruct p as [|a [|b [|c [|d [|e [|f [|g [|h t]]]]]]]]; try (eexists; left; do 2 eexists; split; [reflexivity|cbn; lia]).
  rewrite unpack_cons. cbv zeta. destruct (Nat.leb _ _).
  - destruct (allow _); [|eexists; right; eexists; split; reflexivity].
    destruct (skipn _ t) as [|y l] eqn:E; [eexists; left; do 2 eexists; split; [reflexivity|cbn; lia]|].
    destruct (unpack_some fuel (y :: l) (un32 a b c d, (e * 256 + f)%N) (S n)) as (cs & t' & k & U & K). rewrite U.
    eexists. left. do 2 eexists. split; [reflexivity|]. cbn [length]. lia.
  - destruct (Nat.ltb _ _); eexists; left; do 2 eexists; (split; [reflexivity|cbn; lia]).
Qed.

Lemma whole_mod q : whole_request q -> length q mod 4 = 0 /\ 8 <= length q.
Proof.
  intros (a & b & c & d & e & f & g & h & t & -> & L). cbn [length]. rewrite L.
  replace (S _) with (0 + (2 + N.to_nat (g * 256 + h)) * 4) by lia. rewrite Nat.mod_add by lia. split; [reflexivity|lia].
Qed.
Lemma well_formed_mod p : well_formed p -> length p mod 4 = 0.
Proof.
  intros (qs & _ & F & ->). induction F as [|q qs W F IH]; [reflexivity|]. cbn [concat]. rewrite app_length.
  rewrite Nat.add_mod, IH, (proj1 (whole_mod _ W)) by lia. reflexivity.
Qed.
Lemma cut_cons fuel a b c d e f g h t : cut_short (S fuel) (a :: b :: c :: d :: e :: f :: g :: h :: t) =
  if Nat.leb (4 * N.to_nat (g * 256 + h)) (length t)
  then match skipn (4 * N.to_nat (g * 256 + h)) t with [] => false | tl => cut_short fuel tl end else true.
Proof. reflexivity. Qed.
Lemma cut_short_ok fuel : forall p, length p < fuel -> cut_short fuel p = false <-> well_formed p.
Proof.
  induction fuel as [|fuel IH]; intros p L; [lia|]. split.
  - intros H. destruct p as [|a [|b [|c [|d [|e [|f [|g [|h t]]]]]]]]; try discriminate.
    rewrite cut_cons in H. set (len := 4 * N.to_nat (g * 256 + h)) in *. destruct (Nat.leb_spec len (length t)) as [LE|]; [|discriminate].
    assert (W : whole_request (a :: b :: c :: d :: e :: f :: g :: h :: firstn len t)).
    { do 9 eexists. split; [reflexivity|]. rewrite firstn_length. subst len. lia. }
    assert (SP := firstn_skipn len t). destruct (skipn len t) as [|y l] eqn:E.
    + exists [a :: b :: c :: d :: e :: f :: g :: h :: firstn len t]. split; [discriminate|]. split; [auto|].
      cbn [concat app]. rewrite <- SP at 1. rewrite !app_nil_r. reflexivity.
    + apply IH in H. 2:{ assert (LS := skipn_length len t). rewrite E in LS. cbn [length] in L, LS. cbn [length]. lia. }
      destruct H as (qs & NE & F & Q). exists ((a :: b :: c :: d :: e :: f :: g :: h :: firstn len t) :: qs).
      split; [discriminate|]. split; [constructor; assumption|]. cbn [concat app]. rewrite <- Q, SP. reflexivity.
  - intros (qs & NE & F & ->). destruct F as [|q qs W F]; [congruence|]. cbn [concat] in *.
    destruct W as (a & b & c & d & e & f & g & h & t & -> & LT). cbn [app]. rewrite cut_cons. rewrite <- LT.
    rewrite app_length. replace (Nat.leb _ _) with true by (symmetry; apply Nat.leb_le; lia).
    rewrite skipn_app, skipn_all, Nat.sub_diag. cbn [app skipn].
    destruct qs as [|q2 qs]; [reflexivity|]. destruct (concat (q2 :: qs)) as [|y l] eqn:E.
    + exfalso. inversion F as [|? ? W2 _]; subst. apply whole_mod in W2. assert (X := f_equal (@length N) E). cbn [concat] in X. rewrite app_length in X. cbn [length] in X. lia.
    + apply IH; [cbn [app length] in *; rewrite app_length in L; cbn [length] in L; lia|].
      exists (q2 :: qs). split; [discriminate|]. split; [exact F|symmetry; exact E].
Qed.

Variable wf : bytes -> bool.
Hypothesis wf_ok : forall p, wf p = true <-> well_formed p.

Lemma chunk_counts m p c m' cs out i : on_chunk allow m p = (m', cs, out) ->
  count_chunk allow c p = add_counters c (if refused (EChunk i p cs out) then mkC 0 0 0 else traffic wf (EChunk i p cs out)) /\
  m_dead m' = m_dead m.
Proof.
  unfold on_chunk, count_chunk. destruct (Nat.eqb_spec (length p mod 4) 0) as [M|M].
  - destruct (unpack_none (S (length p)) p 0) as (cs' & [(t & k & U & K)|(r & U & ->)]); rewrite U; cbn [snd]; intros E; injection E as <- <- <-.
    + split; [|reflexivity]. cbn [refused traffic]. unfold add_counters. cbn [c_in c_bad c_sent concat length].
      assert (W := cut_short_ok (S (length p)) p ltac:(lia)). rewrite <- wf_ok in W.
      f_equal; [lia| |lia]. destruct (cut_short _ p), (wf p); try reflexivity; exfalso; destruct W as (W1 & W2); [discriminate (W2 eq_refl)|discriminate (W1 eq_refl)].
    + split; [|reflexivity]. cbn [refused]. rewrite add_zero. destruct c; reflexivity.
  - intros E. injection E as <- <- <-. split; [|reflexivity]. cbn [refused traffic]. unfold add_counters. cbn [c_in c_bad c_sent concat length].
    destruct (wf p) eqn:W; [apply wf_ok, well_formed_mod in W; congruence|]. f_equal; lia.
Qed.
End Chunk.

(** ** Steps of one manager *)
Section Moves.
Variable allow : target -> bool.
Variable wf : bytes -> bool.
Hypothesis wf_ok : forall p, wf p = true <-> well_formed p.

Definition of_loop (i : nat) (e : sev) : Prop := match e with EChunk j _ _ _ | EReply j _ => j = i | _ => False end.

(** [move i c c' k ms es]: the i-th manager goes from [c] to [c'], [k] messages go to the
    listener and [ms] to the statistics. *)
Inductive move (i : nat) : client -> client -> nat -> list smsg -> list sev -> Prop :=
| MvGot o t : move i (mkCl PAccept o t) (mkCl PGot o t) 0 [] [EAccepted i]
| MvErr o t : move i (mkCl PAccept o t) (mkCl PErr o t) 0 [] [EAcceptError i]
| MvTold o t : move i (mkCl PGot o t) (mkCl PTold o t) 1 [] []
| MvErrEnd o t : move i (mkCl PErr o t) (mkCl PEnd o t) 1 [] []
| MvCounted o t : move i (mkCl PTold o t) (mkCl PCounted o t) 0 [SConnected] []
| MvLoop o t : move i (mkCl PCounted o t) (mkCl (PLoop man0) ORun (Some zero_counters)) 0 [STable i] []
| MvNoPeer o t : move i (mkCl PCounted o t) (mkCl PEnd o t) 0 [SDisconnected] [ENoPeer i]
| MvEvent m m' o c e : of_loop i e -> m_dead m' = false ->
    move i (mkCl (PLoop m) o (Some c)) (mkCl (PLoop m') o (Some (add_counters c (mine wf i [e])))) 0 [] [e]
| MvEventCrash m o c e : of_loop i e ->
    move i (mkCl (PLoop m) o (Some c)) (mkCl PCrash o (Some (add_counters c (mine wf i [e])))) 0 [STransfer i] [e; ECrashed i]
| MvLookup m o t : move i (mkCl (PLoop m) o t) (mkCl PCrash o t) 0 [STransfer i] [ECrashed i]
| MvClosed m o t : move i (mkCl (PLoop m) o t) (mkCl PEnd o t) 0 [SDisconnected; STransfer i] [EClosed i]
| MvOwnerFails p t : move i (mkCl p ORun t) (mkCl p OCrash t) 0 [] []
| MvOwnerEnds p t : p = PEnd \/ p = PCrash -> move i (mkCl p ORun t) (mkCl p OEnd t) 0 [] [].

Lemma mine_chunk i p cs out : mine wf i [EChunk i p cs out] = if refused (EChunk i p cs out) then mkC 0 0 0 else traffic wf (EChunk i p cs out).
Proof.
  unfold mine, not_refused. cbn [filter]. destruct out as [|x out]; cbn [refused negb filter of_client].
  - rewrite Nat.eqb_refl. cbn [total traffic]. cbn [c_in c_bad c_sent]. f_equal; lia.
  - reflexivity.
Qed.
Lemma mine_reply i out : mine wf i [EReply i out] = mkC 0 0 (length (concat out)).
Proof.
  unfold mine, not_refused. cbn [filter refused negb of_client]. rewrite Nat.eqb_refl. cbn [total traffic c_in c_bad c_sent]. f_equal; lia.
Qed.

Definition alive_loops (v : srv) : Prop := forall i m o t, nth_error (v_cl v) i = Some (mkCl (PLoop m) o t) -> m_dead m = false.

Lemma sstep_move v l v' es : alive_loops v -> sstep allow v l = Some (v', es) ->
  (l = LSpawn /\ exists n, v_lbox v = S n /\ v' = mkSrv (v_cl v ++ [mkCl PAccept OWait None]) n (v_sbox v) (v_st v) /\ es = []) \/
  (l = LStats /\ exists m r cl s, v_sbox v = m :: r /\ on_stats (v_cl v) (v_st v) m = Some (cl, s) /\ v' = mkSrv cl (v_lbox v) r s /\ es = []) \/
  (exists i c c' k ms, nth_error (v_cl v) i = Some c /\ move i c c' k ms es /\
     v' = mkSrv (put_client (v_cl v) i c') (v_lbox v + k) (v_sbox v ++ ms) (v_st v)).
Proof.
  intros AL. destruct l as [i ok|i|i ok|i e|i|i|i|i|i| |]; cbn [sstep].
  - destruct (nth_error (v_cl v) i) as [[[] o t]|] eqn:E; try discriminate. intros H. injection H as <- <-. right; right.
    destruct ok; exists i; do 4 eexists; (split; [exact E|]); (split; [first [apply MvGot|apply MvErr]|]); rewrite app_nil_r, Nat.add_0_r; reflexivity.
  - destruct (nth_error (v_cl v) i) as [[[] o t]|] eqn:E; try discriminate; intros H; injection H as <- <-; right; right; exists i; do 4 eexists; (split; [exact E|]).
    + split; [apply MvTold|]. rewrite app_nil_r, Nat.add_1_r; reflexivity.
    + split; [apply MvErrEnd|]. rewrite app_nil_r, Nat.add_1_r; reflexivity.
    + split; [apply MvCounted|]. rewrite Nat.add_0_r; reflexivity.
  - destruct (nth_error (v_cl v) i) as [[[] o t]|] eqn:E; try discriminate. destruct ok; intros H; injection H as <- <-; right; right; exists i; do 4 eexists; (split; [exact E|]).
    + split; [apply MvLoop|]. rewrite Nat.add_0_r; reflexivity.
    + split; [apply MvNoPeer|]. rewrite Nat.add_0_r; reflexivity.
  - destruct (nth_error (v_cl v) i) as [[[| | | | |m| |] o [c|]]|] eqn:E; try discriminate. assert (D := AL _ _ _ _ E). unfold man_step. rewrite D.
    destruct e as [p|r].
    + destruct (on_chunk allow m p) as [[m' cs] out] eqn:O. destruct (chunk_counts allow wf wf_ok m p c m' cs out i O) as (C & D'). rewrite C, <- mine_chunk.
      rewrite D', D. intros H. injection H as <- <-. right; right. exists i. do 4 eexists. split; [exact E|]. split; [apply (MvEvent i m m'); [reflexivity|congruence]|]. rewrite app_nil_r, Nat.add_0_r; reflexivity.
    + destruct (on_response m r) as [m' out] eqn:O.
      assert (C : count_reply c out = add_counters c (mine wf i [EReply i out])).
      { rewrite mine_reply. unfold count_reply, add_counters. cbn [c_in c_bad c_sent]. f_equal; lia. }
      rewrite C. destruct (m_dead m') eqn:D'; intros H; injection H as <- <-; right; right; exists i; do 4 eexists; (split; [exact E|]).
      * split; [apply MvEventCrash; reflexivity|]. rewrite Nat.add_0_r; reflexivity.
      * split; [apply (MvEvent i m m'); [reflexivity|exact D']|]. rewrite app_nil_r, Nat.add_0_r; reflexivity.
  - destruct (nth_error (v_cl v) i) as [[[| | | | |m| |] o t]|] eqn:E; try discriminate. intros H; injection H as <- <-; right; right; exists i; do 4 eexists; (split; [exact E|]).
    split; [apply MvLookup|]. rewrite Nat.add_0_r; reflexivity.
  - destruct (nth_error (v_cl v) i) as [[[| | | | |m| |] o t]|] eqn:E; try discriminate. intros H; injection H as <- <-; right; right; exists i; do 4 eexists; (split; [exact E|]).
    split; [apply MvClosed|]. rewrite Nat.add_0_r; reflexivity.
  - destruct (nth_error (v_cl v) i) as [[p [] t]|] eqn:E; try discriminate. intros H; injection H as <- <-; right; right; exists i; do 4 eexists; (split; [exact E|]).
    split; [apply MvOwnerFails|]. rewrite app_nil_r, Nat.add_0_r; reflexivity.
  - destruct (nth_error (v_cl v) i) as [[[| | | | |m| |] [] t]|] eqn:E; try discriminate. intros H; injection H as <- <-; right; right; exists i; do 4 eexists; (split; [exact E|]).
    split; [apply MvLookup|]. rewrite Nat.add_0_r; reflexivity.
  - destruct (nth_error (v_cl v) i) as [[[| | | | |m| |] [] t]|] eqn:E; try discriminate; intros H; injection H as <- <-; right; right; exists i; do 4 eexists; (split; [exact E|]);
    (split; [apply MvOwnerEnds; auto|]); rewrite app_nil_r, Nat.add_0_r; reflexivity.
  - destruct (v_lbox v) as [|n] eqn:B; [discriminate|]. intros H. injection H as <- <-. left. split; [reflexivity|]. exists n. auto.
  - destruct (v_sbox v) as [|m r] eqn:B; [discriminate|]. destruct (on_stats _ _ m) as [[cl s]|] eqn:O; [|discriminate].
    intros H. injection H as <- <-. right; left. split; [reflexivity|]. exists m, r, cl, s. auto.
Qed.

(** ** The invariant *)
Fixpoint ord (i : nat) (box : list smsg) : Prop :=
  match box with
  | [] => True
  | m :: t => (is_trans i m = true -> nmsg (is_table i) t = 0) /\ ord i t
  end.
Lemma ord_app i a : forall b, ord i a -> ord i b -> nmsg (is_table i) b = 0 \/ nmsg (is_trans i) a = 0 -> ord i (a ++ b).
Proof.
  induction a as [|m a IH]; intros b; cbn [app ord]; [auto|]. intros (A1 & A2) B H. split.
  - intros T. rewrite nmsg_app, (A1 T). destruct H as [->|H]; [reflexivity|]. rewrite nmsg_cons, T in H. cbn [b2n] in H. lia.
  - apply IH; auto. destruct H as [H|H]; [auto|right]. rewrite nmsg_cons in H. lia.
Qed.

Definition cinv (i : nat) (c : client) (box : list smsg) (cur : list nat) (tr : list sev) : Prop :=
  ord i box /\
  match cl_place c, cl_tab c with
  | (PAccept | PGot | PErr | PTold | PCounted), None =>
      cl_owner c = OWait /\ nmsg (is_table i) box = 0 /\ nmsg (is_trans i) box = 0 /\ occ i cur = 0 /\ mine wf i tr = mkC 0 0 0
  | PLoop m, Some k =>
      m_dead m = false /\ (cl_owner c = ORun \/ cl_owner c = OCrash) /\ nmsg (is_table i) box + occ i cur = 1 /\
      nmsg (is_trans i) box = 0 /\ k = mine wf i tr
  | (PEnd | PCrash), Some k =>
      cl_owner c <> OWait /\ nmsg (is_table i) box + occ i cur = 1 /\ nmsg (is_trans i) box = 1 /\ k = mine wf i tr
  | (PEnd | PCrash), None => nmsg (is_table i) box = 0 /\ nmsg (is_trans i) box = 0 /\ occ i cur = 0
  | _, _ => False
  end.

Definition f_acc (c : client) : nat := match cl_place c with PAccept | PGot | PErr => 1 | _ => 0 end.
Definition f_early (c : client) : nat := match cl_place c with PGot | PTold => 1 | _ => 0 end.
Definition f_live (c : client) : nat := match cl_place c with PGot | PTold | PCounted | PLoop _ => 1 | _ => 0 end.
Definition f_left (c : client) : nat := if leftover c then 1 else match cl_place c with PErr => 1 | _ => 0 end.
Definition tab (c : client) : counters := match cl_tab c with Some k => k | None => mkC 0 0 0 end.
Definition delta (l : list smsg) : Z := (Z.of_nat (nmsg is_conn l) - Z.of_nat (nmsg is_disc l))%Z.
Lemma delta_app a b : delta (a ++ b) = (delta a + delta b)%Z.
Proof. unfold delta. rewrite !nmsg_app. lia. Qed.

Record inv (v : srv) (tr : list sev) : Prop := mkInv {
  i_acc : sumf f_acc (v_cl v) + v_lbox v = 1;
  i_all : (st_all (v_st v) + Z.of_nat (nmsg is_conn (v_sbox v)) + Z.of_nat (sumf f_early (v_cl v)) = number is_accepted tr)%Z;
  i_act : (st_active (v_st v) + delta (v_sbox v) = st_all (v_st v) + Z.of_nat (nmsg is_conn (v_sbox v)) - number is_left tr)%Z;
  i_live : Z.of_nat (sumf f_live (v_cl v)) = connected tr;
  i_max : (0 <= st_max (v_st v) /\ st_active (v_st v) <= st_max (v_st v) <= peak tr)%Z;
  i_peak : forall k, (st_active (v_st v) + delta (firstn k (v_sbox v)) <= peak tr)%Z;
  i_left : Z.of_nat (sumf f_left (v_cl v)) = number is_failed tr;
  i_in : c_in (st_old (v_st v)) + sumf (fun c => c_in (tab c)) (v_cl v) = c_in (total wf (not_refused tr));
  i_bad : c_bad (st_old (v_st v)) + sumf (fun c => c_bad (tab c)) (v_cl v) = c_bad (total wf (not_refused tr));
  i_sent : c_sent (st_old (v_st v)) + sumf (fun c => c_sent (tab c)) (v_cl v) = c_sent (total wf (not_refused tr));
  i_cl : forall i, match nth_error (v_cl v) i with
                   | Some c => cinv i c (v_sbox v) (st_cur (v_st v)) tr
                   | None => ord i (v_sbox v) /\ nmsg (is_table i) (v_sbox v) = 0 /\ nmsg (is_trans i) (v_sbox v) = 0 /\
                             occ i (st_cur (v_st v)) = 0 /\ mine wf i tr = mkC 0 0 0
                   end
}.

Lemma inv_start : inv start [].
Proof.
  constructor; cbn; try lia.
  - intros [|k]; cbn; lia.
  - intros [|[|i]]; cbn; unfold cinv; cbn; repeat split; reflexivity.
Qed.

Lemma inv_alive v tr : inv v tr -> alive_loops v.
Proof. intros I i m o t E. assert (H := i_cl _ _ I i). rewrite E in H. unfold cinv in H. cbn in H. destruct t; tauto. Qed.

(** A manager not concerned by a step. *)
Lemma mine_other i j c c' k ms es : move i c c' k ms es -> j <> i ->
  mine wf j es = mkC 0 0 0 /\ nmsg (is_table j) ms = 0 /\ nmsg (is_trans j) ms = 0 /\ ord j ms.
Proof.
  assert (L : forall e, of_loop i e -> j <> i -> of_client j e = false).
  { intros e O N. destruct e; cbn in *; try reflexivity; apply Nat.eqb_neq; congruence. }
  assert (G : forall e, of_client j e = false -> forall es, mine wf j (e :: es) = mine wf j es).
  { intros e O es'. unfold mine, not_refused. cbn [filter]. destruct (refused e); cbn [negb]; [reflexivity|]. cbn [filter]. rewrite O. reflexivity. }
  assert (EQ : j <> i -> Nat.eqb i j = false) by (intros; apply Nat.eqb_neq; congruence).
  intros M N. destruct M; (split; [try reflexivity; try (rewrite (G _ (L _ H N)); reflexivity)|]);
    unfold nmsg; cbn [filter is_table is_trans ord]; rewrite ?(EQ N); cbn [length]; repeat split; auto; discriminate.
Qed.

Lemma cinv_other j c box cur tr ms es : cinv j c box cur tr ->
  mine wf j es = mkC 0 0 0 -> nmsg (is_table j) ms = 0 -> nmsg (is_trans j) ms = 0 -> ord j ms ->
  cinv j c (box ++ ms) cur (tr ++ es).
Proof.
  intros (O & H) M T X OM. split; [apply ord_app; auto|].
  rewrite !nmsg_app, T, X, !mine_app, M, add_zero, !Nat.add_0_r. exact H.
Qed.

Lemma cinv_mine i c c' k ms es box cur tr : move i c c' k ms es -> cinv i c box cur tr -> cinv i c' (box ++ ms) cur (tr ++ es).
Proof.
  assert (Z : forall tr', mine wf i (tr' ++ []) = mine wf i tr') by (intros; rewrite app_nil_r; reflexivity).
  intros M (O & H).
  assert (OA : nmsg (is_trans i) box = 0 \/ nmsg (is_table i) ms = 0 -> ord i ms -> ord i (box ++ ms)) by (intros [A|A] B; apply ord_app; auto).
  destruct M; unfold cinv in *; cbn [cl_place cl_owner cl_tab] in *; rewrite !nmsg_app, !mine_app;
    change (mine wf i []) with (mkC 0 0 0) in *; unfold nmsg in *; cbn [filter is_table is_trans length] in *; rewrite ?Nat.eqb_refl; cbn [length] in *.
  all: try (destruct t as [k|]; [contradiction|]; destruct H as (J1 & J2 & J3 & J4 & J5); rewrite ?J5; split; [apply OA; cbn; auto|repeat split; auto; lia]; fail).
  - destruct H as (J1 & J2 & J3 & J4 & ->). split; [apply OA; cbn; auto|]. repeat split; auto; lia.
  - destruct H as (J1 & J2 & J3 & J4 & ->). split; [apply OA; cbn; auto|]. split; [destruct J2; congruence|]. split; [lia|]. split; [lia|].
    change [e; ECrashed i] with ([e] ++ [ECrashed i]). rewrite mine_app. change (mine wf i [ECrashed i]) with (mkC 0 0 0). rewrite add_zero. reflexivity.
  - destruct t as [k|]; [|contradiction]. destruct H as (J1 & J2 & J3 & J4 & ->). split; [apply OA; cbn; auto|]. split; [destruct J2; congruence|]. split; [lia|]. split; [lia|].
    change (mine wf i [ECrashed i]) with (mkC 0 0 0). rewrite add_zero. reflexivity.
  - destruct t as [k|]; [|contradiction]. destruct H as (J1 & J2 & J3 & J4 & ->). split; [apply OA; cbn; auto; repeat split; auto; discriminate|]. split; [destruct J2; congruence|]. split; [lia|]. split; [lia|].
    change (mine wf i [EClosed i]) with (mkC 0 0 0). rewrite add_zero. reflexivity.
  - rewrite !add_zero, !app_nil_r, !Nat.add_0_r. split; [exact O|].
    destruct p, t; try contradiction; try (destruct H as (J1 & _); discriminate J1); try exact H;
      destruct H as (J1 & J2 & J3 & J4); (split; [first [exact J1|discriminate]|]); try (split; [auto|]); auto.
  - rewrite !add_zero, !app_nil_r, !Nat.add_0_r. split; [exact O|]. destruct H0 as [-> | ->]; destruct t; try exact H; destruct H as (J1 & J2); (split; [discriminate|exact J2]).
Qed.

Definition one (b : bool) : Z := if b then 1%Z else 0%Z.
Lemma number_cons f e t : number f (e :: t) = (one (f e) + number f t)%Z.
Proof. unfold number. cbn [filter]. destruct (f e); cbn [length one]; lia. Qed.
Lemma number_nil f : number f [] = 0%Z.
Proof. reflexivity. Qed.

Lemma total_mine i es : Forall (of_loop i) es -> total wf (not_refused es) = mine wf i es.
Proof.
  intros F. unfold mine. f_equal. induction F as [|e es O F IH]; [reflexivity|].
  unfold not_refused in *. cbn [filter]. destruct (refused e); cbn [negb]; [exact IH|]. cbn [filter].
  replace (of_client i e) with true; [f_equal; exact IH|]. destruct e; cbn in *; try contradiction; subst; symmetry; apply Nat.eqb_refl.
Qed.
Lemma total_crashed i es : total wf (not_refused (es ++ [ECrashed i])) = total wf (not_refused es).
Proof. unfold not_refused. rewrite filter_app, total_app. cbn. apply add_zero. Qed.

Lemma loop_event i e : of_loop i e -> is_accepted e = false /\ is_left e = false /\ is_crashed e = false /\ is_failed e = false.
Proof. destruct e; cbn; intros H; try contradiction; auto. Qed.

Lemma move_facts i c c' k ms es box cur tr : move i c c' k ms es -> cinv i c box cur tr ->
  f_acc c' + k = f_acc c /\
  (Z.of_nat (nmsg is_conn ms) + Z.of_nat (f_early c') = Z.of_nat (f_early c) + number is_accepted es)%Z /\
  (delta ms = Z.of_nat (nmsg is_conn ms) - number is_left es)%Z /\
  (Z.of_nat (f_live c') - Z.of_nat (f_live c) = connected es)%Z /\
  (Z.of_nat (f_left c') - Z.of_nat (f_left c) = number is_failed es)%Z /\
  tab c' = add_counters (tab c) (total wf (not_refused es)) /\
  nmsg is_conn ms <= f_early c /\ (forall j, (delta (firstn j ms) <= Z.of_nat (nmsg is_conn ms))%Z).
Proof.
  assert (D : forall l j, (delta (firstn j l) <= Z.of_nat (nmsg is_conn l))%Z).
  { intros l j. rewrite <- (firstn_skipn j l) at 2. rewrite nmsg_app. unfold delta. lia. }
  intros M C.
  destruct M; unfold connected, delta, tab, f_left, leftover; cbn [cl_place cl_owner cl_tab f_acc f_early f_live];
    rewrite ?number_cons, ?number_nil; cbn [is_accepted is_left is_crashed is_failed one].
  all: try (assert (LE := H); apply loop_event in LE as (L1 & L2 & L3 & L4); rewrite ?L1, ?L2, ?L3, ?L4; cbn [one]).
  all: repeat (split; [try reflexivity; try (cbn; lia); try (symmetry; apply add_zero)|]); try (intros j; apply D).
  all: try (destruct p; reflexivity).
  - destruct C as (_ & C). cbn in C. destruct t; [contradiction|]. destruct C as (-> & _). reflexivity.
  - destruct C as (_ & C). cbn in C. destruct t; [contradiction|]. reflexivity.
  - destruct C as (_ & C). cbn in C. destruct t; [contradiction|]. destruct C as (-> & _). reflexivity.
  - rewrite (total_mine i [e]); [reflexivity|]. constructor; [|constructor]. assumption.
  - destruct C as (_ & _ & C & _). cbn in C. destruct C as [-> | ->]; reflexivity.
  - change [e; ECrashed i] with ([e] ++ [ECrashed i]). rewrite total_crashed, (total_mine i [e]); [reflexivity|]. constructor; [|constructor]. assumption.
  - destruct C as (_ & C). cbn in C. destruct t; [|contradiction]. destruct C as (_ & [-> | ->] & _); reflexivity.
  - destruct C as (_ & C). cbn in C. destruct t; [|contradiction]. destruct C as (_ & [-> | ->] & _); reflexivity.
Qed.

Lemma not_refused_app a b : not_refused (a ++ b) = not_refused a ++ not_refused b.
Proof. apply filter_app. Qed.

Lemma inv_move v tr i c c' k ms es : inv v tr -> nth_error (v_cl v) i = Some c -> move i c c' k ms es ->
  inv (mkSrv (put_client (v_cl v) i c') (v_lbox v + k) (v_sbox v ++ ms) (v_st v)) (tr ++ es).
Proof.
  intros I E M. assert (C := i_cl _ _ I i). rewrite E in C.
  destruct (move_facts _ _ _ _ _ _ _ _ _ M C) as (F1 & F2 & F3 & F4 & F5 & F6 & F7 & F8).
  assert (SP := fun f => sumf_put f c' _ _ _ E).
  destruct I as [A1 A2 A3 A4 A5 A6 A7 A8 A9 A10 A11]. assert (PN := peak_now tr). assert (PM := peak_mono tr es).
  assert (NE := sumf_in f_early _ _ _ E).
  constructor; cbn [v_cl v_lbox v_sbox v_st]; rewrite ?nmsg_app, ?number_app, ?delta_app, ?not_refused_app, ?total_app.
  - specialize (SP f_acc). lia.
  - specialize (SP f_early). lia.
  - lia.
  - specialize (SP f_live). unfold connected in *. rewrite !number_app. lia.
  - lia.
  - intros j. rewrite firstn_app, delta_app. destruct (Nat.leb_spec j (length (v_sbox v))) as [LE|GT].
    + replace (j - length (v_sbox v)) with 0 by lia. cbn [firstn]. specialize (A6 j). unfold delta at 2. cbn. lia.
    + rewrite (firstn_all2 (v_sbox v)) by lia. specialize (F8 (j - length (v_sbox v))). lia.
  - specialize (SP f_left). lia.
  - specialize (SP (fun c => c_in (tab c))). cbv beta in SP. rewrite F6 in SP. cbn [add_counters c_in] in *. lia.
  - specialize (SP (fun c => c_bad (tab c))). cbv beta in SP. rewrite F6 in SP. cbn [add_counters c_bad] in *. lia.
  - specialize (SP (fun c => c_sent (tab c))). cbv beta in SP. rewrite F6 in SP. cbn [add_counters c_sent] in *. lia.
  - intros j. rewrite (nth_put c' _ _ _ E). destruct (Nat.eqb_spec j i) as [->|N].
    + exact (cinv_mine _ _ _ _ _ _ _ _ _ M C).
    + destruct (mine_other _ _ _ _ _ _ _ M N) as (X1 & X2 & X3 & X4). specialize (A11 j). destruct (nth_error (v_cl v) j).
      * apply cinv_other; auto.
      * destruct A11 as (B1 & B2 & B3 & B4 & B5). split; [apply ord_app; auto|]. rewrite !nmsg_app, mine_app, B2, B3, B5, X1, X2, X3. auto.
Qed.

Lemma nmsg_delta_cons m r : delta (m :: r) = (one (is_conn m) - one (is_disc m) + delta r)%Z.
Proof. unfold delta. rewrite !nmsg_cons. destruct m; cbn [is_conn is_disc b2n one]; lia. Qed.

Lemma cinv_same j c box cur tr c' box' cur' :
  cl_place c' = cl_place c -> cl_owner c' = cl_owner c -> cl_tab c' = cl_tab c -> ord j box' ->
  nmsg (is_table j) box' + occ j cur' = nmsg (is_table j) box + occ j cur ->
  nmsg (is_trans j) box' = nmsg (is_trans j) box ->
  cinv j c box cur tr -> cinv j c' box' cur' tr.
Proof.
  intros E1 E2 E3 O N T (_ & H). split; [exact O|]. rewrite E1, E2, E3, T.
  destruct (cl_place c), (cl_tab c); try contradiction.
  all: try (destruct H as (J1 & J2 & J3 & J4 & J5); repeat split; try assumption; lia).
  all: try (destruct H as (J1 & J2 & J3 & J4); repeat split; try assumption; lia).
  all: try (destruct H as (J1 & J2 & J3); repeat split; try assumption; lia).
Qed.

Lemma inv_stats v tr m r : inv v tr -> v_sbox v = m :: r ->
  exists cl s, on_stats (v_cl v) (v_st v) m = Some (cl, s) /\ inv (mkSrv cl (v_lbox v) r s) tr.
Proof.
  intros [A1 A2 A3 A4 A5 A6 A7 A8 A9 A10 A11] B. rewrite B in *. rewrite nmsg_delta_cons in A3. rewrite nmsg_cons in A2, A3.
  assert (K : forall k, (st_active (v_st v) + (one (is_conn m) - one (is_disc m)) + delta (firstn k r) <= peak tr)%Z).
  { intros k. specialize (A6 (S k)). cbn [firstn] in A6. rewrite nmsg_delta_cons in A6. lia. }
  assert (OR : forall j, ord j r).
  { intros j. specialize (A11 j). destruct (nth_error (v_cl v) j); [destruct A11 as ((_ & O) & _)|destruct A11 as ((_ & O) & _)]; exact O. }
  assert (K1 := K 0). cbn [firstn] in K1. change (delta []) with 0%Z in K1.
  destruct m as [| |i|i]; cbn [is_conn is_disc one b2n] in *.
  - do 2 eexists. split; [reflexivity|]. constructor; cbn [v_cl v_lbox v_sbox v_st st_all st_active st_max st_old st_cur]; auto; try lia; try (intros k; specialize (K k); lia).
    + destruct (Z.ltb_spec (st_max (v_st v)) (st_active (v_st v) + 1)); lia.
    + intros j. specialize (A11 j). destruct (nth_error (v_cl v) j); [|rewrite !nmsg_cons in A11; destruct A11 as (_ & B2); split; [apply OR|exact B2]].
      eapply cinv_same; [reflexivity..|apply OR| | |exact A11]; rewrite nmsg_cons; reflexivity.
  - do 2 eexists. split; [reflexivity|]. constructor; cbn [v_cl v_lbox v_sbox v_st st_all st_active st_max st_old st_cur]; auto; try lia; try (intros k; specialize (K k); lia).
    + intros j. specialize (A11 j). destruct (nth_error (v_cl v) j); [|rewrite !nmsg_cons in A11; destruct A11 as (_ & B2); split; [apply OR|exact B2]].
      eapply cinv_same; [reflexivity..|apply OR| | |exact A11]; rewrite nmsg_cons; reflexivity.
  - do 2 eexists. split; [reflexivity|]. constructor; cbn [v_cl v_lbox v_sbox v_st st_all st_active st_max st_old st_cur]; auto; try lia; try (intros k; specialize (K k); lia).
    + intros j. specialize (A11 j). destruct (nth_error (v_cl v) j).
      * eapply cinv_same; [reflexivity..|apply OR| | |exact A11]; rewrite nmsg_cons; cbn [is_table is_trans b2n]; [rewrite occ_cons, (Nat.eqb_sym j i); lia|reflexivity].
      * rewrite !nmsg_cons in A11. cbn [is_table is_trans b2n] in A11. rewrite occ_cons, (Nat.eqb_sym j i).
        destruct A11 as (_ & B2 & B3 & B4 & B5). split; [apply OR|]. repeat split; auto; lia.
  - assert (C := A11 i). destruct (nth_error (v_cl v) i) as [[p o t]|] eqn:E.
    2:{ destruct C as (_ & _ & C & _). rewrite nmsg_cons in C. cbn [is_trans] in C. rewrite Nat.eqb_refl in C. cbn [b2n] in C. lia. }
    destruct C as ((O & _) & C). cbn [is_trans] in O. rewrite Nat.eqb_refl in O. specialize (O eq_refl).
    rewrite !nmsg_cons in C. cbn [is_table is_trans cl_place cl_owner cl_tab] in C. rewrite Nat.eqb_refl in C. cbn [b2n] in C.
    assert (X : exists k, t = Some k /\ (p = PEnd \/ p = PCrash) /\ nmsg (is_trans i) r = 0 /\ occ i (st_cur (v_st v)) = 1).
    { destruct p, t as [k|]; try contradiction; try (exfalso; lia); exists k; (split; [reflexivity|]); (split; [auto|]); lia. }
    destruct X as (k & -> & P & T & OC). cbn [on_stats]. rewrite E. do 2 eexists. split; [reflexivity|].
    assert (SP := fun f => sumf_put f (mkCl p o None) _ _ _ E).
    constructor; cbn [v_cl v_lbox v_sbox v_st st_all st_active st_max st_old st_cur]; try lia.
    + specialize (SP f_acc). unfold f_acc in SP at 2 4. cbn [cl_place] in SP. lia.
    + specialize (SP f_early). unfold f_early in SP at 2 4. cbn [cl_place] in SP. lia.
    + specialize (SP f_live). unfold f_live in SP at 2 4. cbn [cl_place] in SP. lia.
    + specialize (SP f_left). change (f_left (mkCl p o None)) with (f_left (mkCl p o (Some k))) in SP. lia.
    + specialize (SP (fun c => c_in (tab c))). cbv beta in SP. change (tab (mkCl p o None)) with (mkC 0 0 0) in SP. change (tab (mkCl p o (Some k))) with k in SP. cbn [c_in] in SP. cbn [add_counters c_in]. lia.
    + specialize (SP (fun c => c_bad (tab c))). cbv beta in SP. change (tab (mkCl p o None)) with (mkC 0 0 0) in SP. change (tab (mkCl p o (Some k))) with k in SP. cbn [c_bad] in SP. cbn [add_counters c_bad]. lia.
    + specialize (SP (fun c => c_sent (tab c))). cbv beta in SP. change (tab (mkCl p o None)) with (mkC 0 0 0) in SP. change (tab (mkCl p o (Some k))) with k in SP. cbn [c_sent] in SP. cbn [add_counters c_sent]. lia.
    + intros j. rewrite (nth_put _ _ _ _ E). specialize (A11 j). destruct (Nat.eqb_spec j i) as [->|N].
      * split; [apply OR|]. cbn [cl_place cl_tab]. rewrite occ_keydelete, Nat.eqb_refl. cbn [b2n].
        destruct P as [-> | ->]; repeat split; auto; lia.
      * assert (N1 : Nat.eqb i j = false) by (apply Nat.eqb_neq; congruence). assert (N2 : Nat.eqb j i = false) by (apply Nat.eqb_neq; congruence).
        destruct (nth_error (v_cl v) j).
        -- eapply cinv_same; [reflexivity..|apply OR| | |exact A11]; rewrite nmsg_cons; cbn [is_table is_trans]; rewrite ?N1; [rewrite occ_keydelete, N2; cbn [b2n]; lia|reflexivity].
        -- rewrite !nmsg_cons in A11. cbn [is_table is_trans] in A11. rewrite N1 in A11. rewrite occ_keydelete, N2. cbn [b2n] in *.
           destruct A11 as (_ & B2 & B3 & B4 & B5). split; [apply OR|]. repeat split; auto; lia.
Qed.

Lemma inv_spawn v tr n : inv v tr -> v_lbox v = S n -> inv (mkSrv (v_cl v ++ [mkCl PAccept OWait None]) n (v_sbox v) (v_st v)) tr.
Proof.
  intros [A1 A2 A3 A4 A5 A6 A7 A8 A9 A10 A11] L. constructor; cbn [v_cl v_lbox v_sbox v_st]; rewrite ?sumf_app; cbn [sumf f_acc f_early f_live cl_place tab cl_tab c_in c_bad c_sent]; auto; try lia.
  - unfold f_left at 2, leftover. cbn [cl_place cl_owner]. lia.
  - intros i. specialize (A11 i). destruct (Nat.ltb_spec i (length (v_cl v))) as [LT|GE].
    + rewrite nth_error_app1 by exact LT. exact A11.
    + rewrite nth_error_app2 by exact GE. rewrite (proj2 (nth_error_None _ _) GE) in A11.
      destruct (i - length (v_cl v)) as [|[|d]]; cbn [nth_error]; try exact A11.
      destruct A11 as (B1 & B2). split; [exact B1|]. cbn [cl_place cl_tab cl_owner]. split; [reflexivity|exact B2].
Qed.

Theorem inv_step v tr l v' es : inv v tr -> sstep allow v l = Some (v', es) -> inv v' (tr ++ es).
Proof.
  intros I S. destruct (sstep_move _ _ _ _ (inv_alive _ _ I) S) as [(_ & n & L & -> & ->)|[(_ & m & r & cl & s & B & O & -> & ->)|(i & c & c' & k & ms & E & M & ->)]].
  - rewrite app_nil_r. apply inv_spawn; assumption.
  - rewrite app_nil_r. destruct (inv_stats _ _ _ _ I B) as (cl' & s' & O' & I'). rewrite O in O'. injection O' as <- <-. exact I'.
  - exact (inv_move _ _ _ _ _ _ _ _ I E M).
Qed.
Theorem inv_run ls : forall v tr v' es, inv v tr -> srun allow v ls = Some (v', es) -> inv v' (tr ++ es).
Proof.
  induction ls as [|l ls IH]; intros v tr v' es I; cbn [srun].
  - intros E. injection E as <- <-. rewrite app_nil_r. exact I.
  - destruct (sstep allow v l) as [[v1 e1]|] eqn:S; [|discriminate]. destruct (srun allow v1 ls) as [[v2 e2]|] eqn:R; [|discriminate].
    intros E. injection E as <- <-. rewrite app_assoc. exact (IH _ _ _ _ (inv_step _ _ _ _ _ I S) R).
Qed.
End Moves.
