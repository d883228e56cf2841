(** Proofs about the packet inspectors. *)
From Verif Require Import Word Header WordLemmas HeaderProofs Client WireSpec ReplyProofs Inspector InspectorSpec.
From Coq Require Import NArith ZArith List Lia Bool Arith ZifyBool ZifyNat ZifyN.
Import ListNotations.
Open Scope N_scope.
Ltac Zify.zify_post_hook ::= idtac.

Definition knownb (d : direction) (t : ttype) : bool :=
  match d, t with _, RAI => false | Replies, CONFIG_SPACE_READ => false | _, _ => true end.
Lemma knownb_spec d t : knownb d t = true <-> known d t.
Proof. destruct d, t; cbn; split; intros; try discriminate; try contradiction; auto. Qed.

(** The switches as functions of the words that follow. *)
Definition larm (d : direction) (l : list N) (t : ttype) (wc : N) : option (handler * nat) :=
  if knownb d t then
    let n := N.to_nat (body_words d t wc) in
    if Nat.ltb (length l) n then None else Some (report d t (firstn n l), n)
  else Some (KUnknown, 0%nat).

Lemma nth_skipn (buf : list N) pos k : nth_error buf (pos + k) = nth_error (skipn pos buf) k.
Proof. revert buf. induction pos as [|p IH]; intros [|b buf]; cbn; auto. destruct k; reflexivity. Qed.

Lemma payload_list (buf : list N) pos wc : (pos <= length buf)%nat ->
  payload buf pos wc = if Nat.leb (N.to_nat wc) (length (skipn pos buf)) then Some (firstn (N.to_nat wc) (skipn pos buf)) else None.
Proof.
  intros H. unfold payload. rewrite skipn_length.
  replace (Nat.leb (pos + N.to_nat wc) (length buf)) with (Nat.leb (N.to_nat wc) (length buf - pos)); [reflexivity|].
  destruct (Nat.leb_spec (N.to_nat wc) (length buf - pos)), (Nat.leb_spec (pos + N.to_nat wc) (length buf)); lia.
Qed.

Lemma payload_list1 (buf : list N) pos wc a l : skipn pos buf = a :: l ->
  payload buf (pos + 1) wc = if Nat.leb (N.to_nat wc) (length l) then Some (firstn (N.to_nat wc) l) else None.
Proof.
  intros E. assert (L : (length (skipn pos buf) = S (length l))%nat) by (rewrite E; reflexivity).
  rewrite skipn_length in L. rewrite payload_list by lia.
  assert (Q : skipn (pos + 1) buf = l).
  { rewrite <- (firstn_skipn pos buf), E at 1. rewrite skipn_app, firstn_length, skipn_all2 by (rewrite firstn_length; lia).
    replace (pos + 1 - Nat.min pos (length buf))%nat with 1%nat by lia. reflexivity. }
  rewrite Q. reflexivity.
Qed.

Lemma arm_list d (buf : list N) pos t wc : (pos <= length buf)%nat ->
  (match d with Requests => request_arm buf pos t wc | Replies => reply_arm buf pos t wc end) =
  larm d (skipn pos buf) t wc.
Proof.
  intros H. assert (E0 := nth_skipn buf pos 0). rewrite Nat.add_0_r in E0.
  destruct d; unfold request_arm, reply_arm, larm.
  - rewrite !nth_skipn, E0. destruct t; cbn [knownb body_words request_words]; try reflexivity;
      destruct (skipn pos buf) as [|a l] eqn:S; cbn [nth_error length];
      try (replace (N.to_nat (1 + wc)) with (Datatypes.S (N.to_nat wc)) by lia); cbn [Nat.ltb Nat.leb report];
      try reflexivity.
    all: try (destruct l as [|b [|c l]]; reflexivity).
    all: try (rewrite (payload_list1 _ _ _ _ _ S);
      destruct (N.to_nat wc) as [|k]; [reflexivity|];
      destruct (Nat.leb_spec (Datatypes.S k) (length l)), (Nat.leb_spec (length l) k); try lia; reflexivity).
  - rewrite E0. destruct t; cbn [knownb body_words reply_words]; try reflexivity.
    all: try rewrite payload_list by assumption.
    all: try (replace (1 + wc - 1) with wc by lia).
    all: try (destruct (Nat.leb_spec (N.to_nat wc) (length (skipn pos buf))), (Nat.ltb_spec (length (skipn pos buf)) (N.to_nat wc)); try lia; reflexivity).
    all: destruct (skipn pos buf) as [|a l]; reflexivity.
Qed.

Lemma decode v w :
  match extract_header v w with
  | None => ~ is_header v w
  | Some x => word_version w = version_number v /\ spec_type v (h_type x) = Some (word_type v w) /\
              x = mkHdr (h_type x) (word_count v w) (word_id v w) (word_info v w)
  end.
Proof.
  destruct (extract_header v w) as [x|] eqn:E.
  - destruct (extract_word v w x E) as ((A & _) & B & C & D). destruct (extract_fields v w x E) as (F & _).
    split; [exact A|]. split; [exact B|].
    destruct x as [t c i f]; cbn in *. subst. destruct v; reflexivity.
  - rewrite is_header_extract, E. intros (x & Q). discriminate.
Qed.

Lemma heads_decode d v w t : heads d v w t ->
  extract_header v w = Some (mkHdr t (word_count v w) (word_id v w) (word_info v w)).
Proof.
  intros (A & B & _). assert (D := decode v w). destruct (extract_header v w) as [x|].
  - destruct D as (_ & C & ->). rewrite (spec_type_inj _ _ _ _ B C). reflexivity.
  - exfalso. apply D. split; [exact A|eauto].
Qed.

Definition wrong_info (d : direction) (v : version) (x : hdr) : bool :=
  match d with Requests => negb (h_info x =? req_info v) | Replies => false end.
Lemma wrong_info_spec d v w t c i : wrong_info d v (mkHdr t c i (word_info v w)) = false <-> info_ok d v w.
Proof.
  unfold wrong_info, info_ok. destruct d; [|tauto]. cbn [h_info].
  rewrite negb_false_iff, N.eqb_eq. destruct v; reflexivity.
Qed.

Lemma skipn_cons (buf : list N) pos w r : skipn pos buf = w :: r ->
  nth_error buf pos = Some w /\ skipn (pos + 1) buf = r /\ (pos < length buf)%nat.
Proof.
  intros E. assert (E0 := nth_skipn buf pos 0). rewrite Nat.add_0_r, E in E0.
  split; [exact E0|]. assert (L : (length (skipn pos buf) = S (length r))%nat) by (rewrite E; reflexivity).
  rewrite skipn_length in L. split; [|lia].
  rewrite <- (firstn_skipn pos buf), E at 1. rewrite skipn_app, firstn_length, skipn_all2 by (rewrite firstn_length; lia).
  replace (pos + 1 - Nat.min pos (length buf))%nat with 1%nat by lia. reflexivity.
Qed.
Lemma skipn_nil (buf : list N) pos : skipn pos buf = [] -> nth_error buf pos = None.
Proof. intros E. assert (E0 := nth_skipn buf pos 0). rewrite Nat.add_0_r, E in E0. exact E0. Qed.
Lemma skipn_plus (buf : list N) a b : skipn (a + b) buf = skipn b (skipn a buf).
Proof. revert buf. induction a as [|a IH]; intros buf; [reflexivity|]. destruct buf; cbn [plus skipn]; [destruct b; reflexivity|apply IH]. Qed.

Section A.
Variables (d : direction) (v : version) (stop : nat) (buf : list N).
Notation at_ := (analyze_at d v stop buf).

Lemma loop_eq f go pos :
  at_ (S f) false go pos =
  match skipn pos buf with
  | [] => ([], Overrun)
  | w :: r =>
      match extract_header v w with
      | None => match v with
                | V1 => ([], Done false (pos + 1))
                | V2 => if go then at_ f true true pos else ([], Done true pos)
                end
      | Some x =>
          if wrong_info d v x then ([], Done false (pos + 1)) else
          match larm d r (h_type x) (h_wc x) with
          | None => ([], Overrun)
          | Some (KUnknown, _) => ([KTx w x KUnknown], Done false (pos + 1))
          | Some (h, n) =>
              if Nat.eqb (pos + 1 + n) stop then ([KTx w x h], Done true stop)
              else let (cs, o) := at_ f false go (pos + 1 + n) in (KTx w x h :: cs, o)
          end
      end
  end.
Proof.
  cbn [analyze_at]. destruct (skipn pos buf) as [|w r] eqn:S.
  - rewrite (skipn_nil _ _ S). reflexivity.
  - destruct (skipn_cons _ _ _ _ S) as (-> & S1 & L). destruct (extract_header v w) as [x|]; [|reflexivity].
    fold (wrong_info d v x). destruct (wrong_info d v x); [reflexivity|].
    rewrite arm_list, S1 by lia. reflexivity.
Qed.

Lemma fresh_eq f go pos :
  at_ (S f) true go pos =
  if (match d with Requests => Nat.ltb stop pos | Replies => false end) then ([], Overrun) else
  match v with
  | V1 => at_ f false go pos
  | V2 =>
      match skipn pos buf with
      | [] => ([], Overrun)
      | p :: _ =>
          if p mod 16 =? 0 then
            let (cs, o) := at_ f false go (pos + 1) in (KPacket PControl p ((p / 2 ^ 8) mod 2 ^ 16) :: cs, o)
          else if p mod 16 =? 1 then ([KPacket PStatus p ((p / 2 ^ 8) mod 2 ^ 16)], Done true stop)
          else if (p mod 16 =? 2) && (match d with Requests => true | Replies => false end) then
            ([KPacket PResend p ((p / 2 ^ 8) mod 2 ^ 16)], Done true stop)
          else ([KPacket PUnknown p ((p / 2 ^ 8) mod 2 ^ 16)], Done false (pos + 1))
      end
  end.
Proof.
  cbn [analyze_at]. destruct (match d with Requests => _ | Replies => _ end); [reflexivity|].
  destruct v; [reflexivity|]. destruct (skipn pos buf) as [|p r] eqn:S.
  - rewrite (skipn_nil _ _ S). reflexivity.
  - destruct (skipn_cons _ _ _ _ S) as (-> & _).
    unfold packet_type, packet_counter, shr32. change 0x0F with (N.ones 4). change 0xFFFF with (N.ones 16).
    rewrite !N.land_ones, N.shiftr_div_pow2. reflexivity.
Qed.

(** The fuel is enough. *)
Definition need (fresh : bool) (pos : nat) : nat :=
  (2 * (length buf - pos) + match v, fresh with V1, false => 1 | V1, true => 2 | V2, true => 2 | V2, false => 3 end)%nat.

Lemma fuel_enough f : forall fresh go pos, (need fresh pos <= f)%nat -> snd (at_ f fresh go pos) <> NoFuel.
Proof.
  induction f as [|f IH]; intros fresh go pos H; [exfalso; unfold need in H; destruct v, fresh; lia|].
  destruct fresh.
  - rewrite fresh_eq. destruct (match d with Requests => _ | Replies => _ end); [discriminate|].
    destruct v eqn:V.
    + apply IH. unfold need in *. rewrite V in *. lia.
    + destruct (skipn pos buf) as [|p r] eqn:S; [discriminate|]. destruct (skipn_cons _ _ _ _ S) as (_ & _ & L).
      destruct (_ =? 0).
      * specialize (IH false go (pos + 1)%nat). rewrite <- V in *. destruct (at_ f false go (pos + 1)) as (cs, o). cbn [snd] in *.
        apply IH. unfold need in *. rewrite V in *. lia.
      * destruct (_ =? 1); [discriminate|]. destruct (_ && _); discriminate.
  - rewrite loop_eq. destruct (skipn pos buf) as [|w r] eqn:S; [discriminate|].
    destruct (skipn_cons _ _ _ _ S) as (_ & S1 & L). destruct (extract_header v w) as [x|].
    + destruct (wrong_info d v x); [discriminate|].
      destruct (larm d r (h_type x) (h_wc x)) as [(h, n)|]; [|discriminate].
      assert (K : snd (at_ f false go (pos + 1 + n)) <> NoFuel).
      { apply IH. unfold need in *. destruct v; lia. }
      destruct h; try discriminate; destruct (Nat.eqb _ stop); try discriminate;
        destruct (at_ f false go (pos + 1 + n)); exact K.
    + destruct v eqn:V; [discriminate|]. destruct go; [|discriminate].
      apply IH. unfold need in *. rewrite V in *. lia.
Qed.

End A.

Lemma larm_inv d l t wc h n : larm d l t wc = Some (h, n) -> h <> KUnknown ->
  known d t /\ n = N.to_nat (body_words d t wc) /\ (n <= length l)%nat /\ h = report d t (firstn n l).
Proof.
  unfold larm. destruct (knownb d t) eqn:K; [|intros E F; congruence].
  apply knownb_spec in K. destruct (Nat.ltb_spec (length l) (N.to_nat (body_words d t wc))); [discriminate|].
  intros E F. assert (n = N.to_nat (body_words d t wc)) by congruence. subst n.
  split; [exact K|]. split; [reflexivity|]. split; [lia|congruence].
Qed.

Lemma report_known d t body wc : known d t -> N.of_nat (length body) = body_words d t wc ->
  report d t body <> KUnknown /\ handler_words (report d t body) = body.
Proof.
  intros K L.
  destruct d, t; cbn [known] in K; try contradiction; cbn [body_words request_words reply_words] in L;
    destruct body as [|a [|b [|c [|e body]]]]; cbn [length] in L; try lia; cbn [report handler_words]; (split; [discriminate|reflexivity]).
Qed.

Lemma larm_unknown d l t wc n : larm d l t wc = Some (KUnknown, n) -> ~ known d t.
Proof.
  unfold larm. intros E K. assert (B := proj2 (knownb_spec d t) K). rewrite B in E.
  destruct (Nat.ltb_spec (length l) (N.to_nat (body_words d t wc))); [discriminate|].
  assert (E1 : report d t (firstn (N.to_nat (body_words d t wc)) l) = KUnknown) by congruence.
  apply (fun a b => proj1 (report_known d t _ wc a b) E1); [exact K|]. rewrite firstn_length. lia.
Qed.

Lemma larm_none d l t wc : larm d l t wc = None <-> known d t /\ N.of_nat (length l) < body_words d t wc.
Proof.
  unfold larm. rewrite <- knownb_spec. destruct (knownb d t).
  - destruct (Nat.ltb_spec (length l) (N.to_nat (body_words d t wc))).
    + split; [intros _; split; [reflexivity|lia]|reflexivity].
    + split; [discriminate|intros (_ & Q); lia].
  - split; [discriminate|intros (Q & _); discriminate].
Qed.

Lemma larm_some d l m t wc : known d t -> N.of_nat (length l) = body_words d t wc ->
  larm d (l ++ m) t wc = Some (report d t l, length l).
Proof.
  intros K L. unfold larm. rewrite (proj2 (knownb_spec d t) K), app_length, <- L, Nnat.Nat2N.id.
  destruct (Nat.ltb_spec (length l + length m) (length l)); [lia|].
  rewrite firstn_app, Nat.sub_diag, firstn_O, app_nil_r, firstn_all. reflexivity.
Qed.

(** The calls of a handler other than [unknown_type]: a match on the handler
    falls through. *)
Lemma not_unknown {A} h (a b : A) : h <> KUnknown ->
  match h with KUnknown => a | _ => b end = b.
Proof. destruct h; congruence. Qed.

Lemma loop_txn d v stop buf f go pos ws c rest :
  txn d v ws c -> skipn pos buf = ws ++ rest ->
  analyze_at d v stop buf (S f) false go pos =
  if Nat.eqb (pos + length ws) stop then ([c], Done true stop)
  else let (cs, o) := analyze_at d v stop buf f false go (pos + length ws) in (c :: cs, o).
Proof.
  intros T E. destruct T as [w t body HD LB]. rewrite loop_eq, E. cbn [app].
  assert (DX := heads_decode _ _ _ _ HD). rewrite DX. destruct HD as (_ & _ & IO & KN).
  rewrite (proj2 (wrong_info_spec d v w t _ _) IO). cbn [h_type h_wc].
  rewrite (larm_some d body rest t _ KN LB).
  destruct (report_known d t body _ KN LB) as (NU & _).
  replace (pos + length (w :: body))%nat with (pos + 1 + length body)%nat by (cbn [length]; lia).
  destruct (report d t body); try reflexivity. congruence.
Qed.

(** Whole packets. *)
Lemma loop_whole d v stop buf go tws cs : Forall2 (txn d v) tws cs -> tws <> [] ->
  forall f pos rest, (length tws <= f)%nat -> skipn pos buf = concat tws ++ rest ->
  stop = (pos + length (concat tws))%nat ->
  analyze_at d v stop buf f false go pos = (cs, Done true stop).
Proof.
  induction 1 as [|ws c tws cs T F IH]; intros NE f pos rest HF E ES; [congruence|].
  destruct f as [|f]; [cbn in HF; lia|]. cbn [length] in HF.
  cbn [concat] in E, ES. rewrite <- app_assoc in E. rewrite app_length in ES.
  rewrite (loop_txn _ _ _ _ _ _ _ _ _ _ T E).
  destruct tws as [|t0 tws].
  - inversion F; subst. cbn [concat length]. rewrite Nat.add_0_r, Nat.eqb_refl. reflexivity.
  - assert (L : (0 < length (concat (t0 :: tws)))%nat).
    { inversion F; subst. match goal with Q : txn _ _ t0 _ |- _ => destruct Q end. cbn. lia. }
    destruct (Nat.eqb_spec (pos + length ws) stop) as [Q|Q]; [lia|].
    rewrite (IH ltac:(discriminate) f (pos + length ws)%nat rest).
    + reflexivity.
    + lia.
    + rewrite skipn_plus, E, skipn_app, skipn_all, Nat.sub_diag. reflexivity.
    + lia.
Qed.

Lemma concat_long d v tws cs : Forall2 (txn d v) tws cs -> (length tws <= length (concat tws))%nat.
Proof.
  induction 1 as [|ws c tws cs T F IH]; [cbn; lia|]. cbn [concat length]. rewrite app_length. destruct T. cbn. lia.
Qed.

Lemma analyze_whole d v go hw hc tws cs pre tail :
  head_of v hw hc -> Forall2 (txn d v) tws cs -> tws <> [] ->
  analyze d v (pre ++ (hw ++ concat tws) ++ tail) (length pre) (length pre + length (hw ++ concat tws)) go =
  (hc ++ cs, Done true (length pre + length (hw ++ concat tws))%nat).
Proof.
  intros HH F NE. set (buf := pre ++ (hw ++ concat tws) ++ tail).
  assert (E : skipn (length pre) buf = hw ++ concat tws ++ tail).
  { unfold buf. rewrite skipn_app, skipn_all, Nat.sub_diag. cbn [app skipn]. symmetry. apply app_assoc. }
  assert (LB : (length buf = length pre + (length hw + length (concat tws)) + length tail)%nat)
    by (unfold buf; rewrite !app_length; lia).
  assert (CL := concat_long _ _ _ _ F).
  unfold analyze. replace (2 * length buf + 3)%nat with (S (2 * length buf + 2)) by lia. rewrite fresh_eq.
  replace (match d with Requests => _ | Replies => false end) with false
    by (destruct d; [symmetry; apply Nat.ltb_ge; lia|reflexivity]).
  destruct HH as [-> | p -> P].
  - cbn [app] in *. rewrite (loop_whole _ _ _ _ _ _ _ F NE _ _ tail); [reflexivity|lia|exact E|reflexivity].
  - rewrite E. cbn [app]. rewrite P. cbn [N.eqb].
    rewrite (loop_whole _ _ _ _ _ _ _ F NE _ _ tail).
    + reflexivity.
    + lia.
    + rewrite skipn_plus, E. reflexivity.
    + cbn [app length]. lia.
Qed.

(** What was reported. *)
Section E.
Variables (d : direction) (v : version) (stop : nat) (buf : list N).
Notation at_ := (analyze_at d v stop buf).

Definition says (go : bool) (pos : nat) (r : list call * outcome) : Prop :=
  snd r <> NoFuel ->
  Forall (call_right d v) (fst r) /\
  exists rest, skipn pos buf = concat (map call_words (fst r)) ++ rest /\
               ended d v go pos stop (fst r) (concat (map call_words (fst r))) rest (snd r).

Lemma says_cons go pos c r l : call_right d v c ->
  skipn pos buf = call_words c ++ l ->
  says go (pos + length (call_words c)) r ->
  says go pos (let (cs, o) := r in (c :: cs, o)).
Proof.
  intros R E H. destruct r as (cs, o). unfold says in *. cbn [fst snd] in *. intros NF.
  destruct (H NF) as (A & rest & B & C). split; [constructor; assumption|].
  exists rest. cbn [map concat].
  rewrite skipn_plus, E, skipn_app, skipn_all, Nat.sub_diag in B. cbn [app skipn] in B. subst l.
  split; [rewrite E; apply app_assoc|].
  set (W := concat (map call_words cs)) in *.
  inversion C; subst.
  - replace (Done true (_ + length W)) with (Done true (pos + length (call_words c ++ W))) by (rewrite app_length; f_equal; lia).
    match goal with |- ended _ _ _ _ ?a _ _ _ (Done true ?b) => replace b with a by (rewrite app_length; lia) end.
    apply end_whole. rewrite app_length. lia.
  - eapply (end_control _ _ _ _ _ _ _ _ (c :: cs0)); [reflexivity|eassumption].
  - replace (_ + length W)%nat with (pos + length (call_words c ++ W))%nat by (rewrite app_length; lia).
    eapply (end_bad_packet _ _ _ _ _ _ _ _ (c :: cs0)). reflexivity.
  - replace (_ + length W)%nat with (pos + length (call_words c ++ W))%nat by (rewrite app_length; lia).
    eapply (end_bad_type _ _ _ _ _ _ _ _ (c :: cs0)). reflexivity.
  - replace (_ + length W)%nat with (pos + length (call_words c ++ W))%nat by (rewrite app_length; lia).
    eapply end_not_header; eauto.
  - replace (_ + length W + 1)%nat with (pos + length (call_words c ++ W) + 1)%nat by (rewrite app_length; lia).
    eapply end_not_header1; eauto.
  - replace (_ + length W + 1)%nat with (pos + length (call_words c ++ W) + 1)%nat by (rewrite app_length; lia).
    eapply end_info; eauto.
  - apply end_overrun.
Qed.

Lemma says_all f : forall fresh go pos, says go pos (at_ f fresh go pos).
Proof.
  induction f as [|f IH]; intros fresh go pos; [intros NF; cbn in NF; congruence|].
  destruct fresh.
  - rewrite fresh_eq.
    destruct (match d with Requests => _ | Replies => _ end).
    { intros _. split; [constructor|]. exists (skipn pos buf). split; [reflexivity|apply end_overrun]. }
    destruct v eqn:V; rewrite <- V in *; [apply IH|].
    destruct (skipn pos buf) as [|p r] eqn:E.
    { intros _. split; [constructor|]. exists (@nil N). split; [exact E|apply end_overrun]. }
    destruct (N.eqb_spec (p mod 16) 0) as [P0|P0].
    + eapply says_cons; [|exact E|].
      * cbn [call_right]. repeat split; assumption.
      * cbn [call_words length]. apply IH.
    + destruct (N.eqb_spec (p mod 16) 1) as [P1|P1]; [|destruct (N.eqb_spec (p mod 16) 2) as [P2|P2]].
      * intros _. split; [constructor; [repeat split; assumption|constructor]|]. exists r. split; [exact E|].
        eapply (end_control _ _ _ _ _ _ _ _ []); [reflexivity|auto].
      * destruct d eqn:D; cbn [andb]; intros _; (split; [constructor; [|constructor]|]).
        -- cbn [call_right]. repeat split; assumption.
        -- exists r. split; [exact E|]. eapply (end_control _ _ _ _ _ _ _ _ []); [reflexivity|auto].
        -- cbn [call_right]. split; [exact V|]. split; [reflexivity|]. split; [exact P0|]. split; [exact P1|intros Q; congruence].
        -- exists r. split; [exact E|]. cbn [map concat call_words app fst snd length].
           apply (end_bad_packet _ _ _ _ _ _ [p] _ [] p ((p / 2 ^ 8) mod 2 ^ 16)). reflexivity.
      * cbn [andb]. intros _. split; [constructor; [|constructor]|].
        -- cbn [call_right]. split; [exact V|]. split; [reflexivity|]. split; [exact P0|]. split; [exact P1|intros _; exact P2].
        -- exists r. split; [exact E|]. cbn [map concat call_words app fst snd length].
           apply (end_bad_packet _ _ _ _ _ _ [p] _ [] p ((p / 2 ^ 8) mod 2 ^ 16)). reflexivity.
  - rewrite loop_eq. destruct (skipn pos buf) as [|w r] eqn:E.
    { intros _. split; [constructor|]. exists (@nil N). split; [exact E|apply end_overrun]. }
    assert (DX := decode v w). destruct (extract_header v w) as [x|].
    + destruct DX as (VW & TY & X). destruct (wrong_info d v x) eqn:WI.
      { intros _. split; [constructor|]. exists (w :: r). split; [exact E|]. cbn [map concat fst snd].
        assert (Q := end_info d v go pos stop [] [] (w :: r) w r eq_refl). cbn [length] in Q. rewrite Nat.add_0_r in Q. apply Q.
        - split; [exact VW|eauto].
        - intros IO. rewrite X in WI. apply wrong_info_spec with (t := h_type x) (c := word_count v w) (i := word_id v w) in IO.
          congruence. }
      rewrite X in WI. apply wrong_info_spec in WI.
      destruct (larm d r (h_type x) (h_wc x)) as [(h, n)|] eqn:LA.
      2:{ intros _. split; [constructor|]. exists (w :: r). split; [exact E|apply end_overrun]. }
      assert (DU : h = KUnknown \/ h <> KUnknown) by (destruct h; auto; right; discriminate).
      destruct DU as [-> | NU].
      * apply larm_unknown in LA. intros _. split; [constructor; [|constructor]|].
        -- cbn [call_right]. rewrite X. cbn [h_type h_wc h_id h_info]. repeat split; try assumption; tauto.
        -- exists r. split; [exact E|]. cbn [map concat call_words handler_words app fst snd length].
           apply (end_bad_type _ _ _ _ _ _ [w] _ [] w x). reflexivity.
      * destruct (larm_inv _ _ _ _ _ _ LA NU) as (KN & NB & NL & HR).
        assert (FL : length (firstn n r) = n) by (rewrite firstn_length; lia).
        assert (HC : h_wc x = word_count v w) by (rewrite X; reflexivity).
        assert (LB : N.of_nat (length (firstn n r)) = body_words d (h_type x) (word_count v w)) by (rewrite FL, <- HC; lia).
        destruct (report_known d (h_type x) _ _ KN LB) as (_ & HWR). rewrite <- HR in HWR.
        assert (R : call_right d v (KTx w x h)).
        { cbn [call_right]. split; [exact VW|]. split; [exact TY|]. split; [exact WI|]. split; [exact HC|].
          split; [rewrite X; reflexivity|]. split; [rewrite X; reflexivity|]. split; [|tauto].
          intros _. rewrite HWR. split; assumption. }
        assert (EE : skipn pos buf = call_words (KTx w x h) ++ skipn n r).
        { cbn [call_words]. rewrite HWR, E. cbn [app]. f_equal. symmetry. apply firstn_skipn. }
        assert (LW : length (call_words (KTx w x h)) = S n) by (cbn [call_words length]; rewrite HWR, FL; reflexivity).
        rewrite not_unknown by exact NU.
        destruct (Nat.eqb_spec (pos + 1 + n) stop) as [Q|Q].
        -- intros _. split; [constructor; [exact R|constructor]|]. exists (skipn n r).
           cbn [map concat fst snd]. rewrite app_nil_r. split; [exact EE|]. apply end_whole. rewrite LW. lia.
        -- eapply says_cons; [exact R|exact EE|]. rewrite LW. replace (pos + S n)%nat with (pos + 1 + n)%nat by lia. apply IH.
    + destruct v eqn:V; rewrite <- V in *.
      * intros _. split; [constructor|]. exists (w :: r). split; [exact E|]. cbn [map concat fst snd].
        assert (Q := end_not_header1 d v go pos stop [] [] (w :: r) w r V eq_refl DX). cbn [length] in Q. rewrite Nat.add_0_r in Q. exact Q.
      * destruct go; [apply IH|]. intros _. split; [constructor|]. exists (w :: r). split; [exact E|]. cbn [map concat fst snd].
        assert (Q := end_not_header d v false pos stop [] [] (w :: r) w r V eq_refl eq_refl DX). cbn [length] in Q. rewrite Nat.add_0_r in Q. exact Q.
Qed.

End E.

Lemma analyze_says d v buf start stop go : (start <= length buf)%nat ->
  let r := analyze d v buf start stop go in
  Forall (call_right d v) (fst r) /\
  exists rest, skipn start buf = concat (map call_words (fst r)) ++ rest /\
               ended d v go start stop (fst r) (concat (map call_words (fst r))) rest (snd r).
Proof.
  intros L. apply says_all. apply fuel_enough. unfold need. destruct v; lia.
Qed.

(** More fuel changes nothing. *)
Lemma fuel_more d v stop buf f : forall fresh go pos k, snd (analyze_at d v stop buf f fresh go pos) <> NoFuel ->
  analyze_at d v stop buf (f + k) fresh go pos = analyze_at d v stop buf f fresh go pos.
Proof.
  induction f as [|f IH]; intros fresh go pos k H; [cbn in H; congruence|].
  cbn [Nat.add]. destruct fresh.
  - rewrite fresh_eq in *. rewrite fresh_eq. destruct (match d with Requests => _ | Replies => _ end); [reflexivity|].
    destruct v; [apply IH, H|]. destruct (skipn pos buf); [reflexivity|].
    destruct (_ =? 0); [|reflexivity]. rewrite IH; [reflexivity|].
    destruct (analyze_at d V2 stop buf f false go (pos + 1)). exact H.
  - rewrite loop_eq in *. rewrite loop_eq. destruct (skipn pos buf) as [|w r]; [reflexivity|].
    destruct (extract_header v w) as [x|].
    + destruct (wrong_info d v x); [reflexivity|]. destruct (larm d r (h_type x) (h_wc x)) as [(h, n)|]; [|reflexivity].
      assert (DU : h = KUnknown \/ h <> KUnknown) by (destruct h; auto; right; discriminate).
      destruct DU as [-> | NU]; [reflexivity|]. rewrite !not_unknown in * by exact NU.
      destruct (Nat.eqb _ stop); [reflexivity|]. rewrite IH; [reflexivity|].
      destruct (analyze_at d v stop buf f false go (pos + 1 + n)). exact H.
    + destruct v; [reflexivity|]. destruct go; [|reflexivity]. apply IH, H.
Qed.

Lemma skipn_short (buf tail : list N) pos : (pos <= length buf)%nat -> skipn pos (buf ++ tail) = skipn pos buf ++ tail.
Proof. intros L. rewrite skipn_app. replace (pos - length buf)%nat with 0%nat by lia. reflexivity. Qed.

Lemma tail_same d v buf tail f : forall fresh go pos, (pos <= length buf)%nat ->
  snd (analyze_at d v (length buf) buf f fresh go pos) <> Overrun ->
  snd (analyze_at d v (length buf) buf f fresh go pos) <> NoFuel ->
  analyze_at d v (length buf) (buf ++ tail) f fresh go pos = analyze_at d v (length buf) buf f fresh go pos.
Proof.
  induction f as [|f IH]; intros fresh go pos L NO NF; [cbn in NF; congruence|].
  destruct fresh.
  - rewrite fresh_eq in NO, NF. rewrite !fresh_eq. destruct (match d with Requests => _ | Replies => _ end); [reflexivity|].
    destruct v; [apply IH; assumption|]. rewrite skipn_short by exact L.
    destruct (skipn pos buf) as [|p r] eqn:E; [cbn in NO; congruence|]. cbn [app].
    destruct (skipn_cons _ _ _ _ E) as (_ & _ & L1).
    destruct (_ =? 0); [|reflexivity]. rewrite IH; [reflexivity|lia| |];
      destruct (analyze_at d V2 (length buf) buf f false go (pos + 1)); assumption.
  - rewrite loop_eq in NO, NF. rewrite !loop_eq. rewrite skipn_short by exact L.
    destruct (skipn pos buf) as [|w r] eqn:E; [cbn in NO; congruence|]. cbn [app].
    destruct (skipn_cons _ _ _ _ E) as (_ & E1 & L1).
    assert (LR : (pos + 1 + length r = length buf)%nat) by (rewrite <- E1, skipn_length; lia).
    destruct (extract_header v w) as [x|].
    + destruct (wrong_info d v x); [reflexivity|].
      destruct (larm d r (h_type x) (h_wc x)) as [(h, n)|] eqn:LA; [|cbn in NO; congruence].
      assert (LT : larm d (r ++ tail) (h_type x) (h_wc x) = Some (h, n)).
      { unfold larm in *. destruct (knownb d (h_type x)); [|exact LA].
        destruct (Nat.ltb_spec (length r) (N.to_nat (body_words d (h_type x) (h_wc x)))); [discriminate|].
        rewrite app_length. destruct (Nat.ltb_spec (length r + length tail) (N.to_nat (body_words d (h_type x) (h_wc x)))); [lia|].
        rewrite firstn_app. replace (N.to_nat (body_words d (h_type x) (h_wc x)) - length r)%nat with 0%nat by lia.
        rewrite firstn_O, app_nil_r. exact LA. }
      rewrite LT. assert (DU : h = KUnknown \/ h <> KUnknown) by (destruct h; auto; right; discriminate).
      destruct DU as [-> | NU]; [reflexivity|]. rewrite !not_unknown in * by exact NU.
      destruct (larm_inv _ _ _ _ _ _ LA NU) as (_ & _ & NL & _).
      destruct (Nat.eqb _ (length buf)); [reflexivity|]. rewrite IH; [reflexivity|lia| |];
        destruct (analyze_at d v (length buf) buf f false go (pos + 1 + n)); assumption.
    + destruct v; [reflexivity|]. destruct go; [|reflexivity]. apply IH; assumption.
Qed.

Lemma analyze_tail d v buf tail start go : (start <= length buf)%nat ->
  snd (analyze d v buf start (length buf) go) <> Overrun ->
  analyze d v (buf ++ tail) start (length buf) go = analyze d v buf start (length buf) go.
Proof.
  intros L NO. unfold analyze in *.
  assert (NF : snd (analyze_at d v (length buf) buf (2 * length buf + 3) true go start) <> NoFuel)
    by (apply fuel_enough; unfold need; destruct v; lia).
  assert (TS := tail_same d v buf tail _ _ _ _ L NO NF). rewrite <- TS in NF |- *.
  replace (2 * length (buf ++ tail) + 3)%nat with (2 * length buf + 3 + 2 * length tail)%nat by (rewrite app_length; lia).
  apply fuel_more. exact NF.
Qed.

(** Overruns. *)
Lemma overrun_cut d v buf f : forall fresh go pos, (pos <= length buf)%nat ->
  snd (analyze_at d v (length buf) buf f fresh go pos) = Overrun ->
  if fresh then
    match v with
    | V1 => cut_txs d v go (skipn pos buf)
    | V2 => skipn pos buf = [] \/ exists p r, skipn pos buf = p :: r /\ p mod 16 = 0 /\ cut_txs d v go r
    end
  else cut_txs d v go (skipn pos buf).
Proof.
  induction f as [|f IH]; intros fresh go pos L O; [discriminate|].
  destruct fresh.
  - rewrite fresh_eq in O.
    replace (match d with Requests => (length buf <? pos)%nat | Replies => false end) with false in O
      by (destruct d; [symmetry; apply Nat.ltb_ge; lia|reflexivity]).
    destruct v; [apply (IH false go pos L O)|].
    destruct (skipn pos buf) as [|p r] eqn:E; [left; reflexivity|]. right.
    destruct (skipn_cons _ _ _ _ E) as (_ & E1 & L1).
    destruct (N.eqb_spec (p mod 16) 0) as [P|P].
    + exists p, r. split; [reflexivity|]. split; [exact P|]. rewrite <- E1.
      apply (IH false go (pos + 1)%nat); [lia|]. destruct (analyze_at d V2 (length buf) buf f false go (pos + 1)). exact O.
    + destruct (_ =? 1); [discriminate|]. destruct (_ && _); discriminate.
  - rewrite loop_eq in O. destruct (skipn pos buf) as [|w r] eqn:E; [constructor|].
    destruct (skipn_cons _ _ _ _ E) as (_ & E1 & L1).
    assert (LR : (pos + 1 + length r = length buf)%nat) by (rewrite <- E1, skipn_length; lia).
    assert (DX := decode v w). destruct (extract_header v w) as [x|].
    + destruct DX as (VW & TY & X). destruct (wrong_info d v x) eqn:WI; [discriminate|].
      rewrite X in WI. apply wrong_info_spec in WI.
      assert (HC : h_wc x = word_count v w) by (rewrite X; reflexivity).
      destruct (larm d r (h_type x) (h_wc x)) as [(h, n)|] eqn:LA.
      * assert (DU : h = KUnknown \/ h <> KUnknown) by (destruct h; auto; right; discriminate).
        destruct DU as [-> | NU]; [discriminate|]. rewrite not_unknown in O by exact NU.
        destruct (larm_inv _ _ _ _ _ _ LA NU) as (KN & NB & NL & HR).
        destruct (Nat.eqb_spec (pos + 1 + n) (length buf)) as [Q|Q]; [discriminate|].
        replace (w :: r) with ((w :: firstn n r) ++ skipn n r) by (cbn [app]; f_equal; apply firstn_skipn).
        eapply cut_later.
        -- apply (txn_intro d v w (h_type x)); [repeat split; assumption|].
           rewrite firstn_length, <- HC. lia.
        -- intros QQ. apply (f_equal (@length N)) in QQ. rewrite skipn_length in QQ. cbn in QQ. lia.
        -- rewrite <- E1, <- skipn_plus. apply (IH false go (pos + 1 + n)%nat); [lia|].
           destruct (analyze_at d v (length buf) buf f false go (pos + 1 + n)). exact O.
      * apply larm_none in LA. destruct LA as (KN & LL). rewrite HC in LL.
        apply (cut_inside _ _ _ _ (h_type x)); [repeat split; assumption|exact LL].
    + destruct v eqn:V; [discriminate|]. destruct go; [|discriminate].
      specialize (IH true true pos L O). cbn iota in IH. rewrite E in IH.
      destruct IH as [Q|(p & r' & Q & P & C)]; [discriminate|].
      assert (p = w /\ r' = r) as (-> & ->) by (split; congruence).
      apply cut_again; auto.
Qed.

Lemma txn_length d v ws c : txn d v ws c -> (0 < length ws)%nat.
Proof. destruct 1. cbn. lia. Qed.

Lemma cut_overrun d v go ws : cut_txs d v go ws -> forall buf f pos, (pos <= length buf)%nat -> skipn pos buf = ws ->
  (2 * (length buf - pos) + 3 <= f)%nat -> snd (analyze_at d v (length buf) buf f false go pos) = Overrun.
Proof.
  induction 1 as [|w t rest HD LT|ws c rest T NE C IH|w rest V G NH P C IH]; intros buf f pos L E HF;
    (destruct f as [|f]; [lia|]).
  - rewrite loop_eq, E. reflexivity.
  - rewrite loop_eq, E, (heads_decode _ _ _ _ HD). destruct HD as (_ & _ & IO & KN).
    rewrite (proj2 (wrong_info_spec d v w t _ _) IO). cbn [h_type h_wc].
    rewrite (proj2 (larm_none d rest t (word_count v w))); [reflexivity|split; assumption].
  - rewrite (loop_txn _ _ _ _ _ _ _ _ _ _ T E).
    assert (LL : (pos + length ws + length rest = length buf)%nat).
    { assert (Q := f_equal (@length N) E). rewrite skipn_length, app_length in Q. lia. }
    assert (0 < length rest)%nat by (destruct rest; [congruence|cbn; lia]).
    assert (0 < length ws)%nat by (eapply txn_length; eauto).
    destruct (Nat.eqb_spec (pos + length ws) (length buf)); [lia|].
    assert (Q := IH buf f (pos + length ws)%nat ltac:(lia)).
    destruct (analyze_at d v (length buf) buf f false go (pos + length ws)). apply Q; [|lia].
    rewrite skipn_plus, E, skipn_app, skipn_all, Nat.sub_diag. reflexivity.
  - destruct (skipn_cons _ _ _ _ E) as (_ & E1 & L1). subst v go.
    rewrite loop_eq, E. assert (DX := decode V2 w). destruct (extract_header V2 w) as [x|].
    + exfalso. apply NH. destruct DX as (A & B & _). split; [exact A|eauto].
    + destruct f as [|f]; [lia|]. rewrite fresh_eq.
      replace (match d with Requests => (length buf <? pos)%nat | Replies => false end) with false
        by (destruct d; [symmetry; apply Nat.ltb_ge; lia|reflexivity]).
      rewrite E, P. cbn [N.eqb].
      assert (Q := IH buf f (pos + 1)%nat ltac:(lia) E1 ltac:(lia)).
      destruct (analyze_at d V2 (length buf) buf f false true (pos + 1)). exact Q.
Qed.

Lemma overrun_iff d v ws go : snd (analyze d v ws 0 (length ws) go) = Overrun <-> cut_packet d v go ws.
Proof.
  unfold analyze. split.
  - intros O. apply overrun_cut in O; [|lia]. cbn [skipn] in O. destruct v.
    + apply (cut_body _ _ _ [] []); [constructor; reflexivity|exact O].
    + destruct O as [-> | (p & r & -> & P & C)]; [constructor; reflexivity|].
      apply (cut_body _ _ _ [p] [KPacket PControl p ((p / 2 ^ 8) mod 2 ^ 16)]); [constructor; auto|exact C].
  - intros H. replace (2 * length ws + 3)%nat with (S (2 * length ws + 2)) by lia. rewrite fresh_eq.
    replace (match d with Requests => (length ws <? 0)%nat | Replies => false end) with false
      by (destruct d; [symmetry; apply Nat.ltb_ge; lia|reflexivity]).
    destruct H as [V|h cs rest HH C].
    + subst v. reflexivity.
    + destruct HH as [V|p V P]; subst v; cbn [app skipn].
      * destruct C as [|w t rest HD LT|ws c rest T NE C|w rest V G NH P C]; try discriminate.
        -- cbn. reflexivity.
        -- replace (2 * length (w :: rest) + 2)%nat with (S (2 * length (w :: rest) + 1)) by lia.
           rewrite loop_eq. cbn [skipn]. rewrite (heads_decode _ _ _ _ HD). destruct HD as (_ & _ & IO & KN).
           rewrite (proj2 (wrong_info_spec d V1 w t _ _) IO). cbn [h_type h_wc].
           rewrite (proj2 (larm_none d rest t (word_count V1 w))); [reflexivity|split; assumption].
        -- replace (2 * length (ws ++ rest) + 2)%nat with (S (2 * length (ws ++ rest) + 1)) by lia.
           rewrite (loop_txn _ _ _ _ _ _ _ _ _ rest T) by reflexivity.
           assert (0 < length rest)%nat by (destruct rest; [congruence|cbn; lia]).
           assert (0 < length ws)%nat by (eapply txn_length; eauto).
           cbn [Nat.add]. rewrite app_length. destruct (Nat.eqb_spec (length ws) (length ws + length rest)); [lia|].
           assert (Q := cut_overrun d V1 go rest C (ws ++ rest) (2 * (length ws + length rest) + 1)%nat (length ws)).
           rewrite app_length in Q.
           destruct (analyze_at d V1 (length ws + length rest) (ws ++ rest) (2 * (length ws + length rest) + 1) false go (length ws)).
           apply Q; [lia| |lia]. rewrite skipn_app, skipn_all, Nat.sub_diag. reflexivity.
      * rewrite P. cbn [N.eqb].
        assert (Q := cut_overrun d V2 go rest C (p :: rest) (2 * length (p :: rest) + 2)%nat (0 + 1)%nat).
        destruct (analyze_at d V2 (length (p :: rest)) (p :: rest) (2 * length (p :: rest) + 2) false go (0 + 1)).
        apply Q; cbn [length]; [lia|reflexivity|lia].
Qed.
