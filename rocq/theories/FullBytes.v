(** Proof layer: the bytes of packets and replies between a client and the
    ControlHub. *)
From Verif Require Import Word Bits Header WordLemmas HeaderProofs ValMem Client Validate Target Spec System Tx E2E Sent WireSpec SentProofs.
From Verif Require Tcp.
From Verif Require Import Hub HubSpec Manager ManSpec CHub CHubSpec Full FullSpec FullWords.
From Coq Require Import NArith ZArith List Lia Bool ZifyBool ZifyNat ZifyN.
Import ListNotations.
Open Scope N_scope.
Ltac Zify.zify_post_hook ::= Z.div_mod_to_equations.

Lemma bytes_of_app a b : bytes_of (a ++ b) = bytes_of a ++ bytes_of b.
Proof. apply flat_map_app. Qed.
Lemma bytes_of_length ws : length (bytes_of ws) = (4 * length ws)%nat.
Proof. induction ws; cbn [bytes_of flat_map]; [reflexivity|]. rewrite app_length. fold (bytes_of ws). rewrite IHws. cbn [Tcp.mem4 length]. lia. Qed.

Lemma word_bytes w : w < 2 ^ 32 -> w mod 256 + 256 * ((w / 256) mod 256) + 65536 * ((w / 65536) mod 256) + 16777216 * ((w / 16777216) mod 256) = w.
Proof. change (2 ^ 32) with 4294967296. lia. Qed.

Lemma words_bytes ws : Forall (fun x => x < 2 ^ 32) ws -> words_of (bytes_of ws) = ws.
Proof.
  induction 1 as [|w ws W F IH]; [reflexivity|]. cbn [bytes_of flat_map Tcp.mem4 app words_of]. fold (bytes_of ws). rewrite IH. f_equal. apply word_bytes, W.
Qed.

Lemma words_app k : forall x y, length x = (4 * k)%nat -> words_of (x ++ y) = words_of x ++ words_of y.
Proof.
  induction k as [|k IH]; intros x y L.
  - destruct x; [reflexivity|discriminate].
  - do 4 (destruct x as [|? x]; [cbn in L; lia|]). cbn [app words_of]. rewrite IH; [reflexivity|]. cbn in L. lia.
Qed.
Lemma words_length x k : length x = (4 * k)%nat -> length (words_of x) = k.
Proof.
  revert x. induction k as [|k IH]; intros x L.
  - destruct x; [reflexivity|discriminate].
  - do 4 (destruct x as [|? x]; [cbn in L; lia|]). cbn [words_of length]. rewrite IH; [reflexivity|]. cbn in L. lia.
Qed.

Lemma mem4_turned x : x < 2 ^ 32 -> Tcp.mem4 (turned4 x) = be32 x.
Proof.
  intros X. unfold Tcp.mem4, turned4, be32. change (2 ^ 32) with 4294967296 in X. change (2 ^ 24) with 16777216. change (2 ^ 16) with 65536. change (2 ^ 8) with 256.
  assert (exists a b c d, x = 16777216 * a + 65536 * b + 256 * c + d /\ a < 256 /\ b < 256 /\ c < 256 /\ d < 256) as (a & b & c & d & E & A & B & C & F).
  { exists (x / 16777216), (x / 65536 mod 256), (x / 256 mod 256), (x mod 256). repeat split; lia. }
  assert (X1 : x mod 256 = d) by lia. assert (X2 : x / 256 mod 256 = c) by lia. assert (X3 : x / 65536 mod 256 = b) by lia. assert (X4 : x / 16777216 mod 256 = a) by lia.
  rewrite X1, X2, X3, X4. clear - A B C F. set (y := d * 16777216 + c * 65536 + b * 256 + a).
  assert (Y1 : y mod 256 = a) by (subst y; lia). assert (Y2 : y / 256 mod 256 = b) by (subst y; lia). assert (Y3 : y / 65536 mod 256 = c) by (subst y; lia). assert (Y4 : y / 16777216 mod 256 = d) by (subst y; lia).
  rewrite Y1, Y2, Y3, Y4. reflexivity.
Qed.
Lemma turned4_lt x : turned4 x < 2 ^ 32.
Proof. unfold turned4. change (2 ^ 24) with 16777216. change (2 ^ 16) with 65536. change (2 ^ 8) with 256. change (2 ^ 32) with 4294967296. lia. Qed.
Lemma turned2_lt x : turned2 x < 65536.
Proof. unfold turned2. change (2 ^ 8) with 256. lia. Qed.
Lemma mem4_halves p n : p < 2 ^ 16 -> n < 2 ^ 16 -> Tcp.mem4 (turned2 p + 65536 * swap16 n) = be16 p ++ be16 n.
Proof.
  intros P N. change (2 ^ 16) with 65536 in *. unfold Tcp.mem4, turned2, swap16, be16. change (2 ^ 8) with 256. cbn [app].
  assert (exists a b, p = 256 * a + b /\ a < 256 /\ b < 256) as (a & b & -> & A & B) by (exists (p / 256), (p mod 256); lia).
  assert (exists c d, n = 256 * c + d /\ c < 256 /\ d < 256) as (c & d & -> & C & E) by (exists (n / 256), (n mod 256); lia).
  assert (X1 : (256 * a + b) mod 256 = b) by lia. assert (X2 : (256 * a + b) / 256 mod 256 = a) by lia.
  assert (X3 : (256 * c + d) mod 256 = d) by lia. assert (X4 : (256 * c + d) / 256 mod 256 = c) by lia. rewrite X1, X2, X3, X4. clear - A B C E.
  set (y := b * 256 + a + 65536 * (d * 256 + c)).
  assert (Y1 : y mod 256 = a) by (subst y; lia). assert (Y2 : y / 256 mod 256 = b) by (subst y; lia). assert (Y3 : y / 65536 mod 256 = c) by (subst y; lia). assert (Y4 : y / 16777216 mod 256 = d) by (subst y; lia).
  rewrite Y1, Y2, Y3, Y4. reflexivity.
Qed.

(** Packets of a client. *)
Section P.
Variable t : target.
Variable g : cfg.
Hypothesis T : good_target t.
Hypothesis H : hub_client t g.

(** A packet the client makes. *)
Definition goodb (b : buf) : Prop := w32 b /\ size_ok g b /\ exists p, repr_out g b p /\ wf_pk g p /\ fst p <> [].

Lemma goodb_form b : goodb b -> exists rest, b_send b = turned4 (fst t) :: (turned2 (snd t) + 65536 * swap16 (N.of_nat (S (length rest)))) :: 0x200000F0 :: rest /\ N.of_nat (S (length rest)) < 2 ^ 16.
Proof.
  intros (_ & (SZ & _) & p & ((hw & HW & S) & _) & _). destruct H as (_ & V & HB & MX). unfold hub_ok, pkw in *. rewrite HB, V in *. destruct HW as (w & -> & W1 & W2). cbn [app length] in *.
  exists (flat_map (enc V2) (fst p)). rewrite S. unfold send_counter in SZ. rewrite S in SZ. cbn [length] in SZ. set (n := Datatypes.S (length (flat_map (enc V2) (fst p)))) in *.
  assert (LT : N.of_nat n < 2 ^ 16) by (change (2 ^ 16) with 65536; change (2 ^ 18) with 262144 in MX; lia). split; [|exact LT]. repeat f_equal.
  change (2 ^ 16) with 65536 in LT. rewrite (N.mod_small _ _ LT) in W2. rewrite <- W1, <- W2. lia.
Qed.

(** The request in the packet. *)
Definition req_of (b : buf) : bytes := bytes_of (skipn 2 (b_send b)).

Lemma goodb_bytes b : goodb b -> bytes_of (b_send b) = be32 (fst t) ++ be16 (snd t) ++ be16 (N.of_nat (length (req_of b) / 4)) ++ req_of b /\ good_req (req_of b) /\ control Little (req_of b) = true.
Proof.
  intros B. destruct (goodb_form b B) as (rest & S & LT). unfold req_of. rewrite S. cbn [skipn]. rewrite bytes_of_length. cbn [length].
  replace (4 * Datatypes.S (length rest) / 4)%nat with (Datatypes.S (length rest)) by (symmetry; rewrite Nat.mul_comm; apply Nat.div_mul; discriminate).
  split; [|split].
  - cbn [bytes_of flat_map]. rewrite (mem4_turned _ (proj1 T)), (mem4_halves _ _ (proj2 T) LT). rewrite <- !app_assoc. reflexivity.
  - unfold good_req. rewrite bytes_of_length. cbn [length]. split; [rewrite Nat.mul_comm; apply Nat.mod_mul; discriminate|].
    replace (4 * Datatypes.S (length rest) / 4)%nat with (Datatypes.S (length rest)) by (symmetry; rewrite Nat.mul_comm; apply Nat.div_mul; discriminate). exact LT.
  - unfold control. rewrite bytes_of_length. cbn [length]. destruct (Nat.leb_spec 4 (4 * Datatypes.S (length rest))); [|lia]. reflexivity.
Qed.

Lemma chunk_bytes_of bs : Forall goodb bs -> bytes_of (flat_map b_send bs) = chunk t (map req_of bs).
Proof.
  induction 1 as [|b bs B F IH]; [reflexivity|]. cbn [flat_map map]. rewrite bytes_of_app, IH. unfold chunk. cbn [map concat]. destruct (goodb_bytes b B) as (E & _). rewrite E, <- !app_assoc. reflexivity.
Qed.

Lemma good_bufs bs : bs <> [] -> Forall goodb bs -> good_chunk (map req_of bs) /\ Forall (fun q => control Little q = true) (map req_of bs).
Proof.
  intros N0 F. split; [split; [destruct bs; [congruence|discriminate]|]|]; apply Forall_map; eapply Forall_impl; [|exact F|  |exact F]; intros b B; apply (goodb_bytes b B).
Qed.

(** ** Replies *)
(** What the target sends back for a packet, with the words of the ControlHub. *)
Definition back (b : buf) (x : bytes) : list N :=
  match b_send b with ip :: w1 :: h :: _ => 4 * N.of_nat (S (length (words_of x))) + 8 :: ip :: w1 mod 65536 :: h :: words_of x | _ => [] end.

Lemma words_reply b x k : goodb b -> length x = (4 * k)%nat ->
  length (reply_bytes (mkR (Some t) 0 (hdr (req_of b) ++ x))) = (4 * length (back b x))%nat /\
  exists u, words_of (reply_bytes (mkR (Some t) 0 (hdr (req_of b) ++ x))) = u :: tl (back b x).
Proof.
  intros B L. destruct (goodb_form b B) as (rest & S & LT). unfold req_of, hdr, back. rewrite S. cbn [skipn bytes_of flat_map app Tcp.mem4 firstn].
  destruct t as (ip, port) eqn:TE. unfold reply_bytes. cbn [r_from r_data r_code fst snd].
  assert (P2 : (turned2 port + 65536 * swap16 (N.of_nat (Datatypes.S (length rest)))) mod 65536 = turned2 port).
  { rewrite (N.mul_comm 65536), N.mod_add by discriminate. apply N.mod_small, turned2_lt. }
  rewrite P2. split.
  - rewrite !app_length. cbn [length be32 be16]. rewrite L, (words_length x k L). lia.
  - assert (U : forall n, exists u, words_of (be32 n) = [u]) by (intro n; eexists; reflexivity).
    rewrite (words_app 1) by reflexivity. match goal with |- context [words_of (be32 ?n) ++ _] => destruct (U n) as (u, ->) end. exists u. cbn [app tl]. f_equal.
    rewrite <- (mem4_turned ip (proj1 T)). change (be16 port ++ be16 0 ++ (536871152 mod 256 :: 536871152 / 256 mod 256 :: 536871152 / 65536 mod 256 :: 536871152 / 16777216 mod 256 :: x)) with
      ((be16 port ++ be16 0) ++ (240 :: 0 :: 0 :: 32 :: x)).
    rewrite <- (mem4_halves port 0 (proj2 T) eq_refl). change (swap16 0) with 0. rewrite N.mul_0_r, N.add_0_r.
    cbn [Tcp.mem4 app words_of]. rewrite word_bytes by apply turned4_lt. rewrite word_bytes by (eapply N.lt_trans; [apply turned2_lt|reflexivity]). reflexivity.
Qed.

(** The first word is not looked at. *)
Lemma first_word b h u v r : goodb b -> receive_packet g h b (u :: r) = receive_packet g h b (v :: r).
Proof.
  intros (_ & _ & p & (_ & R & _) & _). unfold receive_packet, validate_packet. destruct H as (_ & _ & HB & _). rewrite HB, R. unfold hubd. rewrite HB. cbn [app scatter dest_words]. change (N.to_nat 1) with 1%nat. cbn [firstn skipn fill fold_left fill_cell]. reflexivity.
Qed.

(** An error of the ControlHub is an error for the client. *)
Lemma error_seen h b bs c ws : goodb b -> error_code c -> snd (take_replies g h (b :: bs) (words_of (reply_bytes (mkR (Some t) c [])) ++ ws)) = false.
Proof.
  intros B EC. pose proof B as (_ & _ & pk & (_ & R & _) & _). assert (HB := proj1 (proj2 (proj2 H))).
  assert (X : exists u, words_of (reply_bytes (mkR (Some t) c [])) = [u; turned4 (fst t); turned2 (snd t) + 65536 * swap16 c]).
  { assert (C16 : c < 2 ^ 16) by (destruct EC as [->|[->| ->]]; reflexivity). destruct t as (ip, port) eqn:TE. unfold reply_bytes. cbn [r_from r_data r_code fst snd]. rewrite app_nil_r. rewrite <- (mem4_halves port c (proj2 T) C16), <- (mem4_turned ip (proj1 T)).
    eexists. cbn [be32 Tcp.mem4 app words_of]. rewrite word_bytes by apply turned4_lt. rewrite word_bytes; [reflexivity|]. pose proof (turned2_lt port). destruct EC as [->|[->| ->]]; change (2 ^ 32) with 4294967296; cbn; lia. }
  destruct X as (u & ->). cbn [take_replies app]. unfold receive_packet, validate_packet. rewrite R. unfold hubd. rewrite HB. cbn [app dests_words dest_words].
  match goal with |- context [N.to_nat (1 + (1 + (1 + ?n)))] => replace (N.to_nat (1 + (1 + (1 + n)))) with (S (S (S (N.to_nat n)))) by lia end. cbn [firstn scatter dest_words]. change (N.to_nat 1) with 1%nat. cbn [firstn skipn slot_word snd hd].
  destruct (goodb_form b B) as (rest & -> & _).
  assert (E1 : (turned2 (snd t) + 65536 * swap16 c) / 65536 = swap16 c) by (rewrite (N.mul_comm 65536), N.div_add by discriminate; rewrite N.div_small by apply turned2_lt; reflexivity).
  assert (E2 : swap16 (swap16 c) = c /\ c <> 0) by (destruct EC as [->|[->| ->]]; split; (reflexivity || discriminate)). rewrite E1, (proj1 E2).
  destruct (negb (turned4 (fst t) =? _)); [reflexivity|]. destruct (negb ((turned2 (snd t) + _) mod 65536 =? _)); [reflexivity|]. destruct (N.eqb_spec c 0); [tauto|]. cbn [negb]. destruct (_ || _); reflexivity.
Qed.

Section R.
Variable D : Type.
Variable rd : D -> N -> D * N.
Variable wr : D -> N -> N -> D.
Variable cf : D -> N -> D * N.
Hypothesis RD : reads32 rd.
Hypothesis CF : reads32 cf.

Notation w := (Forall (fun x => x < 2 ^ 32)).

Lemma read_w n : forall d a inc, w (snd (dev_read D rd d a n inc)).
Proof.
  induction n as [|n IH]; intros d a inc; [constructor|]. cbn [dev_read]. pose proof (RD d a) as R. destruct (rd d a) as (d1, x). specialize (IH d1 (if inc then add32 a 1 else a) inc).
  destruct (dev_read D rd d1 _ n inc) as (d2, l). constructor; assumption.
Qed.
Lemma cfg_w n : forall d a, w (snd (dev_cfg_read D cf d a n)).
Proof.
  induction n as [|n IH]; intros d a; [constructor|]. cbn [dev_cfg_read]. pose proof (CF d a) as R. destruct (cf d a) as (d1, x). specialize (IH d1 (add32 a 1)).
  destruct (dev_cfg_read D cf d1 _ n) as (d2, l). constructor; assumption.
Qed.
Lemma rmw_w d a f : snd (dev_rmw D rd wr V2 d a f) < 2 ^ 32.
Proof. unfold dev_rmw. pose proof (RD d a) as R. destruct (rd d a) as (d1, x). exact R. Qed.
Lemma header_w ty n id : w (reply_header V2 ty n id).
Proof. unfold reply_header, expected_header. destruct (calc_header V2 ty n id 0) eqn:E; [|constructor]. repeat constructor. eapply calc_header_lt, E. Qed.

Lemma loop_w fuel : forall d ws, w (snd (fst (target_loop D rd wr cf fuel V2 d ws))).
Proof.
  induction fuel as [|f IH]; intros d ws; [constructor|]. cbn [target_loop]. destruct ws as [|h rest]; [constructor|]. destruct (extract_header V2 h) as [x|]; [|constructor]. destruct (negb (h_info x =? req_info V2)); [constructor|].
  cbv zeta.
  assert (FIN : forall d' reply rest', w reply -> w (snd (fst (match rest' with [] => (d', reply, true) | _ => let '(d'', r, ok) := target_loop D rd wr cf f V2 d' rest' in (d'', reply ++ r, ok) end)))).
  { intros d' reply rest' R. destruct rest' as [|y rest']; [exact R|]. specialize (IH d' (y :: rest')). destruct (target_loop D rd wr cf f V2 d' (y :: rest')) as ((d'', r), ok). cbn [fst snd] in *. apply Forall_app. auto. }
  destruct (h_type x), rest as [|a rest]; try (constructor; fail); try (apply FIN, header_w); try (exact (FIN d _ (a :: rest) (header_w _ _ _))); try (exact (FIN d _ [] (header_w _ _ _))).
  all: first
    [ solve [pose proof (read_w (N.to_nat (h_wc x)) d a true) as R; destruct (dev_read D rd d a _ true) as (d1, l); apply FIN, Forall_app; split; [apply header_w|exact R]]
    | solve [pose proof (read_w (N.to_nat (h_wc x)) d a false) as R; destruct (dev_read D rd d a _ false) as (d1, l); apply FIN, Forall_app; split; [apply header_w|exact R]]
    | solve [destruct (Nat.ltb (length rest) (N.to_nat (h_wc x))); [constructor|]; apply FIN, header_w]
    | solve [destruct rest as [|b rest]; [constructor|]; pose proof (rmw_w d a (fun old => add32 old b)) as R; destruct (dev_rmw D rd wr V2 d a _) as (d1, l); apply FIN, Forall_app; split; [apply header_w|repeat constructor; exact R]]
    | solve [destruct rest as [|b [|c rest]]; [constructor|constructor|]; pose proof (rmw_w d a (fun old => rmw_bits_word old b c)) as R; destruct (dev_rmw D rd wr V2 d a _) as (d1, l); apply FIN, Forall_app; split; [apply header_w|repeat constructor; exact R]]
    | solve [pose proof (cfg_w (N.to_nat (h_wc x)) d a) as R; destruct (dev_cfg_read D cf d a _) as (d1, l); apply FIN, Forall_app; split; [apply header_w|exact R]] ].
Qed.

Lemma target_bytes b d : goodb b -> let (d', x) := dev_exec D rd wr cf d (body (req_of b)) in
  target_packet D rd wr cf g d (b_send b) = (d', back b x, true) /\ dests_words (b_reply b) = N.of_nat (length (back b x)) /\ exists k, length x = (4 * k)%nat.
Proof.
  intros B. destruct (goodb_form b B) as (rest & S & LT). destruct B as (W & _ & p & R & WF & N0).
  destruct (SentProofs.repr_out_target g D rd wr cf b p d R WF N0) as (d' & r & TP & RC). unfold dev_exec, req_of, body. rewrite S in *. cbn [skipn bytes_of flat_map app Tcp.mem4].
  fold (bytes_of rest). unfold w32 in W. rewrite S in W. rewrite words_bytes by (repeat (match goal with H : Forall _ (_ :: _) |- _ => inversion H; clear H; subst end); assumption).
  unfold target_packet in *. destruct H as (_ & V & HB & MX). rewrite HB, V in *. unfold target_ipbus in *. change (N.land 536871152 15 =? 0) with true in *. change (N.land (shr32 536871152 8) 65535 =? 0) with true in *. cbn [andb] in *.
  pose proof (loop_w (length rest) d rest) as LW. destruct (target_loop D rd wr cf (length rest) V2 d rest) as ((d1, r1), ok). cbn [fst snd] in LW. injection TP as <- <- <-.
  unfold back. rewrite S. rewrite words_bytes by exact LW. split; [reflexivity|]. split.
  - unfold reply_counter in RC. cbn [length] in *. lia.
  - exists (length r1). apply bytes_of_length.
Qed.


End R.
End P.
