(** Proofs about [Hub.v]: packet identifiers, what the target makes of the packets
    of the device client, and the invariant of an execution. *)
From Coq Require Import NArith ZArith List Bool Lia PeanoNat ZifyBool ZifyNat ZifyN.
From Verif Require Import Hub HubSpec.
Import ListNotations.
Open Scope N_scope.
Ltac Zify.zify_post_hook ::= Z.to_euclidean_division_equations.

(** ** Lists *)
Lemma same_spec a : forall b, same a b = true <-> a = b.
Proof.
  induction a as [|x a IH]; intros [|y b]; cbn [same]; split; intros H; try discriminate; trivial.
  - apply andb_prop in H. destruct H as (H1 & H2). apply N.eqb_eq in H1. apply IH in H2. congruence.
  - injection H as -> ->. rewrite N.eqb_refl. apply IH. reflexivity.
Qed.
Lemma in_drop {A} i (l : list A) x : In x (drop i l) -> In x l.
Proof.
  unfold drop. intros H. rewrite <- (firstn_skipn i l). apply in_app_or in H. apply in_or_app. destruct H as [H|H]; [auto|].
  right. change (skipn (S i) l) with (skipn (1 + i) l) in H. revert H. generalize i. clear. induction l as [|y l IH]; intros [|i] H; cbn in *; try contradiction; auto.
Qed.

(** ** Identifiers *)

(** The identifier of the request number [k], if that of the first is [b]. *)
Definition idn (b : N) (k : nat) : N := (b - 1 + N.of_nat k) mod 65535 + 1.

Definition id_ok (b : N) : Prop := 1 <= b <= 65535.

Lemma idn_ok b k : id_ok (idn b k).
Proof. unfold id_ok, idn. lia. Qed.
Lemma idn_0 b : id_ok b -> idn b 0 = b.
Proof. unfold id_ok, idn. lia. Qed.
Lemma idn_S b k : idn b (S k) = inc_id (idn b k).
Proof. unfold idn, inc_id. destruct (N.eqb_spec ((b - 1 + N.of_nat k) mod 65535 + 1) 0xFFFF); lia. Qed.
Lemma next_inc x : id_ok x -> next_id x = inc_id x.
Proof.
  unfold id_ok, next_id, inc_id. cbv zeta. intros H. destruct (N.eqb_spec x 0xFFFF) as [->|]; [reflexivity|].
  destruct (N.eqb_spec ((x + 1) mod 65536) 0); lia.
Qed.
Lemma next_ok x : x < 65536 -> id_ok (next_id x).
Proof. unfold id_ok, next_id. cbv zeta. intros H. destruct (N.eqb_spec ((x + 1) mod 65536) 0); lia. Qed.
Lemma idn_inj b k j : idn b k = idn b j -> N.of_nat k < N.of_nat j + 65535 -> N.of_nat j < N.of_nat k + 65535 -> k = j.
Proof.
  unfold idn. intros E A B. apply N.add_cancel_r in E. remember (b - 1 + N.of_nat k) as x eqn:X. remember (b - 1 + N.of_nat j) as y eqn:Y.
  assert (x < y + 65535) by lia. assert (y < x + 65535) by lia. assert (x = y); [|lia]. clear - E H H0.
  pose proof (N.div_mod x 65535 ltac:(discriminate)) as P. pose proof (N.div_mod y 65535 ltac:(discriminate)) as Q. rewrite <- E in Q.
  generalize dependent (x mod 65535). generalize dependent (x / 65535). generalize dependent (y / 65535). intros. assert (n = n0) by nia. congruence.
Qed.

Lemma dec_inc x : id_ok x -> dec_id (inc_id x) = x.
Proof. unfold id_ok, dec_id, inc_id. intros H. destruct (N.eqb_spec x 0xFFFF) as [->|]; [reflexivity|]. destruct (N.eqb_spec (x + 1) 1); lia. Qed.
Lemma dec_idn b k : dec_id (idn b (S k)) = idn b k.
Proof. rewrite idn_S. apply dec_inc, idn_ok. Qed.
Lemma dec_ids_idn b j : forall k, dec_ids (idn b (k + j)) j = idn b k.
Proof.
  induction j as [|j IH]; intros k; cbn [dec_ids]; [rewrite Nat.add_0_r; reflexivity|].
  rewrite Nat.add_succ_r, dec_idn. apply IH.
Qed.
Lemma idn_wrap b k : idn b (k + N.to_nat 65535) = idn b k.
Proof. unfold idn. lia. Qed.

(** An identifier [j] before [b] is not among the next [65534 - j]. *)
Lemma dec_ids_far b j k : id_ok b -> N.of_nat j + N.of_nat k < 65534 -> dec_ids (dec_id b) j <> idn b k.
Proof.
  intros B H E. assert (X : dec_id b = idn b (N.to_nat 65534)).
  { unfold idn, dec_id, id_ok in *. destruct (N.eqb_spec b 1); lia. }
  replace (N.to_nat 65534) with ((N.to_nat 65534 - j) + j)%nat in X by lia. rewrite X, dec_ids_idn in E. apply idn_inj in E; lia.
Qed.
Lemma dec_next x : x < 65536 -> x <> 0 -> dec_id (next_id x) = x.
Proof. intros H Z. rewrite next_inc by (unfold id_ok; lia). apply dec_inc. unfold id_ok; lia. Qed.
Lemma dec_ids_0 j : dec_ids 0 j = 0.
Proof. induction j; [reflexivity|exact IHj]. Qed.

(** ** Packets *)
Definition order (hack : bool) : endness := if hack then Big else Little.

Lemma be16_bytes x : x < 65536 -> x / 256 mod 256 * 256 + x mod 256 = x.
Proof. lia. Qed.

Lemma ctl_header_form id e : exists b0 b1 b2 b3, ctl_header id e = [b0; b1; b2; b3].
Proof. destruct e; cbn; eauto. Qed.
Lemma ctl_header_inj e a b : id_ok a -> id_ok b -> ctl_header a e = ctl_header b e -> a = b.
Proof. unfold id_ok. destruct e; cbn; intros A B H; injection H as H1 H2; lia. Qed.
Lemma hdr_ctl id e t : hdr (ctl_header id e ++ t) = ctl_header id e.
Proof. destruct e; reflexivity. Qed.
Lemma body_ctl id e t : body (ctl_header id e ++ t) = t.
Proof. destruct e; reflexivity. Qed.
Lemma ctl_not_status id e : ctl_header id e <> [0x20; 0; 0; 0xF1].
Proof. destruct e; cbn; congruence. Qed.
Lemma resend_ctl id e : resend_pkt (ctl_header id e) = [0x20; id / 256 mod 256; id mod 256; 0xF2].
Proof. destruct e; reflexivity. Qed.
Lemma parse_ctl_control p e : parse_ctl p = Some e <-> control e p = true.
Proof.
  unfold control. destruct p as [|b0 [|b1 [|b2 [|b3 t]]]]; try (split; [discriminate|destruct e; discriminate]).
  cbn [length Nat.leb andb nth parse_ctl].
  destruct (b0 =? 0x20) eqn:A; destruct (b3 =? 0xF0) eqn:B; destruct (b0 =? 0xF0) eqn:C; destruct (b3 =? 0x20) eqn:E; destruct e; cbn; split; try congruence; lia.
Qed.
Lemma is_ctl_parse r : is_ctl r = match parse_ctl (q_pkt r) with Some _ => true | None => false end.
Proof.
  unfold is_ctl. destruct (parse_ctl (q_pkt r)) as [e|] eqn:P.
  - apply parse_ctl_control in P. destruct e; rewrite P; [reflexivity|apply orb_true_r].
  - destruct (control Big (q_pkt r)) eqn:B; [apply parse_ctl_control in B; congruence|]. destruct (control Little (q_pkt r)) eqn:L; [apply parse_ctl_control in L; congruence|reflexivity].
Qed.
Lemma fits_parse hack r : fits hack r -> first_version (q_pkt r) <> Some false /\ forall e, parse_ctl (q_pkt r) = Some e -> e = order hack.
Proof.
  intros (V & C). split.
  - unfold old_packet in V. unfold first_version. destruct (q_pkt r) as [|b0 [|b1 [|b2 [|b3 t]]]]; try discriminate. cbn [length Nat.leb andb nth] in V.
    destruct ((b0 =? 0x20) && (b3 / 16 =? 15)).
    + destruct (b3 mod 16 =? 0); [discriminate|]. destruct ((b3 mod 16 =? 1) && (b1 =? 0) && (b2 =? 0) && Nat.eqb (length (b0 :: b1 :: b2 :: b3 :: t)) 64); [destruct (status_ok _); discriminate|]. destruct ((b3 mod 16 =? 2) && _); discriminate.
    + destruct ((b0 / 16 =? 15) && (b3 =? 0x20)); [destruct (b0 mod 16 =? 0); discriminate|].
      apply orb_false_iff in V. destruct V as (V1 & V2). change 0x1F with 31. rewrite V1.
      replace ((b0 / 8 =? 31) && (b0 mod 4 =? 0) && (b1 =? 0) && (b3 / 16 =? 1)) with ((b3 / 16 =? 1) && (b1 =? 0) && (b0 / 8 =? 31) && (b0 mod 4 =? 0)); [rewrite V2; discriminate|].
      destruct (b3 / 16 =? 1), (b1 =? 0), (b0 / 8 =? 31), (b0 mod 4 =? 0); reflexivity.
  - intros e P. apply parse_ctl_control in P. destruct hack, e; cbn in *; congruence.
Qed.
Lemma control_fits hack r : control (order hack) (q_pkt r) = true -> fits hack r.
Proof.
  intros H. split.
  - apply parse_ctl_control in H. unfold old_packet. destruct (q_pkt r) as [|b0 [|b1 [|b2 [|b3 r0]]]]; try discriminate. cbn [length Nat.leb andb nth parse_ctl] in *.
    destruct ((b0 =? 0x20) && (b3 =? 0xF0)) eqn:E1; [|destruct ((b0 =? 0xF0) && (b3 =? 0x20)) eqn:E2; [|discriminate]].
    + replace b0 with 0x20 by lia. replace b3 with 0xF0 by lia. reflexivity.
    + replace b0 with 0xF0 by lia. replace b3 with 0x20 by lia. reflexivity.
  - destruct (control (if hack then Little else Big) (q_pkt r)) eqn:E; [|reflexivity]. apply parse_ctl_control in E, H. rewrite H in E. injection E as E. destruct hack; discriminate.
Qed.
Lemma parse_ctl_version p e : parse_ctl p = Some e -> first_version p = Some true.
Proof.
  destruct p as [|b0 [|b1 [|b2 [|b3 t]]]]; try discriminate. cbn [parse_ctl first_version]. intros H.
  destruct (N.eqb_spec b0 0x20) as [->|]; cbn [andb] in H.
  - destruct (N.eqb_spec b3 0xF0) as [->|]; [reflexivity|]. cbn [andb] in H. discriminate.
  - destruct (N.eqb_spec b0 0xF0) as [->|]; cbn [andb] in H; [|discriminate].
    destruct (N.eqb_spec b3 0x20) as [->|]; [reflexivity|discriminate].
Qed.

Section P.
Variable D : Type.
Variable exec : D -> bytes -> D * bytes.
Variable hack : bool.
Variable depth absmax : nat.
Notation dev := (dev D).
Notation receive := (receive D exec hack depth).
Notation status_reply := (status_reply D depth).

Lemma receive_ctl (v : dev) id t : id_ok id ->
  receive v (ctl_header id (order hack) ++ t) =
  if id =? next_id (v_last _ v) then
    let (d, r) := exec (v_d _ v) t in
    let reply := ctl_header id (order hack) ++ r in
    (mkDev _ d id (tl (v_hist _ v) ++ [(id, reply)]), Some reply, Some (t, r))
  else (v, None, None).
Proof using.
  unfold id_ok. intros I. unfold order, Hub.receive. destruct hack.
  - cbn [ctl_header be16 app orb]. change (0xF0 mod 16 =? 0) with true. cbv iota zeta. rewrite be16_bytes by lia.
    replace (id =? 0) with false by lia. cbn [orb]. destruct (id =? next_id _); [|reflexivity]. destruct (exec _ t). reflexivity.
  - cbn [ctl_header app orb same andb]. change (0xF0 =? 0x20) with false. cbn [andb orb]. change (0xF0 mod 16 =? 0) with true. cbv iota zeta. rewrite be16_bytes by lia.
    replace (id =? 0) with false by lia. cbn [orb]. destruct (id =? next_id _); [|reflexivity]. destruct (exec _ t). reflexivity.
Qed.
Lemma receive_status (v : dev) : receive v status_req = (v, Some (status_reply v [0x20; 0; 0; 0xF1]), None).
Proof using. unfold Hub.receive, status_req. cbn [app same]. destruct hack; reflexivity. Qed.
Lemma receive_resend (v : dev) id e : id_ok id ->
  receive v (resend_pkt (ctl_header id e)) = (v, find_reply (v_hist _ v) id, None).
Proof using.
  unfold id_ok. intros I. rewrite resend_ctl. unfold Hub.receive. change (0x20 =? 0x20) with true. change (0xF2 =? 0xF2) with true.
  cbn [andb]. rewrite orb_true_r. change (0xF2 mod 16) with 2. cbn [N.eqb Pos.eqb]. rewrite be16_bytes by lia. reflexivity.
Qed.

(** A status reply. *)
Definition status_with (x : N) : bytes :=
  [0x20; 0; 0; 0xF1] ++ be32 400000 ++ be32 (N.of_nat depth) ++ (0x20 :: be16 x ++ [0xF0]) ++ repeat 0 48.
Lemma parse_status_with x : id_ok x -> N.of_nat depth < 2 ^ 32 -> parse_status (status_with x) = SOk (N.of_nat depth) x.
Proof using.
  unfold id_ok. intros I L. unfold parse_status, status_with, be32, be16. cbn -[N.div N.modulo N.pow un32].
  change (0 =? 400000 / 2 ^ 16 mod 256) with false. rewrite andb_false_r. cbn [andb]. f_equal; [|lia].
  unfold un32. change (2 ^ 24) with 16777216. change (2 ^ 16) with 65536. change (2 ^ 8) with 256. change (2 ^ 32) with 4294967296 in L. lia.
Qed.
Lemma hdr_status_with x : hdr (status_with x) = [0x20; 0; 0; 0xF1].
Proof using. reflexivity. Qed.
End P.
