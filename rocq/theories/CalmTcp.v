(** Invariant of the TCP transport while the network does nothing wrong (C103). *)
From Coq Require Import NArith ZArith List Bool Lia PeanoNat ZifyBool ZifyNat ZifyN.
From Verif Require Import Word Udp Tcp TcpProofs TcpProofs2 Prop_Tcp.
Import ListNotations.
Open Scope N_scope.
Ltac Zify.zify_post_hook ::= Z.div_mod_to_equations.

(** ** Specification *)

(** Number of bytes last given to async_write. *)
Definition last_len (tr : list tobs) : N :=
  fold_left (fun n o => match o with TSent _ b => N.of_nat (List.length b) | _ => n end) tr 0.

(** The first chunk sent and not yet answered. *)
Definition awaited (tr : list tobs) : list pkt := hd [] (skipn (trecvd (tsince tr)) (chunks (tsince tr))).

(** What the network and the device do right: connect() succeeds, all bytes are
    sent, the four bytes of a header arrive and announce no more bytes than there
    is room for in the awaited chunk, all bytes announced arrive, no deadline
    passes before, every reply is found valid. *)
Definition tfine (room : pkt -> N) (s : tcp) (l : tlab) : Prop :=
  match l with
  | KConnectFail | KDeadline | KValidate false => False
  | KSentBytes err n => err = false /\ n = last_len (k_tr s)
  | KHeader err n cnt => err = false /\ n = 4 /\ swap32 cnt <= reply_room room (awaited (k_tr s))
  | KBody err n => err = false /\ n = k_rcnt s
  | _ => True
  end.
Fixpoint tfine_run bytes room nr max (s : tcp) (ls : list tlab) : Prop :=
  match ls with
  | [] => True
  | l :: t => tfine room s l /\ match kstep bytes room nr max false s l with
                                | Some s' => tfine_run bytes room nr max s' t
                                | None => True
                                end
  end.

(** A client at rest: new, or after an exception whose callbacks have all run. *)
Definition tat_rest (s : tcp) : Prop := k_user s = UIdle /\ k_exc s = false /\ tquiet s.

(** Nothing went wrong in this part of the history. *)
Definition tcalm (e : list tobs) : Prop := ~ In TFail e /\ ~ In TThrow e.

(** Packets are so short that a chunk with its header can be counted in 32 bits. *)
Definition short4 (bytes : pkt -> list N) (nr : nat) : Prop := exists b, (forall p, psize bytes p <= b) /\ N.of_nat nr * b + 4 < W32.

(** ** Invariant *)

Lemma swap_swap n : n < W32 -> swap32 (swap32 n) = n.
Proof.
  intros L. unfold swap32, W32 in *.
  assert (E : n = 16777216 * ((n / 16777216) mod 256) + 65536 * ((n / 65536) mod 256) + 256 * ((n / 256) mod 256) + n mod 256) by lia.
  assert (A0 := N.mod_lt n 256 ltac:(lia)). assert (A1 := N.mod_lt (n / 256) 256 ltac:(lia)).
  assert (A2 := N.mod_lt (n / 65536) 256 ltac:(lia)). assert (A3 := N.mod_lt (n / 16777216) 256 ltac:(lia)).
  transitivity (16777216 * ((n / 16777216) mod 256) + 65536 * ((n / 65536) mod 256) + 256 * ((n / 256) mod 256) + n mod 256); [|symmetry; exact E].
  clear E L. revert A0 A1 A2 A3. generalize (n mod 256) ((n / 256) mod 256) ((n / 65536) mod 256) ((n / 16777216) mod 256). clear.
  intros a b c d A0 A1 A2 A3. set (m := 16777216 * a + 65536 * b + 256 * c + d).
  assert (E0 : m mod 256 = d) by (unfold m; lia). assert (E1 : (m / 256) mod 256 = c) by (unfold m; lia).
  assert (E2 : (m / 65536) mod 256 = b) by (unfold m; lia). assert (E3 : (m / 16777216) mod 256 = a) by (unfold m; lia).
  rewrite E0, E1, E2, E3. reflexivity.
Qed.

Lemma last_len_snoc tr o : last_len (tr ++ [o]) = match o with TSent _ b => N.of_nat (List.length b) | _ => last_len tr end.
Proof. unfold last_len. rewrite fold_left_app. reflexivity. Qed.

Definition good_k (n : N) (c : tcompl) : Prop := c = KSend false n \/ c = KRecv false 4.

Lemma good_kdrop n : forall l i, Forall (good_k n) l -> Forall (good_k n) (drop_nth l i).
Proof. induction l as [|x l IH]; intros [|i] F; cbn [drop_nth]; auto; inversion F; auto. Qed.
Lemma good_none n m : forall l, Forall (good_k n) l -> kS l = 0%nat -> Forall (good_k m) l.
Proof.
  induction l as [|x l IH]; intros F K; [constructor|]. inversion F as [|? ? [-> | ->] F2]; subst.
  - cbn in K. discriminate.
  - constructor; [right; reflexivity|]. apply IH; [exact F2|exact K].
Qed.

Section Calm.
Variable bytes : pkt -> list N.
Variable room : pkt -> N.
Variable nr : nat.
Variable max : N.
Hypothesis nr_pos : (1 <= nr)%nat.
Hypothesis sh : short4 bytes nr.

Notation step := (kstep bytes room nr max false).
Notation wr := (twrite bytes nr false).

Record tsound (s : tcp) : Prop := {
  d_exc : k_exc s = false;
  d_user : k_user s = UIdle \/ k_user s = UWait \/ k_user s = UWake;
  d_rdy : Forall (good_k (last_len (k_tr s))) (k_rdy s);
  d_io : match k_io s with
         | TRead err n => err = false /\ n = 4 /\ swap32 (k_rcnt s) <= reply_room room (k_reply s)
         | TBody c => k_rcnt s <= reply_room room c
         | _ => True
         end;
  d_room : (kR (k_rdy s) <> 0)%nat -> swap32 (k_rcnt s) <= reply_room room (k_reply s);
  d_s : (k_acts s + kS (k_rdy s))%nat = List.length (ne (k_disp s));
  d_r : (k_actr s + kR (k_rdy s) + busy (k_io s))%nat = List.length (ne (k_reply s));
  d_fin : k_disp s <> [] \/ k_reply s <> [] -> k_fin s = true;
  d_cnt : k_disp s <> [] -> add32 (swap32 (k_scnt s)) 4 = last_len (k_tr s)
}.

Lemma frame_count c : (List.length c <= nr)%nat -> add32 (swap32 (swap32 (count bytes c))) 4 = N.of_nat (List.length (frame_of bytes c)).
Proof using nr_pos sh room.
  intros L. destruct sh as (b & PB & LB). assert (S1 : short bytes nr) by (exists b; split; [exact PB|lia]).
  destruct (count_len bytes nr c S1 L) as (E & E2).
  assert (TL : forall c, N.of_nat (List.length (flat_map bytes c)) <= N.of_nat (List.length c) * b).
  { clear - PB. induction c as [|p c IH]; cbn [flat_map List.length]; [lia|]. rewrite app_length. specialize (PB p). unfold psize in PB. nia. }
  specialize (TL c). rewrite swap_swap by lia. unfold frame_of. rewrite app_length, E. unfold mem4, add32. cbn [List.length].
  assert (N.of_nat (List.length (flat_map bytes c)) + 4 < W32) by nia. rewrite N.mod_small by exact H. lia.
Qed.

Lemma rest_tsound s : limits nr max -> treached bytes room nr max false s -> tat_rest s -> tsound s.
Proof using room max nr_pos sh.
  intros L R (U & X & Q1 & Q2 & Q3 & Q4). assert (W := treached_inv _ _ _ _ _ _ L R). assert (M := w_mode _ _ _ _ W).
  unfold tmode in M. rewrite U, X in M. destruct M as [L0 _ _ _ _ _ _]. destruct L0. rewrite Q1, Q2, Q3, Q4 in *. cbn in v_s, v_r.
  destruct (k_disp s) eqn:D; [|discriminate]. destruct (k_reply s) eqn:RP; [|discriminate].
  constructor; rewrite ?Q1, ?Q2, ?Q3, ?Q4, ?D, ?RP; auto; try congruence; try (intros [H|H]; congruence).
  intros H. exfalso. apply H. reflexivity.
Qed.

(** write, from a state in which nothing is being sent. *)
Lemma wr_tsound s : tsound s -> k_disp s = [] -> k_queue s <> [] -> tsound (wr s) /\ exists e, k_tr (wr s) = k_tr s ++ e /\ tcalm e.
Proof using room max nr_pos sh.
  intros D E Q. destruct D. rewrite twrite_eq. assert (CN := chunk_ne nr nr_pos s Q).
  assert (CL : (List.length (chunk_of nr s) <= nr)%nat) by (rewrite chunk_len; lia).
  rewrite E in *. cbn [ne List.length] in d_s0. split.
  - constructor; krecs; cbn [app]; auto.
    + rewrite last_len_snoc. eapply good_none; [exact d_rdy0|lia].
    + rewrite len_ne. destruct (chunk_of nr s); [congruence|]. lia.
    + intros _. rewrite last_len_snoc. apply frame_count. exact CL.
  - eexists [_]. split; [reflexivity|]. split; intros [H|[]]; discriminate.
Qed.

Lemma awaited_reply s : limits nr max -> treached bytes room nr max false s -> tsound s -> k_actr s <> 0%nat -> awaited (k_tr s) = k_reply s.
Proof using room max nr_pos sh.
  intros L R D A. destruct D. assert (M := w_mode _ _ _ _ (treached_inv _ _ _ _ _ _ L R)). unfold tmode in M. rewrite d_exc0 in M.
  assert (V : tlive nr max s (tsince (k_tr s))) by (destruct d_user0 as [H|[H|H]]; rewrite H in M; exact M).
  destruct V as [L0 _ _ _ _ _ _]. destruct L0. destruct v_old as (old & pre & C & RC & _). unfold awaited. rewrite C, RC.
  destruct (k_reply s) as [|x y] eqn:RP; [cbn in d_r0; lia|]. cbn [ne List.length] in *.
  assert (IO : k_io s = TIdle) by (destruct (k_io s); cbn [busy] in d_r0; [reflexivity|lia..]). rewrite IO. cbn [got].
  rewrite Nat.add_0_r, skipn_app, Nat.sub_diag, skipn_all. reflexivity.
Qed.

Ltac calm0 := exists []; rewrite app_nil_r; split; [reflexivity|split; intros []].
Ltac calm1 := eexists [_]; split; [reflexivity|split; intros [H|[]]; discriminate].

Lemma tsound_step s l s' : limits nr max -> treached bytes room nr max false s -> tsound s -> tfine room s l -> step s l = Some s' ->
  tsound s' /\ exists e, k_tr s' = k_tr s ++ e /\ tcalm e.
Proof using room max nr_pos sh.
  intros LI R D F ST. assert (AW := awaited_reply s LI R D). assert (D0 := D). destruct D. destruct l; try contradiction F; cbn [kstep] in ST.
  - destruct (k_user s) eqn:U; try discriminate. rewrite d_exc0 in ST. injection ST as <-. unfold timplement_dispatch.
    set (s1 := if k_open s then s else _). set (s2 := tsee _ _).
    assert (T2 : k_tr s2 = k_tr s ++ [THanded p] /\ k_disp s2 = k_disp s /\ k_queue s2 <> []).
    { unfold s2, s1. destruct (k_open s); krecs; repeat split; auto; destruct (k_queue s); discriminate. }
    assert (D2 : tsound s2).
    { unfold s2, s1. destruct (k_open s); constructor; krecs; rewrite ?last_len_snoc; auto. }
    clearbody s2. clear s1. destruct T2 as (T2 & E2 & Q2).
    destruct (k_disp s2) eqn:DD; cbn [andb]; [destruct (_ && _)|].
    + destruct (wr_tsound s2 D2 DD Q2) as (D3 & e & E & C & C'). split; [exact D3|]. exists ([THanded p] ++ e). rewrite E, T2, <- app_assoc.
      split; [reflexivity|]. split; intros [H|H]; try discriminate; auto.
    + split; [exact D2|]. rewrite T2. calm1.
    + split; [exact D2|]. rewrite T2. calm1.
  - destruct (k_user s) eqn:U; try discriminate. injection ST as <-. unfold tflush. krecs.
    assert (D1 : tsound (tput_flush s true)) by (constructor; krecs; rewrite ?U; auto).
    assert (D2 : tsound (tput_user (tput_flush s true) UWait)) by (destruct D1; constructor; krecs; auto).
    destruct (k_queue s) as [|q0 q] eqn:Q; [split; [exact D2|calm0]|]. destruct (k_disp s) eqn:DD; [|split; [exact D2|calm0]].
    destruct (wr_tsound (tput_flush s true) D1) as (D3 & e & E & C); [exact DD|krecs; rewrite Q; discriminate|].
    split; [|exists e; split; [exact E|exact C]]. destruct D3. rewrite twrite_eq in *. constructor; krecs; auto.
  - destruct (k_user s) eqn:U, (k_done s); try discriminate. injection ST as <-. split; [constructor; krecs; auto|calm0].
  - destruct (k_user s) eqn:U; try discriminate. injection ST as <-. rewrite d_exc0. split; [constructor; krecs; rewrite ?last_len_snoc; auto|calm1].
  - destruct (k_user s); try discriminate; destruct d_user0 as [H|[H|H]]; discriminate.
  - destruct (k_acts s) eqn:A; [discriminate|]. injection ST as <-. destruct F as (-> & ->). split; [constructor; krecs; auto|calm0].
    + apply Forall_app. split; [assumption|]. constructor; [left; reflexivity|constructor].
    + rewrite kR_app. cbn [kR filter List.length]. rewrite Nat.add_0_r. assumption.
    + rewrite kS_app. cbn [kS filter List.length]. lia.
    + rewrite kR_app. cbn [kR filter List.length]. lia.
  - destruct (k_actr s) eqn:A; [discriminate|]. injection ST as <-. destruct F as (-> & -> & F). rewrite AW in F by discriminate.
    assert (IO : k_io s = TIdle) by (rewrite len_ne in d_r0; destruct (k_io s), (k_reply s); cbn [busy] in d_r0; try reflexivity; lia).
    split; [constructor; krecs; rewrite ?IO; auto|calm0].
    + apply Forall_app. split; [assumption|]. constructor; [right; reflexivity|constructor].
    + rewrite kS_app. cbn [kS filter List.length]. lia.
    + rewrite kR_app. rewrite IO in d_r0. cbn [kR filter List.length busy] in *. lia.
  - destruct (k_io s) as [| |c| |] eqn:IO; try discriminate. destruct (_ <=? _); [|discriminate]. injection ST as <-. destruct F as (-> & ->).
    unfold tread_body. rewrite N.eqb_refl. cbn [orb negb].
    split; [|calm1]. constructor; krecs; rewrite ?last_len_snoc; auto; try (destruct c; exact I). replace (busy _) with 1%nat by (destruct c; reflexivity). exact d_r0.
  - destruct (k_io s) eqn:IO; try discriminate. destruct (nth_error (k_rdy s) i) as [c|] eqn:NT; [|discriminate].
    destruct (tdrop_counts _ _ _ NT) as (C1 & C2). assert (G := good_kdrop _ (k_rdy s) i d_rdy0).
    assert (GC : good_k (last_len (k_tr s)) c) by (apply nth_error_In in NT; rewrite Forall_forall in d_rdy0; auto).
    injection ST as <-. destruct GC as [-> | ->]; cbn [kS kR filter List.length busy] in C1, C2, d_r0.
    + unfold twrite_callback. krecs. rewrite d_exc0. rewrite len_ne in d_s0. destruct (k_disp s) as [|d ds] eqn:DD; [lia|].
      rewrite d_fin0 by (left; discriminate). cbn [negb]. rewrite <- d_cnt0 by discriminate. rewrite N.eqb_refl. cbn [orb negb].
      match goal with |- context [want_write nr max ?t] => set (s2 := t) end.
      assert (D2 : tsound s2 /\ k_disp s2 = [] /\ k_tr s2 = k_tr s).
      { unfold s2. rewrite len_ne in d_r0. destruct (k_reply s) as [|x y] eqn:RP; (split; [|split; reflexivity]); constructor; krecs; rewrite ?IO, ?RP, ?len_ne; cbn [busy]; auto; try congruence; try lia;
        try (intros _; apply d_fin0; left; discriminate); try (intros Z; exfalso; lia); intros Z; apply d_room0; lia. }
      clearbody s2. destruct D2 as (D2 & E2 & T2). destruct (want_write nr max s2) eqn:WW.
      * rewrite <- T2. apply wr_tsound; [exact D2|exact E2|]. exact (want_ne nr max nr_pos s2 WW).
      * split; [exact D2|]. rewrite T2. calm0.
    + unfold tread_callback. krecs. rewrite d_exc0. rewrite len_ne in d_r0. destruct (k_reply s) as [|x y] eqn:RP; [lia|].
      rewrite d_fin0 by (right; discriminate). cbn [negb]. split; [|calm0].
      assert (RM : swap32 (k_rcnt s) <= reply_room room (x :: y)) by (apply d_room0; lia).
      constructor; krecs; rewrite ?RP, ?len_ne; cbn [busy]; auto; try lia.
      rewrite len_ne in d_s0. lia.
  - destruct (k_io s) eqn:IO; try discriminate. injection ST as <-. destruct d_io0 as (-> & -> & RM). unfold tread_header. cbn [orb negb N.eqb Pos.eqb].
    cbn [busy] in d_r0. rewrite len_ne in d_r0. destruct (k_reply s) as [|x y] eqn:RP; [lia|].
    split; [|calm0]. rewrite len_ne in d_s0. constructor; krecs; rewrite ?RP, ?len_ne; cbn [busy]; auto; try lia; intros Z; exfalso; lia.
  - destruct (k_io s) as [| | |[|p c]|] eqn:IO; try discriminate. injection ST as <-. destruct v; [|contradiction F]. unfold tcheck.
    split; [|calm1]. constructor; krecs; rewrite ?last_len_snoc; auto; try (destruct c; exact I). replace (busy _) with 1%nat by (destruct c; reflexivity). exact d_r0.
  - destruct (k_io s) eqn:IO; try discriminate. injection ST as <-. unfold tread_end. cbn [busy] in d_r0. rewrite len_ne in d_r0.
    destruct (k_reply s) as [|x y] eqn:RP; [lia|]. assert (FI : k_fin s = true) by (apply d_fin0; right; discriminate).
    set (s1 := match k_rqueue _ with [] => _ | _ => _ end).
    assert (D1 : (k_rqueue s <> [] -> hd [] (k_rqueue s) <> []) -> tsound s1 /\ k_tr s1 = k_tr s).
    { intros NE. unfold s1. krecs. destruct (k_rqueue s) as [|c q]; (split; [|reflexivity]); constructor; krecs; rewrite ?len_ne; cbn [busy]; auto; try (rewrite len_ne in d_s0; lia); try lia; try congruence; try (intros Z; exfalso; lia).
      destruct c; [exfalso; apply NE; [discriminate|reflexivity]|]. lia. }
    destruct D1 as (D1 & T1).
    { assert (M := w_mode _ _ _ _ (treached_inv _ _ _ _ _ _ LI R)). unfold tmode in M. rewrite d_exc0 in M.
      assert (V : tlive nr max s (tsince (k_tr s))) by (destruct d_user0 as [H|[H|H]]; rewrite H in M; exact M).
      destruct V as [L0 _ _ _ _ _ _]. destruct L0. intros NE. destruct (k_rqueue s); [congruence|]. inversion v_rqne; assumption. }
    clearbody s1. set (s2 := match k_disp s1 with [] => _ | _ => _ end).
    assert (D2 : tsound s2 /\ exists e, k_tr s2 = k_tr s ++ e /\ tcalm e).
    { unfold s2. rewrite <- T1. destruct (k_disp s1) eqn:DD; [|split; [exact D1|calm0]]. destruct (want_write nr max s1) eqn:WW; [|split; [exact D1|calm0]].
      apply wr_tsound; [exact D1|exact DD|]. exact (want_ne nr max nr_pos s1 WW). }
    clearbody s2. destruct (k_disp s2) eqn:E2, (k_reply s2) eqn:R2; try exact D2. destruct D2 as (D2 & T2). split; [|exact T2].
    destruct D2. constructor; krecs; rewrite ?E2, ?R2 in *; auto.
Qed.

Lemma krun_app : forall a b s, krun bytes room nr max false s (a ++ b) = match krun bytes room nr max false s a with Some s1 => krun bytes room nr max false s1 b | None => None end.
Proof using. clear. induction a as [|l a IH]; intros b s; cbn [krun app]; [reflexivity|]. destruct (step s l); auto. Qed.
Lemma clean_app : forall a b s s1, krun bytes room nr max false s a = Some s1 -> clean_handlers bytes room nr max false s a -> clean_handlers bytes room nr max false s1 b ->
  clean_handlers bytes room nr max false s (a ++ b).
Proof using room max nr_pos sh.
  clear. induction a as [|l a IH]; intros b s s1 R Q1 Q2; cbn [krun clean_handlers app] in *; [injection R as <-; exact Q2|].
  destruct Q1 as (Q & Q1). split; [exact Q|]. destruct (step s l) as [s2|]; [|discriminate]. eapply IH; eassumption.
Qed.

Lemma treached_step s l s' : treached bytes room nr max false s -> k_user s <> UH2 -> step s l = Some s' -> treached bytes room nr max false s'.
Proof using room max nr_pos sh.
  intros (l0 & R0 & Q0) U ST. exists (l0 ++ [l]). split; [rewrite krun_app, R0; cbn [krun]; rewrite ST; reflexivity|].
  eapply clean_app; [exact R0|exact Q0|]. cbn [clean_handlers]. split; [intros _ H; congruence|]. rewrite ST. exact I.
Qed.

Lemma tsound_run : limits nr max -> forall ls s s', treached bytes room nr max false s -> tsound s -> tfine_run bytes room nr max s ls -> krun bytes room nr max false s ls = Some s' ->
  tsound s' /\ treached bytes room nr max false s' /\ exists e, k_tr s' = k_tr s ++ e /\ tcalm e.
Proof using room max nr_pos sh.
  intros LI. induction ls as [|l ls IH]; intros s s' R0 D F R; cbn [krun tfine_run] in *.
  { injection R as <-. split; [exact D|]. split; [exact R0|]. exists []. rewrite app_nil_r. split; [reflexivity|split; intros []]. }
  destruct (step s l) as [s1|] eqn:ST; [|discriminate]. destruct F as (F1 & F2).
  destruct (tsound_step _ _ _ LI R0 D F1 ST) as (D1 & e1 & E1 & C1 & C1').
  assert (R1 : treached bytes room nr max false s1).
  { eapply treached_step; [exact R0| |exact ST]. intros U. destruct (d_user _ D) as [H|[H|H]]; congruence. }
  destruct (IH _ _ R1 D1 F2 R) as (D2 & R2 & e2 & E2 & C2 & C2').
  split; [exact D2|]. split; [exact R2|]. exists (e1 ++ e2). rewrite E2, E1, <- app_assoc. split; [reflexivity|].
  split; intros H; apply in_app_iff in H; destruct H; auto.
Qed.
End Calm.
