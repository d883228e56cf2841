(** C24, C25, C56: replies of the wrong length, echoed requests, ControlHub
    replies; for every execution of [Net.nrun] and every reply. *)
From Verif Require Import Word Bits Header WordLemmas HeaderProofs ValMem Client
  Validate Target Spec SpecLemmas System Tx E2E Sent WireSpec SentProofs ReplySpec
  Prop_Headers Prop_Wire ReplyProofs Net NetProofs NetProofs2 NetProofs3 Prop_Valid.
From Coq Require Import NArith ZArith List Lia Bool ZifyBool ZifyNat ZifyN.
Import ListNotations.
Open Scope N_scope.
Ltac Zify.zify_post_hook ::= Z.div_mod_to_equations.

(** C24, what does hold: an accepted reply reaches at least up to the header of
    its last transaction, so a reply missing a whole transaction is rejected.
    Missing: the data words after the last header, and the word count announced
    in the reply headers, are not checked ([C24_short_reply_refuted],
    [C24_word_count_refuted]). *)
Theorem C24_headers_present_partial : forall g ls y b q ws y', cfg_ok g ->
  (forall o, In o (ncalls ls) -> op_ok o) -> nrun g init_net ls = Some y -> s_out (n_c y) = b :: q ->
  nstep g y (NReply ws) = Some y' ->
  exists xs, packet g b xs /\
    (n_fail y' = false -> forall i, (i < length xs)%nat -> (reply_offset g xs i < length ws)%nat).
Proof.
  intros g ls y b q ws y' G OK R O ST.
  assert (F0 : n_fail y = false) by (cbn [nstep] in ST; destruct (n_fail y); [discriminate|reflexivity]).
  destruct (C22_acceptance g ls y b q ws G OK R O F0) as (xs & z & X & ST' & AF & _).
  rewrite ST in ST'. injection ST' as <-. exists xs. split; [exact X|].
  intros F i L. apply AF in F. destruct F as (_ & _ & A).
  destruct (nth_error xs i) as [x|] eqn:E; [|apply nth_error_None in E; lia].
  destruct (A i x E) as ((V & _) & _).
  destruct (Nat.lt_ge_cases (reply_offset g xs i) (length ws)) as [H|H]; [exact H|].
  rewrite nth_overflow in V by exact H. destruct (g_ver g); discriminate.
Qed.

(** C24 is false: a read of four words answered with one word and then nothing
    becomes readable, the missing words reading as 0. *)
Theorem C24_short_reply_refuted : exists g ls ws y,
  cfg_ok g /\ (forall o, In o (ncalls ls) -> op_ok o) /\
  nrun g init_net (ls ++ [NDispatch; NReply ws; NReturn]) = Some y /\ n_exc y = 0%nat /\
  (exists b, option_map (fun y => s_out (n_c y)) (nrun g init_net (ls ++ [NDispatch])) = Some [b] /\
             4 * N.of_nat (length ws) < reply_counter b) /\
  option_map vec_value (nth_error (s_heap (n_c y)) 0) = Some (Some [7; 0; 0; 0]).
Proof.
  eexists (mkCfg V2 1500 1500 None), [NOp (OReadBlock 0x10 4 true)], [0x200000F0; v_hdr READ 4 0 0; 7], _.
  split; [unfold cfg_ok; cbn; repeat split; try lia; discriminate|].
  split; [intros o [<-|[]]; cbn; lia|].
  split; [vm_compute; reflexivity|]. split; [reflexivity|]. split; [|reflexivity].
  eexists. split; [vm_compute; reflexivity|]. vm_compute. reflexivity.
Qed.

(** ... and a reply header announcing one word instead of four is accepted. *)
Theorem C24_word_count_refuted : exists g ls ws y,
  cfg_ok g /\ (forall o, In o (ncalls ls) -> op_ok o) /\
  nrun g init_net (ls ++ [NDispatch; NReply ws; NReturn]) = Some y /\ n_exc y = 0%nat /\
  word_count V2 (nth 1 ws 0) = 1 /\
  option_map vec_value (nth_error (s_heap (n_c y)) 0) = Some (Some [7; 8; 9; 10]).
Proof.
  eexists (mkCfg V2 1500 1500 None), [NOp (OReadBlock 0x10 4 true)],
    [0x200000F0; v_hdr READ 1 0 0; 7; 8; 9; 10], _.
  split; [unfold cfg_ok; cbn; repeat split; try lia; discriminate|].
  split; [intros o [<-|[]]; cbn; lia|].
  split; [vm_compute; reflexivity|]. split; [reflexivity|]. split; reflexivity.
Qed.

Lemma spec_header_info_v2 ty wc id : word_info V2 (spec_header V2 ty wc id 0xF) = 15.
Proof. unfold word_info, spec_header. change (2 ^ 4) with 16. lia. Qed.

(** C25 for IPbus 2.0: if the header of any transaction in the reply is the
    header that was sent, the reply is rejected; in particular the request
    itself, sent back, is. *)
Theorem C25_echo_rejected_v2 : forall g ls y b q ws y', cfg_ok g -> g_ver g = V2 ->
  (forall o, In o (ncalls ls) -> op_ok o) -> nrun g init_net ls = Some y -> s_out (n_c y) = b :: q ->
  nstep g y (NReply ws) = Some y' ->
  exists xs, packet g b xs /\
    ((exists i x, nth_error xs i = Some x /\ nth (reply_offset g xs i) ws 0 = hd 0 (wtx_words V2 x)) ->
     n_fail y' = true) /\
    (g_hub g = None -> ws = b_send b -> n_fail y' = true).
Proof.
  intros g ls y b q ws y' G V OK R O ST.
  assert (F0 : n_fail y = false) by (cbn [nstep] in ST; destruct (n_fail y); [discriminate|reflexivity]).
  destruct (C22_acceptance g ls y b q ws G OK R O F0) as (xs & z & X & ST' & AF & _).
  rewrite ST in ST'. injection ST' as <-. exists xs. split; [exact X|].
  assert (H : (exists i x, nth_error xs i = Some x /\ nth (reply_offset g xs i) ws 0 = hd 0 (wtx_words V2 x)) ->
     n_fail y' = true).
  { intros (i & x & E & H). destruct (n_fail y'); [reflexivity|]. exfalso.
    assert (A := proj1 AF eq_refl). destruct A as (_ & _ & A). destruct (A i x E) as (_ & _ & _ & I).
    destruct X as (_ & W & _). rewrite Forall_forall in W. specialize (W x (nth_error_In _ _ E)).
    destruct W as (T & _). rewrite H, V in I. rewrite V in T. unfold wtx_words in I.
    destruct (spec_type V2 (wt_type x)) as [ty|]; [|congruence]. cbn [hd] in I.
    rewrite spec_header_info_v2 in I. discriminate. }
  split; [exact H|]. intros HN E. apply H. destruct X as (N0 & W & pre & LP & S).
  rewrite HN in LP. destruct pre; [|discriminate]. rewrite V in S.
  destruct xs as [|x xs]; [congruence|]. exists 0%nat, x. split; [reflexivity|].
  unfold reply_offset, hub_words. rewrite HN, V. cbn [firstn fold_right plus length packet_header].
  rewrite E, S. cbn [app packet_header flat_map]. inversion W as [|? ? (T & _) _]; subst.
  rewrite V in T. unfold wtx_words. destruct (spec_type V2 (wt_type x)); [reflexivity|congruence].
Qed.

(** C25 is false for IPbus 1.3: the client accepts its own request as the reply;
    a read then "returns" the address. *)
Theorem C25_echo_accepted_v1_refuted : exists g ls ws y b,
  g_ver g = V1 /\ cfg_ok g /\ (forall o, In o (ncalls ls) -> op_ok o) /\
  option_map (fun y => s_out (n_c y)) (nrun g init_net (ls ++ [NDispatch])) = Some [b] /\ ws = b_send b /\
  nrun g init_net (ls ++ [NDispatch; NReply ws; NReturn]) = Some y /\ n_exc y = 0%nat /\
  option_map word_value (nth_error (s_heap (n_c y)) 0) = Some (Some 0xCAFE).
Proof.
  eexists (mkCfg V1 1500 1500 None), [NOp (ORead 0xCAFE 0xFFFFFFFF)], _, _, _.
  split; [reflexivity|]. split; [unfold cfg_ok; cbn; repeat split; try lia; discriminate|].
  split; [intros o [<-|[]]; exact I|].
  split; [vm_compute; reflexivity|]. split; [reflexivity|].
  split; [vm_compute; reflexivity|]. split; reflexivity.
Qed.

(** C56: replies through a ControlHub. *)
Theorem C56_hub_replies : forall g ip port ls y b q ws y', cfg_ok g -> g_hub g = Some (ip, port) ->
  (forall o, In o (ncalls ls) -> op_ok o) -> nrun g init_net ls = Some y -> s_out (n_c y) = b :: q ->
  nstep g y (NReply ws) = Some y' ->
  let verdict := snd (receive_packet g (s_heap (n_c y)) b ws) in
  let here := nth 1 ws 0 = ip /\ nth 2 ws 0 mod 65536 = port in
  exists xs, packet g b xs /\
    (n_fail y' = false <-> here /\ hub_code ws = 0 /\
       (g_ver g = V2 -> nth 3 ws 0 = 0x200000F0) /\
       forall i x, nth_error xs i = Some x -> header_matches (g_ver g) x (nth (reply_offset g xs i) ws 0)) /\
    (~ here -> verdict = VErr VHubAddress) /\
    (here -> In (hub_code ws) [1; 3; 4] -> verdict = VErr VHubTimeout) /\
    (here -> ~ In (hub_code ws) [0; 1; 3; 4] -> verdict = VErr VHubError).
Proof.
  intros g ip port ls y b q ws y' G H OK R O ST verdict here.
  assert (F0 : n_fail y = false) by (cbn [nstep] in ST; destruct (n_fail y); [discriminate|reflexivity]).
  destruct (C22_acceptance g ls y b q ws G OK R O F0) as (xs & z & X & ST' & AF & (r & PF & RV) & _).
  rewrite ST in ST'. injection ST' as <-. exists xs. split; [exact X|]. fold verdict in RV. rewrite RV.
  split; [|split; [|split]].
  - rewrite AF. unfold answers, here. rewrite H.
    assert (HW : hub_words g = 3%nat) by (unfold hub_words; rewrite H; reflexivity). rewrite HW. split.
    + intros (A & B & C). destruct (A ip port eq_refl) as (A1 & A2 & A3).
      split; [auto|]. split; [exact A3|]. split; [|exact C]. intros V. specialize (B V). injection B as B. exact B.
    + intros ((A1 & A2) & A3 & B & C). split; [intros i p E; injection E as <- <-; auto|].
      split; [|exact C]. intros V. rewrite (B V). reflexivity.
  - intros N0. unfold here in N0. destruct PF as [i p E C|i p E C1 C2 C3|A V B|r' A V F]; [reflexivity| | |];
      exfalso; apply N0.
    + rewrite H in E. injection E as <- <-. auto.
    + destruct (A ip port H) as (A1 & A2 & _). auto.
    + destruct (A ip port H) as (A1 & A2 & _). auto.
  - intros (A1 & A2) C. destruct PF as [i p E C'|i p E C1 C2 C3|A V B|r' A V F].
    + rewrite H in E. injection E as E1 E2. rewrite <- E1, <- E2 in C'. tauto.
    + cbn [In] in C. destruct C as [C|[C|[C|[]]]]; rewrite <- C; reflexivity.
    + destruct (A _ _ H) as (_ & _ & Z). cbn [In] in C. rewrite Z in C. lia.
    + destruct (A _ _ H) as (_ & _ & Z). cbn [In] in C. rewrite Z in C. lia.
  - intros (A1 & A2) C. destruct PF as [i p E C'|i p E C1 C2 C3|A V B|r' A V F].
    + rewrite H in E. injection E as E1 E2. rewrite <- E1, <- E2 in C'. tauto.
    + cbn [In] in C. replace ((hub_code ws =? 1) || (hub_code ws =? 3) || (hub_code ws =? 4)) with false; [reflexivity|].
      symmetry. lia.
    + destruct (A _ _ H) as (_ & _ & Z). destruct C. left. congruence.
    + destruct (A _ _ H) as (_ & _ & Z). destruct C. left. congruence.
Qed.

(** ** Cases *)
Definition hub_cfg : cfg := mkCfg V2 368 368 (Some (0x0100A8C0, 0x51C3)).
Definition hub_ls : list nlabel := [NOp (ORead 0x10 0xFFFFFFFF); NDispatch].
Definition hub_reply (code : N) : list N :=
  [0x10000000; 0x0100A8C0; 0x51C3 + 65536 * (256 * code); 0x200000F0; v_hdr READ 1 0 0; 99].

Example C56_case_hyps : cfg_ok hub_cfg /\ (forall o, In o (ncalls hub_ls) -> op_ok o).
Proof.
  split; [unfold cfg_ok; cbn; repeat split; try lia; discriminate|].
  intros o [<-|[]]; exact I.
Qed.
Example C56_case : forall code, In code [0; 1; 2; 4] ->
  option_map (fun y => (map word_value (s_heap (n_c y)), n_fail y))
    (nrun hub_cfg init_net (hub_ls ++ [NReply (hub_reply code)])) =
  Some ([if code =? 0 then Some 99 else None], negb (code =? 0)) /\ hub_code (hub_reply code) = code.
Proof. intros code [<-|[<-|[<-|[<-|[]]]]]; vm_compute; split; reflexivity. Qed.

Example C25_case : exists y b y', nrun vcfg init_net (v_ls ++ [NDispatch]) = Some y /\
  nth_error (s_out (n_c y)) 0 = Some b /\ nstep vcfg y (NReply (b_send b)) = Some y' /\ n_fail y' = true.
Proof. eexists _, _, _. split; [vm_compute; reflexivity|]. split; [reflexivity|]. split; vm_compute; reflexivity. Qed.

Example C24_case : exists y b q y', nrun vcfg init_net v_ls = Some y /\ s_out (n_c y) = b :: q /\
  nstep vcfg y (NReply v_reply0) = Some y' /\ n_fail y' = false.
Proof. eexists _, _, _, _. split; [vm_compute; reflexivity|]. split; [reflexivity|]. split; vm_compute; reflexivity. Qed.

Print Assumptions C24_headers_present_partial.
Print Assumptions C24_short_reply_refuted.
Print Assumptions C24_word_count_refuted.
Print Assumptions C25_echo_rejected_v2.
Print Assumptions C25_echo_accepted_v1_refuted.
Print Assumptions C56_hub_replies.
