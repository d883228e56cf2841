(** C94: the same through PCIe or mmap.  Several clients of the library share the page
    ring of a board, and poll it.  There is one history of accesses to registers, and
    each user sees the results as if its calls had been carried out in it, one after
    the other. *)
From Verif Require Import Word Bits Header ValMem Client Validate Target Spec AtomicSpec System TargetRm Tx E2E Devices.
From Verif Require Import Shared SharedSpec E2ECor Prop_E2E Prop_Shared FullSim.
From Verif Require Import Ring RingSpec RingProofs RingProofs2 Board BoardSpec BoardProofs.
From Coq Require Import NArith ZArith List Lia Bool PeanoNat ZifyBool ZifyNat ZifyN.
Import ListNotations.
Open Scope N_scope.
Ltac Zify.zify_post_hook ::= idtac.

Lemma board_sim : forall D rd wr cf r g k n a rep req page d0 ls B,
  0 < r_pages r -> r_pages r < 2 ^ 32 -> (forall p, r_intr r p = false) ->
  (forall p, board_client (g p)) -> (forall p, Forall op_ok (calls (board_user p ls))) ->
  tidy (fun _ => false) (ring_of ls) -> nstarts (ring_of ls) < 2 ^ 64 ->
  brun D rd wr cf r g (init_board D (init_ring k n a rep) req page d0) ls = Some B ->
  BoardProofs.Sim D rd wr cf r g d0 B (fun q => board_user q ls).
Proof.
  intros D rd wr cf r g k n a rep req page d0 ls B Hn Hb HI G FO TI NS R.
  apply (inv_run D rd wr cf r g G Hn Hb HI d0 n k ls (init_board D (init_ring k n a rep) req page d0) (fun _ => []) (fun _ => false) B); auto.
  - exists [], (init_shared D d0). split; [reflexivity|]. split; [reflexivity|]. intros p.
    split; cbn; rewrite ?skipn_nil, ?firstn_nil; auto; try (intros [|i]; discriminate).
  - apply linv_init.
  - intros X. contradiction X. reflexivity.
  - cbn [init_board bo_ring init_ring y_count]. lia.
Qed.

(** [h]: the accesses to the registers, each with the client that caused it; what
    [ws] gives are the words read.  The target is left in the state [h] leads to.
    No client meets an error.  The accesses of client [p] are those its calls make,
    one after the other, if the reads give the words of [ws]; when dispatch() has
    returned all of them have been made, and the memory of the user is as it is
    after the calls. *)
Theorem C94_board_partial : forall D rd wr cf r g k n a rep req page d0 ls B,
  0 < r_pages r -> r_pages r < 2 ^ 32 -> (forall p, r_intr r p = false) ->
  (forall p, board_client (g p)) -> (forall p, Forall op_ok (calls (board_user p ls))) ->
  tidy (fun _ => false) (ring_of ls) -> nstarts (ring_of ls) < 2 ^ 64 ->
  brun D rd wr cf r g (init_board D (init_ring k n a rep) req page d0) ls = Some B ->
  exists h, let (d, ws) := lived D rd wr cf d0 h in
    d = bo_dev D B /\
    forall p, let c := bo_c D B p in
      let o := atomic told told_rd told_wr told_cf told_rm V2 (of_client p ws, []) (calls (board_user p ls)) in
      bc_bad c = false /\
      (exists more, snd (fst o) = of_client p h ++ more) /\
      (forall ms, board_user p ls = ms ++ [LReturn] -> o = (([], of_client p h), s_heap (bc_st c))).
Proof.
  intros D rd wr cf r g k n a rep req page d0 ls B Hn Hb HI G FO TI NS R.
  destruct (board_sim D rd wr cf r g k n a rep req page d0 ls B Hn Hb HI G FO TI NS R) as (ls' & s & SR & SD & C).
  assert (CS : forall p, calls (steps_of p ls') = calls (board_user p ls)).
  { intros p. rewrite <- calls_users. f_equal. apply (C p). }
  destruct (C91_shared D rd wr cf g _ ls' s (fun p => proj1 (G p)) (fun p => eq_ind_r (Forall op_ok) (FO p) (CS p)) SR) as (h & HH).
  exists h. destruct (lived D rd wr cf _ h) as (d, ws). destruct HH as (HD & HH). split; [rewrite HD; exact SD|].
  intros p. specialize (HH p). cbn zeta in HH. destruct (G p) as (_ & V & _). rewrite V, CS in HH. destruct HH as (Y & P & E).
  destruct (C p) as [K1 K2 K3 K4 K5 K6 K7 K8 K9 K10]. cbn zeta. split; [rewrite <- K8; exact Y|]. split; [exact P|].
  intros ms U. destruct (K10 ms U) as (_ & _ & _ & ms' & S'). rewrite (E ms' S'), K3. reflexivity.
Qed.

(** Additions of many users to one register of a memory: none is lost. *)
Lemma total_board a ps ls : NoDup ps -> (forall p, ~ In p ps -> board_user p ls = []) ->
  total ps (fun p => adds a (calls (board_user p ls))) = adds a (board_calls ls).
Proof.
  intros ND. induction ls as [|l ls IH]; intros H.
  - cbn. clear. induction ps as [|p ps IH]; [reflexivity|]. exact IH.
  - assert (H' : forall p, ~ In p ps -> board_user p ls = []).
    { intros p NP. specialize (H p NP). unfold board_user in *. cbn [flat_map] in H. apply app_eq_nil in H. apply H. }
    specialize (IH H').
    assert (X : forall q, board_user q (l :: ls) = board_user q [l] ++ board_user q ls) by (intros; unfold board_user; cbn [flat_map]; rewrite app_nil_r; reflexivity).
    assert (SK : (forall q, calls (board_user q [l]) = []) -> board_calls (l :: ls) = board_calls ls -> total ps (fun p => adds a (calls (board_user p (l :: ls)))) = adds a (board_calls (l :: ls))).
    { intros C A. rewrite A, <- IH. clear - X C. induction ps as [|p ps IH]; [reflexivity|]. cbn [total fold_right] in *. rewrite (X p), calls_app, C. cbn [app]. f_equal. exact IH. }
    destruct l as [p o|p|p|w]; try (apply SK; [intros q; unfold board_user; cbn; try destruct (Nat.eqb _ q); reflexivity|reflexivity]).
    assert (IP : In p ps). { destruct (in_dec Nat.eq_dec p ps) as [|NP]; [assumption|]. specialize (H p NP). unfold board_user in H. cbn [flat_map] in H. rewrite Nat.eqb_refl in H. discriminate. }
    change (board_calls (BOp p o :: ls)) with (o :: board_calls ls).
    replace (adds a (o :: board_calls ls)) with (adds a [o] + adds a (board_calls ls)) by (cbn [adds fold_right]; destruct o; try reflexivity; rewrite N.add_0_r; reflexivity).
    rewrite <- IH. apply (total_at ps p); trivial.
    + intros q NE. rewrite X. unfold board_user at 1. cbn [flat_map]. apply Nat.eqb_neq in NE. rewrite Nat.eqb_sym in NE. rewrite NE. reflexivity.
    + rewrite X. unfold board_user at 1. cbn [flat_map]. rewrite Nat.eqb_refl. cbn [app calls adds fold_right]. destruct o; try reflexivity. rewrite N.add_0_r. reflexivity.
Qed.
Theorem C94_no_lost_update_partial : forall r g k n a rep req page d0 ls B x,
  0 < r_pages r -> r_pages r < 2 ^ 32 -> (forall p, r_intr r p = false) ->
  (forall p, board_client (g p)) -> (forall p, Forall op_ok (calls (board_user p ls))) ->
  tidy (fun _ => false) (ring_of ls) -> nstarts (ring_of ls) < 2 ^ 64 ->
  brun mem mem_rd mem_wr mem_cf r g (init_board mem (init_ring k n a rep) req page d0) ls = Some B ->
  (forall p, board_user p ls = [] \/ exists ms, board_user p ls = ms ++ [LReturn]) ->
  Forall (only_adds x) (board_calls ls) -> d0 x < 2 ^ 32 ->
  bo_dev mem B x = (d0 x + adds x (board_calls ls)) mod 2 ^ 32.
Proof.
  intros r g k n a rep req page d0 ls B x Hn Hb HI G FO TI NS R E OA V.
  destruct (board_sim mem mem_rd mem_wr mem_cf r g k n a rep req page d0 ls B Hn Hb HI G FO TI NS R) as (ls' & s & SR & SD & C).
  assert (CS : forall p, calls (steps_of p ls') = calls (board_user p ls)).
  { intros p. rewrite <- calls_users. f_equal. apply (C p). }
  assert (OP : forall p, Forall (only_adds x) (calls (board_user p ls))).
  { intros p. clear - OA. induction ls as [|l ls IH]; [constructor|]. unfold board_calls in OA. cbn [flat_map] in OA. apply Forall_app in OA. destruct OA as (O1 & O2). specialize (IH O2).
    unfold board_user. cbn [flat_map]. fold (board_user p ls). rewrite calls_app. apply Forall_app. split; [|exact IH]. destruct l; try constructor; destruct (Nat.eqb _ p); try constructor; cbn [calls] in *; inversion O1; subst; auto. }
  destruct (C91_shared mem mem_rd mem_wr mem_cf g d0 ls' s (fun p => proj1 (G p)) (fun p => eq_ind_r (Forall op_ok) (FO p) (CS p)) SR) as (h & HH).
  set (ps := nodup Nat.eq_dec (flat_map (fun l => match l with BOp q _ | BDispatch q | BReturn q => [q] | _ => [] end) ls)).
  assert (ND : NoDup ps) by apply NoDup_nodup.
  assert (NI : forall p, ~ In p ps -> board_user p ls = []).
  { intros p NP. unfold ps in NP. rewrite nodup_In in NP. clear - NP. induction ls as [|l ls IH]; [reflexivity|]. cbn [flat_map board_user] in *. fold (board_user p ls). rewrite in_app_iff in NP. rewrite IH by tauto. rewrite app_nil_r.
    destruct l as [q o|q|q|w]; try reflexivity; destruct (Nat.eqb_spec q p) as [->|NE]; try reflexivity; destruct NP; left; left; reflexivity. }
  clearbody ps.
  assert (LT := lived_total x ps h ND d0). destruct (lived mem mem_rd mem_wr mem_cf d0 h) as (d, ws). cbn [fst snd] in LT. destruct HH as (HD & HH).
  assert (Q : forall p, of_client p h = [] /\ calls (board_user p ls) = [] \/ Forall (harmless x) (of_client p h) /\ Prop_Shared.eqm (gains x (of_client p h) (of_client p ws)) (adds x (calls (board_user p ls)))).
  { intros p. destruct (HH p) as (_ & (more & M) & K). rewrite CS in M, K. destruct (E p) as [Z|(ms & Z)].
    - left. rewrite Z in M. cbn in M. split; [|rewrite Z; reflexivity]. destruct (of_client p h); [reflexivity|discriminate].
    - right. destruct (k_ret _ _ _ _ _ _ _ (C p) ms Z) as (_ & _ & _ & ms' & S'). specialize (K ms' S'). destruct (ops_effect x (g_ver (g p)) _ (of_client p ws, []) (OP p)) as (l & A & Z1 & Z2 & J). rewrite K in A. cbn [fst snd app] in *. subst l. auto. }
  destruct LT as (V2 & LT); [|exact V|].
  - intros (p, u) I. apply of_client_in in I as J. cbn [fst snd]. destruct (Q p) as [(Z & _)|(HF & _)]; [rewrite Z in J; destruct J|]. split; [|rewrite Forall_forall in HF; apply HF; exact J].
    destruct (in_dec Nat.eq_dec p ps) as [|NP]; [assumption|]. exfalso. destruct (HH p) as (_ & (more & M) & _). rewrite CS, (NI p NP) in M. cbn in M. destruct (of_client p h); [destruct J|discriminate].
  - rewrite <- SD, <- HD, <- (N.mod_small _ _ V2). unfold Prop_Shared.eqm in LT. rewrite LT. apply Prop_Shared.eqm_add; [reflexivity|]. rewrite <- (total_board x ps ls ND NI).
    apply total_eqm. intros p _. destruct (Q p) as [(Z & Z2)|(_ & J)]; [rewrite Z, Z2; reflexivity|exact J].
Qed.

(** Two users of a ring of two pages add to register 7; client 0 also writes a block
    that takes three packets, and must read a reply before it can write the third. *)
Definition ring2 : rcfg := mkR RMmap 2 1 false (fun _ => false) (fun _ => 0).
Definition bcfg (p : nat) : cfg := mkCfg V2 48 48 None.
Definition rl (ls : list rlab) : list blabel := map BRing ls.
Definition bday : list blabel :=
  [BOp 0 (ORmwSum 7 5); BOp 1 (ORmwSum 7 100); BDispatch 1] ++
  rl [LConn 0; LDispatch 1 0; LConn 1; LGo 1; LLock 1; LStart 1; LWrite 1] ++
  [BOp 0 (OWriteBlock 200 [1; 2; 3; 4; 5; 6; 7; 8; 9; 10; 11; 12; 13; 14; 15; 16; 17] true)] ++
  rl [LFlush 1; LDispatch 0 0; LGo 0; LPub; LPoll 1; LRead 1; LUnlock 1; LEnd 1] ++ [BReturn 1] ++
  rl [LLock 0; LStart 0; LWrite 0; LDispatch 0 0; LGo 0; LWrite 0] ++ [BOp 0 (OReadBlock 5 3 true); BOp 1 (ORmwSum 7 2000); BDispatch 1] ++
  rl [LPub; LDispatch 1 0; LGo 1] ++ [BDispatch 0] ++
  rl [LDispatch 0 0; LGo 0; LPoll 0; LRead 0; LPub; LWrite 0; LFlush 0; LPoll 0; LRead 0; LPub; LPoll 0; LRead 0; LUnlock 0; LEnd 0] ++ [BReturn 0] ++
  rl [LLock 1; LStart 1; LWrite 1; LPub; LFlush 1; LPoll 1; LRead 1; LUnlock 1; LEnd 1] ++ [BReturn 1].
Definition bday_end := brun mem mem_rd mem_wr mem_cf ring2 bcfg (init_board mem (init_ring 7 5 false (fun _ => None)) (fun _ => [3; 4]) (fun _ => [1; 2]) (fun a => 1000 + a)) bday.
Example C94_case :
  option_map (fun B => (map (bo_dev mem B) [7; 200; 216], s_heap (bc_st (bo_c mem B 0%nat)), s_heap (bc_st (bo_c mem B 1%nat)))) bday_end =
  Some ([3112; 1; 17], [CWord true 1107 0xFFFFFFFF; CHdr true; CVec true [1005; 1006; 1112]], [CWord true 1007 0xFFFFFFFF; CWord true 1112 0xFFFFFFFF]) /\
  (1007 + adds 7 (board_calls bday)) mod 2 ^ 32 = 3112.
Proof. vm_compute. split; reflexivity. Qed.
Example C94_case_hyps :
  (forall p, board_client (bcfg p)) /\ (forall p, Forall op_ok (calls (board_user p bday))) /\
  tidy (fun _ => false) (ring_of bday) /\ nstarts (ring_of bday) = 3 /\
  (forall p, board_user p bday = [] \/ exists ms, board_user p bday = ms ++ [LReturn]) /\ Forall (only_adds 7) (board_calls bday).
Proof.
  split; [intros p; split; [unfold cfg_ok; cbn; repeat split; try lia; discriminate|split; reflexivity]|].
  split; [intros [|[|p]]; repeat constructor; cbn; lia|].
  split; [vm_compute; tauto|]. split; [reflexivity|].
  split; [intros [|[|p]]; [right|right|left; reflexivity]|].
  - exists (removelast (board_user 0 bday)). reflexivity.
  - exists (removelast (board_user 1 bday)). reflexivity.
  - repeat constructor. vm_compute. intuition discriminate.
Qed.

(** In interrupt mode it is false: in a ring of one page a user adds 5 to register 7
    twice.  The second time the client does not wait, and takes the page with the
    reply to the first packet for the reply to the second; the user gets an exception
    although nothing went wrong. *)
Definition ring1 : rcfg := mkR RPCIe 1 0 true (fun _ => true) (fun _ => 0).
Definition one_add : list blabel := [BOp 0 (ORmwSum 7 5); BDispatch 0] ++ rl [LDispatch 0 0].
Definition mem0 : mem := fun a => 1000 + a.
Definition bintr : list blabel :=
  one_add ++ rl [LConn 0; LGo 0; LLock 0; LStart 0; LWrite 0; LPub; LFlush 0; LPoll 0; LRead 0; LUnlock 0; LEnd 0] ++ [BReturn 0] ++
  one_add ++ rl [LGo 0; LLock 0; LStart 0; LWrite 0; LFlush 0; LRead 0].
Theorem C94_interrupt_refuted : exists D rd wr cf r g k n a rep req page d0 ls B,
  0 < r_pages r /\ r_pages r < 2 ^ 32 /\ (forall p, r_intr r p = true) /\
  (forall p, board_client (g p)) /\ (forall p, Forall op_ok (calls (board_user p ls))) /\
  tidy (fun _ => false) (ring_of ls) /\ nstarts (ring_of ls) < 2 ^ 64 /\
  brun D rd wr cf r g (init_board D (init_ring k n a rep) req page d0) ls = Some B /\
  bc_bad (bo_c D B 0%nat) = true.
Proof.
  exists mem, mem_rd, mem_wr, mem_cf, ring1, bcfg, 0, 0, false, (fun _ => None), (fun _ => []), (fun _ => []), mem0, bintr.
  assert (X : option_map (fun B => bc_bad (bo_c mem B 0%nat)) (brun mem mem_rd mem_wr mem_cf ring1 bcfg (init_board mem (init_ring 0 0 false (fun _ => None)) (fun _ => []) (fun _ => []) mem0) bintr) = Some true) by (vm_compute; reflexivity).
  destruct (brun _ _ _ _ _ _ _ bintr) as [B|]; [|discriminate]. exists B. injection X as X.
  split; [reflexivity|]. split; [reflexivity|]. split; [reflexivity|]. split; [apply C94_case_hyps|].
  split; [intros [|p]; repeat constructor|]. split; [vm_compute; tauto|]. split; [reflexivity|]. split; [reflexivity|exact X].
Qed.

(** It is false if a session begins between unlock and endSession of another client.
    Client 1 begins one then; client 2 connects without noticing it, with an index and
    a count that are out of date.  It later writes its request to the page of client
    1's, does not wait, and takes the reply of client 1 for its own: the user of client
    2 asked for register 9 and gets the value of register 5.  There is no error. *)
Definition ring4 : rcfg := mkR RPCIe 4 0 false (fun _ => false) (fun _ => 0).
Definition begins (p : nat) : list rlab := [LDispatch p 0; LGo p; LLock p; LStart p; LWrite p].
Definition brace : list blabel :=
  [BOp 0 (Client.ORead 3 0xFFFFFFFF); BDispatch 0; BOp 1 (Client.ORead 5 0xFFFFFFFF); BDispatch 1] ++
  rl ([LConn 0; LConn 1] ++ begins 0 ++ [LPub; LFlush 0; LPoll 0; LRead 0; LUnlock 0] ++ begins 1 ++ [LEnd 0; LConn 2; LPub; LFlush 1; LPoll 1; LRead 1; LUnlock 1; LEnd 1]) ++
  [BReturn 0; BReturn 1; BOp 2 (Client.ORead 9 0xFFFFFFFF); BDispatch 2] ++
  rl (begins 2 ++ [LFlush 2; LPoll 2; LRead 2; LUnlock 2; LEnd 2]) ++ [BReturn 2].
(** Reads alone: each gives what the memory has. *)
Lemma lived_reads (d : mem) h : Forall (fun e => exists a, snd e = URead a) h ->
  snd (lived mem mem_rd mem_wr mem_cf d h) = map (fun e => (fst e, match snd e with URead a => d a | _ => 0 end)) h.
Proof.
  induction h as [|(p, u) h IH]; intros F; [reflexivity|]. inversion F as [|? ? (a & E) F']; subst. cbn [snd] in E. subst u. cbn [lived make mem_rd].
  specialize (IH F'). destruct (lived mem mem_rd mem_wr mem_cf d h) as (d2, rs). cbn [snd fst map app] in *. rewrite IH. reflexivity.
Qed.
Lemma of_client_map {A C} p (f : nat * A -> C) h : of_client p (map (fun e => (fst e, f e)) h) = map (fun x => f (p, x)) (of_client p h).
Proof.
  unfold of_client. induction h as [|(q, x) h IH]; [reflexivity|]. cbn [map filter fst]. destruct (Nat.eqb_spec q p) as [->|NE]; cbn [map snd]; rewrite ?IH; reflexivity.
Qed.
Theorem C94_race_refuted : exists D rd wr cf r g k n a rep req page d0 ls B,
  0 < r_pages r /\ r_pages r < 2 ^ 32 /\ (forall p, r_intr r p = false) /\
  (forall p, board_client (g p)) /\ (forall p, Forall op_ok (calls (board_user p ls))) /\
  nstarts (ring_of ls) < 2 ^ 64 /\
  brun D rd wr cf r g (init_board D (init_ring k n a rep) req page d0) ls = Some B /\
  (forall p, In p [0; 1; 2]%nat -> bc_bad (bo_c D B p) = false) /\
  ~ exists h, let (d, ws) := lived D rd wr cf d0 h in
    forall p, let c := bo_c D B p in
      let o := atomic told told_rd told_wr told_cf told_rm V2 (of_client p ws, []) (calls (board_user p ls)) in
      (exists more, snd (fst o) = of_client p h ++ more) /\
      (forall ms, board_user p ls = ms ++ [LReturn] -> o = (([], of_client p h), s_heap (bc_st c))).
Proof.
  assert (X : option_map (fun B => (map (fun p => bc_bad (bo_c mem B p)) [0; 1; 2]%nat, s_heap (bc_st (bo_c mem B 2%nat)))) (brun mem mem_rd mem_wr mem_cf ring4 bcfg (init_board mem (init_ring 0 0 false (fun _ => None)) (fun _ => []) (fun _ => []) mem0) brace) = Some ([false; false; false], [CWord true 1005 0xFFFFFFFF])) by (vm_compute; reflexivity).
  exists mem, mem_rd, mem_wr, mem_cf, ring4, bcfg, 0, 0, false, (fun _ => None), (fun _ => []), (fun _ => []), mem0, brace.
  destruct (brun _ _ _ _ _ _ _ brace) as [B|]; [|discriminate]. exists B. cbn [option_map map] in X. injection X as X0 X1 X2 XH.
  split; [reflexivity|]. split; [reflexivity|]. split; [reflexivity|]. split; [apply C94_case_hyps|].
  split; [intros [|[|[|p]]]; repeat constructor|]. split; [reflexivity|]. split; [reflexivity|].
  split; [intros p [<-|[<-|[<-|[]]]]; assumption|].
  intros (h & HH). destruct (lived mem mem_rd mem_wr mem_cf mem0 h) as (d, ws) eqn:L.
  assert (RD : forall p u, In u (of_client p h) -> exists a, u = URead a).
  { intros p u I. destruct (HH p) as ((more & M) & _). assert (J : In u (of_client p h ++ more)) by (apply in_or_app; left; exact I). rewrite <- M in J. clear - J.
    destruct p as [|[|[|p]]]; cbn in J; intuition eauto. }
  assert (F : Forall (fun e => exists a, snd e = URead a) h).
  { apply Forall_forall. intros (p, u) I. apply of_client_in in I. cbn [snd]. exact (RD p u I). }
  assert (W := lived_reads mem0 h F). rewrite L in W. cbn [snd] in W.
  destruct (HH 2%nat) as (_ & Z). specialize (Z [LOp (Client.ORead 9 0xFFFFFFFF); System.LDispatch] eq_refl). rewrite XH in Z.
  assert (Q : of_client 2 h = [URead 9]) by (cbn in Z; inversion Z; reflexivity).
  rewrite W, of_client_map, Q in Z. cbn in Z. discriminate.
Qed.

Print Assumptions C94_board_partial.
Print Assumptions C94_no_lost_update_partial.
Print Assumptions C94_interrupt_refuted.
Print Assumptions C94_race_refuted.
