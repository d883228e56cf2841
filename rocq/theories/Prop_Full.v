(** C92: the whole of it.  Clients of the library talk over TCP to a ControlHub, which
    talks to a target over a network that loses, delays, repeats and reorders
    datagrams.  There is one history of accesses to registers, and each user sees
    the results as if its calls had been carried out in it, one after the other. *)
From Verif Require Import Word Bits Header ValMem Client Validate Target Spec System.
From Verif Require Tcp.
From Verif Require Import AtomicSpec TargetRm Devices Tx E2E Shared SharedSpec E2ECor Prop_E2E Prop_Shared.
From Verif Require Import Hub HubSpec HubProofs HubInv HubAsk HubSafe Manager ManSpec Prop_Hub Prop_Manager CHub CHubSpec Prop_CHub Full FullSpec FullWords FullBytes FullSim FullProofs.
From Verif Require Import SharedSpec.
From Coq Require Import NArith ZArith List Lia Bool PeanoNat ZifyBool ZifyNat ZifyN.
Import ListNotations.
Open Scope N_scope.

(** [h]: the accesses to the registers, each with the client that caused it; what
    [ws] gives are the words read.  The target is left in the state [h] leads to.
    No client meets an error as long as the device client has not given up.  The
    accesses of client [p] are those its calls make, one after the other, if the
    reads give the words of [ws]; when dispatch() has returned (no exception) all of
    them have been made, and the memory of the user is as it is after the calls,
    even if the device client has given up. *)
Theorem C92_full : forall D rd wr cf depth absmax lag t allow g W0 ls F tr,
  reads32 rd -> reads32 cf -> good_target t -> allow t = true ->
  (1 <= depth)%nat -> (1 <= absmax)%nat -> N.of_nat (lag + window depth absmax + depth) < 65534 ->
  (forall p, hub_client t (g p)) -> begun false depth W0 ->
  (forall p, Forall op_ok (calls (user_of p ls))) -> (forall p, Forall op_words (calls (user_of p ls))) ->
  frun D rd wr cf depth absmax t allow g (init_full D W0) ls = Some (F, tr) ->
  along (Hub.step D (dev_exec D rd wr cf) false depth absmax) (prompt false lag) (c_hub D W0) (hub_labels tr) ->
  exists h, let (d, ws) := lived D rd wr cf (v_d _ (w_dev D (c_hub D W0))) h in
    d = v_d _ (w_dev D (c_hub D (f_w D F))) /\
    forall p, let c := f_c D F p in
      let o := atomic told told_rd told_wr told_cf told_rm V2 (of_client p ws, []) (calls (user_of p ls)) in
      (h_mode (w_hub D (c_hub D (f_w D F))) <> MDead -> fc_bad c = false) /\
      (exists more, snd (fst o) = of_client p h ++ more) /\
      (forall ms, user_of p ls = ms ++ [LReturn] -> fc_bad c = false /\ o = (([], of_client p h), s_heap (fc_st c))).
Proof.
  intros D rd wr cf depth absmax lag t allow g W0 ls F tr RD CF T AL D1 A1 LAG H BG FO FW R PR.
  destruct (inv_run D rd wr cf depth absmax lag t allow g RD CF T AL D1 A1 LAG H W0 ls F tr BG FO FW R PR) as (wls & F0 & _ & _ & (ls' & s & SR & SD & C) & GH & LV).
  assert (CS : forall p, calls (steps_of p ls') = calls (user_of p ls)).
  { intros p. destruct (C p) as (? & ? & ? & ? & ? & X). rewrite <- calls_users. f_equal. apply X. }
  destruct (C91_shared D rd wr cf g _ ls' s (fun p => proj1 (H p)) (fun p => eq_ind_r (Forall op_ok) (FO p) (CS p)) SR) as (h & HH).
  exists h. destruct (lived D rd wr cf _ h) as (d, ws). destruct HH as (HD & HH). split; [rewrite HD; exact SD|].
  intros p. specialize (HH p). cbn zeta in HH. destruct (H p) as (_ & V & _ & _). rewrite V, CS in HH. destruct HH as (B & P & E).
  destruct (C p) as (? & ? & ? & ? & ? & _ & _ & _ & _ & _ & _ & _ & Y & _ & _ & YB & _ & _ & _ & _ & Z). cbn zeta. split; [intros L; exact (LV L p)|]. split; [exact P|].
  intros ms U. destruct (Z ms U) as (FE & _ & ms' & S'). destruct (GH p) as (G1 & G2). assert (NB : fc_bad (f_c D F p) = false) by (destruct (fc_bad (f_c D F p)); [destruct (G2 eq_refl FE)|reflexivity]).
  split; [exact NB|]. destruct (G1 NB) as (EF & _). rewrite (E ms' S'), Y, EF. reflexivity.
Qed.

(** Additions of many users to one register of a memory: none is lost, and none is
    made twice, whatever the network does. *)
Lemma total_calls a ps ls : NoDup ps -> (forall p, ~ In p ps -> user_of p ls = []) ->
  total ps (fun p => adds a (calls (user_of p ls))) = adds a (all_calls ls).
Proof.
  intros ND. induction ls as [|l ls IH]; intros H.
  - cbn. clear. induction ps as [|p ps IH]; [reflexivity|]. exact IH.
  - assert (H' : forall p, ~ In p ps -> user_of p ls = []).
    { intros p NP. specialize (H p NP). unfold user_of in *. cbn [flat_map] in H. apply app_eq_nil in H. apply H. }
    specialize (IH H').
    assert (X : forall q, user_of q (l :: ls) = user_of q [l] ++ user_of q ls) by (intros; unfold user_of; cbn [flat_map]; rewrite app_nil_r; reflexivity).
    assert (SK : (forall q, calls (user_of q [l]) = []) -> all_calls (l :: ls) = all_calls ls -> total ps (fun p => adds a (calls (user_of p (l :: ls)))) = adds a (all_calls (l :: ls))).
    { intros C A. rewrite A, <- IH. clear - X C. induction ps as [|p ps IH]; [reflexivity|]. cbn [total fold_right] in *. rewrite (X p), calls_app, C. cbn [app]. f_equal. exact IH. }
    destruct l as [p o|p|p|p k|p|w]; try (apply SK; [intros q; unfold user_of; cbn; try destruct (Nat.eqb _ q); reflexivity|reflexivity]).
    assert (IP : In p ps). { destruct (in_dec Nat.eq_dec p ps) as [|NP]; [assumption|]. specialize (H p NP). unfold user_of in H. cbn [flat_map] in H. rewrite Nat.eqb_refl in H. discriminate. }
    change (all_calls (FOp p o :: ls)) with (o :: all_calls ls).
    replace (adds a (o :: all_calls ls)) with (adds a [o] + adds a (all_calls ls)) by (cbn [adds fold_right]; destruct o; try reflexivity; rewrite N.add_0_r; reflexivity).
    rewrite <- IH. apply (total_at ps p); trivial.
    + intros q NE. rewrite X. unfold user_of at 1. cbn [flat_map]. apply Nat.eqb_neq in NE. rewrite Nat.eqb_sym in NE. rewrite NE. reflexivity.
    + rewrite X. unfold user_of at 1. cbn [flat_map]. rewrite Nat.eqb_refl. cbn [app calls adds fold_right]. destruct o; try reflexivity. rewrite N.add_0_r. reflexivity.
Qed.
Lemma users_in ls : exists ps, NoDup ps /\ forall p, ~ In p ps -> user_of p ls = [].
Proof.
  exists (nodup Nat.eq_dec (flat_map (fun l => match l with FOp q _ | FDispatch q | FReturn q => [q] | _ => [] end) ls)). split; [apply NoDup_nodup|].
  intros p NP. rewrite nodup_In in NP. induction ls as [|l ls IH]; [reflexivity|]. cbn [flat_map user_of] in *. fold (user_of p ls). rewrite in_app_iff in NP. rewrite IH by tauto. rewrite app_nil_r.
  destruct l as [q o|q|q|q k|q|w]; try reflexivity; destruct (Nat.eqb_spec q p) as [->|NE]; try reflexivity; destruct NP; left; left; reflexivity.
Qed.
(** The history leads to the same in the two kinds of memory. *)
Lemma lived_ram h : forall d d', (forall b, d' b = d b mod 2 ^ 32) ->
  snd (lived mem ram_rd mem_wr mem_cf d h) = snd (lived mem mem_rd mem_wr mem_cf d' h) /\
  forall b, fst (lived mem mem_rd mem_wr mem_cf d' h) b = fst (lived mem ram_rd mem_wr mem_cf d h) b mod 2 ^ 32.
Proof.
  induction h as [|(p, u) h IH]; intros d d' E; [split; [reflexivity|exact E]|].
  assert (M : snd (make mem ram_rd mem_wr mem_cf d u) = snd (make mem mem_rd mem_wr mem_cf d' u) /\
    forall b, fst (make mem mem_rd mem_wr mem_cf d' u) b = fst (make mem ram_rd mem_wr mem_cf d u) b mod 2 ^ 32).
  { destruct u as [b|b x|b|b x]; cbn [make ram_rd mem_rd mem_cf fst snd].
    - rewrite E. auto.
    - split; [reflexivity|]. intros c. unfold mem_wr. destruct (c =? b); [|apply E]. rewrite N.mod_mod by discriminate. reflexivity.
    - auto.
    - rewrite E. split; [reflexivity|]. intros c. unfold mem_wr. destruct (c =? b); [|apply E]. rewrite N.mod_mod by discriminate. reflexivity. }
  cbn [lived]. destruct (make mem ram_rd mem_wr mem_cf d u) as (d1, r1), (make mem mem_rd mem_wr mem_cf d' u) as (d1', r1'). cbn [fst snd] in M. destruct M as (<- & M).
  specialize (IH d1 d1' M). destruct (lived mem ram_rd mem_wr mem_cf d1 h) as (d2, rs), (lived mem mem_rd mem_wr mem_cf d1' h) as (d2', rs'). cbn [fst snd] in *. destruct IH as (<- & IH). auto.
Qed.
Theorem C92_no_lost_update : forall depth absmax lag t allow g W0 ls F tr a,
  good_target t -> allow t = true ->
  (1 <= depth)%nat -> (1 <= absmax)%nat -> N.of_nat (lag + window depth absmax + depth) < 65534 ->
  (forall p, hub_client t (g p)) -> begun false depth W0 ->
  (forall p, Forall op_ok (calls (user_of p ls))) -> (forall p, Forall op_words (calls (user_of p ls))) ->
  frun mem ram_rd mem_wr mem_cf depth absmax t allow g (init_full mem W0) ls = Some (F, tr) ->
  along (Hub.step mem (dev_exec mem ram_rd mem_wr mem_cf) false depth absmax) (prompt false lag) (c_hub mem W0) (hub_labels tr) ->
  (forall p, user_of p ls = [] \/ exists ms, user_of p ls = ms ++ [LReturn]) ->
  Forall (only_adds a) (all_calls ls) ->
  v_d _ (w_dev mem (c_hub mem (f_w mem F))) a mod 2 ^ 32 = (v_d _ (w_dev mem (c_hub mem W0)) a + adds a (all_calls ls)) mod 2 ^ 32.
Proof.
  intros depth absmax lag t allow g W0 ls F tr a T AL D1 A1 LAG H BG FO FW R PR E OA.
  destruct (C92_full mem ram_rd mem_wr mem_cf depth absmax lag t allow g W0 ls F tr) as (h & HH); trivial; [intros d b; cbn; apply N.mod_lt; discriminate|intros d b; reflexivity|].
  set (d0 := v_d _ (w_dev mem (c_hub mem W0))) in *. destruct (lived_ram h d0 (fun b => d0 b mod 2 ^ 32) (fun b => eq_refl)) as (EW & ED).
  destruct (users_in ls) as (ps & ND & NI).
  assert (LT := lived_total a ps h ND (fun b => d0 b mod 2 ^ 32)).
  destruct (lived mem ram_rd mem_wr mem_cf d0 h) as (d, ws). destruct HH as (HD & HH). cbn [fst snd] in *. rewrite <- EW, ED in LT. clear EW ED.
  assert (OP : forall p, Forall (only_adds a) (calls (user_of p ls))).
  { intros p. clear - OA. induction ls as [|l ls IH]; [constructor|]. unfold all_calls in OA. cbn [flat_map] in OA. apply Forall_app in OA. destruct OA as (O1 & O2). specialize (IH O2).
    unfold user_of. cbn [flat_map]. fold (user_of p ls). rewrite calls_app. apply Forall_app. split; [|exact IH]. destruct l; try constructor; destruct (Nat.eqb _ p); try constructor; cbn [calls] in *; inversion O1; subst; auto. }
  assert (Q : forall p, of_client p h = [] /\ calls (user_of p ls) = [] \/ Forall (harmless a) (of_client p h) /\ Prop_Shared.eqm (gains a (of_client p h) (of_client p ws)) (adds a (calls (user_of p ls)))).
  { intros p. destruct (HH p) as (_ & (more & M) & K). destruct (E p) as [Z|(ms & Z)].
    - left. rewrite Z in M. cbn in M. split; [|rewrite Z; reflexivity]. destruct (of_client p h); [reflexivity|discriminate].
    - right. destruct (K ms Z) as (_ & K'). clear K. rename K' into K. destruct (ops_effect a V2 _ (of_client p ws, []) (OP p)) as (l & A & B & C & J). rewrite K in A. cbn [fst snd app] in *. subst l. auto. }
  destruct LT as (V2 & LT).
  - intros (p, u) I. apply of_client_in in I as J. cbn [fst snd]. destruct (Q p) as [(Z & _)|(HF & _)]; [rewrite Z in J; destruct J|]. split; [|rewrite Forall_forall in HF; apply HF; exact J].
    destruct (in_dec Nat.eq_dec p ps) as [|NP]; [assumption|]. exfalso. destruct (HH p) as (_ & (more & M) & _). rewrite (NI p NP) in M. cbn in M. destruct (of_client p h); [destruct J|discriminate].
  - apply N.mod_lt. discriminate.
  - rewrite <- HD. unfold Prop_Shared.eqm in LT. rewrite N.mod_mod in LT by discriminate. rewrite LT. rewrite <- (total_calls a ps ls ND NI).
    apply Prop_Shared.eqm_add; [unfold Prop_Shared.eqm; apply N.mod_mod; discriminate|].
    apply total_eqm. intros p _. destruct (Q p) as [(Z & Z2)|(_ & J)]; [rewrite Z, Z2; reflexivity|exact J].
Qed.

(** Two users add to register 7.  The reply to the first packet is lost, its request
    comes twice, the replies to the second and third come out of order and twice;
    the device client recovers. *)
Definition ram0 : mem := fun a => 1000 + a.
Definition ram_world := mkW mem idle_hub 0%nat 0%nat [] [] (mkDev mem ram0 0 (repeat (0, []) 4)).
Definition whole0 : whole mem := mkWh mem ram_world (fun _ => man0) (fun _ => []) (fun _ => []).
Definition hubcfg (p : nat) : cfg := mkCfg V2 48 48 (Some (turned4 (fst tgt), turned2 (snd tgt))).
Definition day : list flabel :=
  [FOp 0 (ORmwSum 7 5); FOp 1 (ORmwSum 7 100); FOp 0 (OReadBlock 5 3 true); FOp 0 (OWriteBlock 200 [1; 2; 3; 4; 5] true); FDispatch 1; FDispatch 0;
   FChunk 0 1; FChunk 1 1; FChunk 0 1; FHub (WSend 0%nat); FHub (WSend 1%nat); FHub (WSend 0%nat);
   FHub (WHub LTake); FHub (WHub (LUp 0 false)); FHub (WHub (LDown 0 false)); FHub (WHub LTake); FHub (WHub LTake);
   FHub (WHub (LUp 1 true)); FHub (WHub (LUp 0 true)); FHub (WHub (LUp 1 true)); FHub (WHub (LLoseDown 0));
   FHub (WHub (LUp 0 false)); FHub (WHub LTime); FHub (WHub (LUp 2 false)); FHub (WHub (LDown 1 false));
   FHub (WHub (LUp 2 false)); FHub (WHub (LDown 1 false)); FHub (WRead 0%nat); FBack 0;
   FHub (WHub (LDown 0 true)); FHub (WRead 1%nat); FBack 1; FReturn 1;
   FHub (WHub (LUp 1 false)); FHub (WHub (LDown 1 false)); FHub (WRead 0%nat); FBack 0; FReturn 0].
Definition day_end := frun mem ram_rd mem_wr mem_cf 4 16 tgt (fun _ => true) hubcfg (init_full mem whole0) day.

Example C92_case_hyps :
  reads32 ram_rd /\ reads32 mem_cf /\ good_target tgt /\ (forall p, hub_client tgt (hubcfg p)) /\ begun false 4 whole0 /\ N.of_nat (10 + window 4 16 + 4) < 65534 /\
  (forall p, Forall op_ok (calls (user_of p day))) /\ (forall p, Forall op_words (calls (user_of p day))) /\
  (forall p, user_of p day = [] \/ exists ms, user_of p day = ms ++ [LReturn]) /\ Forall (only_adds 7) (all_calls day).
Proof.
  split; [intros d b; cbn; apply N.mod_lt; discriminate|]. split; [intros d b; reflexivity|]. split; [split; reflexivity|].
  split; [intros p; split; [unfold cfg_ok; cbn; repeat split; try lia; discriminate|split; [reflexivity|split; reflexivity]]|].
  split. { split; [|split; [reflexivity|auto]]. unfold fresh. do 4 (split; [try reflexivity; constructor|]). do 2 (split; [constructor|]). split; [reflexivity|]. split; [reflexivity|]. intros i id r H. left. do 4 (destruct i as [|i]; [injection H as <- _; reflexivity|]). destruct i; discriminate. }
  split; [reflexivity|]. split; [intros [|[|p]]; repeat constructor; cbn; lia|].
  split; [intros [|[|p]]; repeat constructor; cbn; repeat constructor; reflexivity|].
  split; [intros [|[|p]]; [right|right|left; reflexivity]|].
  - exists (removelast (user_of 0 day)). reflexivity.
  - exists (removelast (user_of 1 day)). reflexivity.
  - repeat constructor. vm_compute. intuition discriminate.
Qed.
Definition day_tr : list wev := Eval vm_compute in match day_end with Some (_, tr) => tr | None => [] end.
Example C92_case :
  exists F tr, day_end = Some (F, tr) /\
    along (Hub.step mem (dev_exec mem ram_rd mem_wr mem_cf) false 4 16) (prompt false 10) (c_hub mem whole0) (hub_labels tr) /\
    h_mode (w_hub mem (c_hub mem (f_w mem F))) <> MDead /\
    map (v_d _ (w_dev mem (c_hub mem (f_w mem F)))) [7; 200; 204] = [1112; 1; 5] /\
    s_heap (fc_st (f_c mem F 0%nat)) = [CWord true 1007 0xFFFFFFFF; CVec true [1005; 1006; 1012]; CHdr true] /\ s_heap (fc_st (f_c mem F 1%nat)) = [CWord true 1012 0xFFFFFFFF].
Proof.
  assert (X : option_map (fun x => (h_mode (w_hub mem (c_hub mem (f_w mem (fst x)))), map (v_d _ (w_dev mem (c_hub mem (f_w mem (fst x))))) [7; 200; 204],
     s_heap (fc_st (f_c mem (fst x) 0%nat)), s_heap (fc_st (f_c mem (fst x) 1%nat)), snd x)) day_end = Some (MLoop, [1112; 1; 5], [CWord true 1007 0xFFFFFFFF; CVec true [1005; 1006; 1012]; CHdr true], [CWord true 1012 0xFFFFFFFF], day_tr)).
  { vm_compute. reflexivity. }
  destruct day_end as [(F, tr)|]; [|discriminate]. cbn [option_map fst snd] in X. injection X as M V1 V2 V3 H0 H1 ->. exists F, day_tr. split; [reflexivity|].
  rewrite M, H0, H1. cbn [map]. rewrite V1, V2, V3. split; [|split; [discriminate|auto]]. clear.
  timely_run.
Qed.

(** The same day up to the moment when the second user has the result; then nothing
    comes from the target any more.  The device client gives up, the first user is
    told, the second has not noticed anything. *)
Definition night : list flabel := firstn 33 day ++ repeat (FHub (WHub LTime)) 6 ++ [FHub (WRead 0%nat); FBack 0].
Definition night_tr : list wev := Eval vm_compute in match frun mem ram_rd mem_wr mem_cf 4 16 tgt (fun _ => true) hubcfg (init_full mem whole0) night with Some (_, tr) => tr | None => [] end.
Example C92_dead_case :
  (forall p, Forall op_ok (calls (user_of p night))) /\ (forall p, Forall op_words (calls (user_of p night))) /\
  (exists ms, user_of 1 night = ms ++ [LReturn]) /\
  exists F tr, frun mem ram_rd mem_wr mem_cf 4 16 tgt (fun _ => true) hubcfg (init_full mem whole0) night = Some (F, tr) /\
    along (Hub.step mem (dev_exec mem ram_rd mem_wr mem_cf) false 4 16) (prompt false 10) (c_hub mem whole0) (hub_labels tr) /\
    h_mode (w_hub mem (c_hub mem (f_w mem F))) = MDead /\
    fc_bad (f_c mem F 0%nat) = true /\ s_heap (fc_st (f_c mem F 0%nat)) = [CWord true 1007 0xFFFFFFFF; CVec true [1005; 1006; 1012]; CHdr false] /\
    fc_bad (f_c mem F 1%nat) = false /\ s_heap (fc_st (f_c mem F 1%nat)) = [CWord true 1012 0xFFFFFFFF].
Proof.
  split; [intros [|[|p]]; repeat constructor; cbn; lia|]. split; [intros [|[|p]]; repeat constructor; cbn; repeat constructor; reflexivity|].
  split; [exists (removelast (user_of 1 night)); reflexivity|].
  assert (X : option_map (fun x => (h_mode (w_hub mem (c_hub mem (f_w mem (fst x)))), fc_bad (f_c mem (fst x) 0%nat), s_heap (fc_st (f_c mem (fst x) 0%nat)), fc_bad (f_c mem (fst x) 1%nat), s_heap (fc_st (f_c mem (fst x) 1%nat)), snd x))
    (frun mem ram_rd mem_wr mem_cf 4 16 tgt (fun _ => true) hubcfg (init_full mem whole0) night) =
    Some (MDead, true, [CWord true 1007 0xFFFFFFFF; CVec true [1005; 1006; 1012]; CHdr false], false, [CWord true 1012 0xFFFFFFFF], night_tr)) by (vm_compute; reflexivity).
  destruct (frun mem ram_rd mem_wr mem_cf 4 16 tgt (fun _ => true) hubcfg (init_full mem whole0) night) as [(F, tr)|]; [|discriminate]. cbn [option_map fst snd] in X. injection X as M B0 H0 B1 H1 ->. exists F, night_tr. split; [reflexivity|].
  split; [|auto]. clear. timely_run.
Qed.

Print Assumptions C92_full.
Print Assumptions C92_no_lost_update.
