(** C08, C09, C14-C17: what the device sees and what the user gets back.

    An execution is any list of events (user calls, dispatch, target processing
    a packet, a reply arriving, dispatch returning) that [System.run] accepts;
    [Spec.direct] is what the same calls do when executed directly on the
    device. *)
From Verif Require Import Word Bits Header WordLemmas BitsProofs HeaderProofs ValMem Client
  Validate Target Spec SpecLemmas System Tx E2E E2ECor Devices DeviceLemmas.
From Coq Require Import NArith ZArith List Lia Bool ZifyBool ZifyNat ZifyN.
Import ListNotations.
Open Scope N_scope.
Ltac Zify.zify_post_hook ::= Z.div_mod_to_equations.

(** C14, safety: when a dispatch returns, the device is in the state the calls
    denote and the handles hold the words it produced, all of them valid; no
    undefined behaviour and no validation failure occurred. *)
Theorem C14_end_to_end : forall D rd wr cf g (d0 : D) ls y,
  cfg_ok g -> Forall op_ok (calls ls) ->
  run D rd wr cf g (init_sys D d0) (ls ++ [LReturn]) = Some y ->
  (y_dev D y, s_heap (y_c D y)) = direct D rd wr cf (g_ver g) d0 (calls ls) /\
  Forall (fun c => cell_valid c = true) (s_heap (y_c D y)) /\
  y_bad D y = false.
Proof.
  intros D rd wr cf g d0 ls y G F R.
  destruct (return_quiescent D rd wr cf g G d0 ls y F R) as (_ & _ & _ & _ & B & E).
  split; [exact E|]. split; [|exact B].
  replace (s_heap (y_c D y)) with (snd (direct D rd wr cf (g_ver g) d0 (calls ls)))
    by (rewrite <- E; reflexivity).
  clear E R F. generalize d0. induction (calls ls) as [|o t IH]; intros d; [constructor|].
  cbn [direct]. destruct (direct_op D rd wr cf (g_ver g) d o) as [d1 r] eqn:E.
  specialize (IH d1). destruct (direct D rd wr cf (g_ver g) d1 t) as [d2 rs]. cbn [snd] in *.
  destruct r as [c|]; [|exact IH]. constructor; [|exact IH].
  destruct o; cbn [direct_op] in E; unfold spec_rmw in E;
    repeat match type of E with
    | context [if ?b then _ else _] => destruct b
    | context [match ?b with V1 => _ | V2 => _ end] => destruct b
    | (let (_, _) := ?b in _) = _ => destruct b
    end; try discriminate; injection E as <- <-; reflexivity.
Qed.

(** C14, handles: a call that the specification accepts returns the handle whose
    index is the number of handles returned before; a call it refuses raises and
    returns none.  So handle number k is result number k of [direct]. *)
Theorem C14_handles : forall D rd wr cf g (d0 : D) ls y o,
  cfg_ok g -> Forall op_ok (calls ls) -> op_ok o ->
  run D rd wr cf g (init_sys D d0) ls = Some y -> y_wait D y = false ->
  match snd (direct_op D rd wr cf (g_ver g) (fst (direct D rd wr cf (g_ver g) d0 (calls ls))) o) with
  | Some _ => exists s, run_op g (y_c D y) o =
                        Ok s (length (snd (direct D rd wr cf (g_ver g) d0 (calls ls))))
  | None => exists s e, run_op g (y_c D y) o = Exc s e
  end.
Proof.
  intros D rd wr cf g d0 ls y o G F OK R W.
  exact (handles D rd wr cf g G d0 ls y o F R W OK).
Qed.

(** C14, progress: a user call is always possible when no dispatch is waiting;
    a waiting dispatch returns once target and network have done a fixed amount
    of work, and until then one of them can always proceed. *)
Theorem C14_progress : forall D rd wr cf g (y : sys D),
  (y_wait D y = false ->
     (forall o, step D rd wr cf g y (LOp o) <> None) /\ step D rd wr cf g y LDispatch <> None) /\
  (y_wait D y = true ->
     (forall ms y', Forall (fun l => l = LTarget \/ l = LReply) ms ->
        run D rd wr cf g y ms = Some y' ->
        (length ms <= 2 * length (s_out (y_c D y)) + length (y_rep D y))%nat /\
        (step D rd wr cf g y' LTarget <> None \/ step D rd wr cf g y' LReply <> None \/
         step D rd wr cf g y' LReturn <> None)) /\
     exists ms y', Forall (fun l => l = LTarget \/ l = LReply) ms /\
        run D rd wr cf g y (ms ++ [LReturn]) = Some y').
Proof.
  intros D rd wr cf g y. split.
  - intros W. split.
    + intros o. cbn [step]. rewrite W. destruct (run_op g (y_c D y) o); discriminate.
    + cbn [step]. rewrite W. destruct (s_cur (y_c D y)); [|discriminate].
      destruct (dispatch_send g (y_c D y)); discriminate.
  - intros W. split.
    + intros ms y' F R. split.
      * assert (A := net_run_work D rd wr cf g ms y y' F R). unfold work in A. lia.
      * assert (W' : y_wait D y' = true).
        { rewrite <- W. clear W. revert y R. induction F as [|l t Hl Ft IH]; intros y R.
          - injection R as <-. reflexivity.
          - cbn [run] in R. destruct (step D rd wr cf g y l) as [y1|] eqn:E; [|discriminate].
            rewrite (IH y1 R). exact (net_wait D rd wr cf g y l y1 Hl E). }
        destruct (s_out (y_c D y')) as [|b q] eqn:O.
        -- destruct (y_rep D y') as [|[p r] q] eqn:P.
           ++ right; right. cbn [step]. rewrite W', O, P. discriminate.
           ++ right; left. cbn [step]. rewrite P.
              destruct (receive_packet g (s_heap (y_c D y')) p r) as [h [| |]]; discriminate.
        -- left. cbn [step]. rewrite O.
           destruct (target_packet D rd wr cf g (y_dev D y') (b_send b)) as [[d' r] ok]. discriminate.
    + exact (dispatch_completes D rd wr cf g (work D y) y (le_n _) W).
Qed.

(** Case: IPbus 2.0 with 32-byte packets, a FIFO-like device (a counter that
    every read increments), a block read split over packets, replies processed
    while the user goes on. *)
Definition fifo_rd (d : N * N) (a : N) : N * N * N := ((fst d + 1, snd d), fst d * 1000 + a).
Definition fifo_wr (d : N * N) (a x : N) : N * N := (fst d, snd d + x).
Definition fifo_cf (d : N * N) (a : N) : N * N * N := (d, 7).
Definition case_cfg : cfg := mkCfg V2 32 32 None.
Definition case_ls : list label :=
  [LOp (OReadBlock 100 9 false); LTarget; LOp (OWrite 3 4); LReply; LOp (ORmwSum 5 6);
   LOp (OWriteMask 1 99 1); LOp (OReadCfg 2 0xFFFFFFFF); LDispatch; LTarget; LTarget; LReply; LReply].

Example C14_case_hyps : cfg_ok case_cfg /\ Forall op_ok (calls case_ls).
Proof.
  split; [unfold cfg_ok; cbn; repeat split; try lia; discriminate|].
  repeat constructor; cbn; lia.
Qed.

Example C14_case :
  option_map (fun y => (y_dev _ y, s_heap (y_c _ y)))
    (run (N * N) fifo_rd fifo_wr fifo_cf case_cfg (init_sys _ (0, 0)) (case_ls ++ [LReturn])) =
  Some ((10, 4 + (9005 + 6)),
        [CVec true [100; 1100; 2100; 3100; 4100; 5100; 6100; 7100; 8100];
         CHdr true; CWord true 9005 0xFFFFFFFF; CWord true 7 0xFFFFFFFF]).
Proof. vm_compute. reflexivity. Qed.

Example C14_progress_case :
  option_map (fun y => (y_wait _ y, length (s_out (y_c _ y)), length (y_rep _ y)))
    (run (N * N) fifo_rd fifo_wr fifo_cf case_cfg (init_sys _ (0, 0)) (firstn 8 case_ls)) =
  Some (true, 2%nat, 0%nat).
Proof. vm_compute. reflexivity. Qed.

(** C15: the outcome does not depend on the schedule. *)
Theorem C15_schedule_independent : forall D rd wr cf g (d0 : D) ls1 ls2 y1 y2,
  cfg_ok g -> Forall op_ok (calls ls1) -> calls ls1 = calls ls2 ->
  run D rd wr cf g (init_sys D d0) (ls1 ++ [LReturn]) = Some y1 ->
  run D rd wr cf g (init_sys D d0) (ls2 ++ [LReturn]) = Some y2 ->
  y_dev D y1 = y_dev D y2 /\ s_heap (y_c D y1) = s_heap (y_c D y2) /\
  y_bad D y1 = false /\ y_bad D y2 = false.
Proof.
  intros D rd wr cf g d0 ls1 ls2 y1 y2 G F C R1 R2.
  destruct (C14_end_to_end D rd wr cf g d0 ls1 y1 G F R1) as (E1 & _ & B1).
  rewrite C in F. destruct (C14_end_to_end D rd wr cf g d0 ls2 y2 G F R2) as (E2 & _ & B2).
  rewrite C, <- E2 in E1. injection E1 as -> ->. auto.
Qed.

Example C15_case :
  let obs := option_map (fun y => (y_dev (N * N) y, s_heap (y_c (N * N) y))) in
  let ls2 := map LOp (calls case_ls) ++ LDispatch :: repeat LTarget 3 ++ repeat LReply 3 in
  calls ls2 = calls case_ls /\ ls2 <> case_ls /\
  obs (run _ fifo_rd fifo_wr fifo_cf case_cfg (init_sys _ (0, 0)) (ls2 ++ [LReturn])) =
  obs (run _ fifo_rd fifo_wr fifo_cf case_cfg (init_sys _ (0, 0)) (case_ls ++ [LReturn])) /\
  run _ fifo_rd fifo_wr fifo_cf case_cfg (init_sys _ (0, 0)) (ls2 ++ [LReturn]) <> None.
Proof. vm_compute. repeat split; discriminate. Qed.

(** C16: two clients with the same protocol version but different limits, with
    or without ControlHub, under whatever schedules. *)
Theorem C16_limits_invisible : forall D rd wr cf g1 g2 (d0 : D) ls1 ls2 y1 y2,
  cfg_ok g1 -> cfg_ok g2 -> g_ver g1 = g_ver g2 ->
  Forall op_ok (calls ls1) -> calls ls1 = calls ls2 ->
  run D rd wr cf g1 (init_sys D d0) (ls1 ++ [LReturn]) = Some y1 ->
  run D rd wr cf g2 (init_sys D d0) (ls2 ++ [LReturn]) = Some y2 ->
  y_dev D y1 = y_dev D y2 /\ s_heap (y_c D y1) = s_heap (y_c D y2) /\
  y_bad D y1 = false /\ y_bad D y2 = false.
Proof.
  intros D rd wr cf g1 g2 d0 ls1 ls2 y1 y2 G1 G2 V F C R1 R2.
  destruct (C14_end_to_end D rd wr cf g1 d0 ls1 y1 G1 F R1) as (E1 & _ & B1).
  rewrite C in F. destruct (C14_end_to_end D rd wr cf g2 d0 ls2 y2 G2 F R2) as (E2 & _ & B2).
  rewrite C, V, <- E2 in E1. injection E1 as -> ->. auto.
Qed.

(** IPbus 2.0: the read-back values, including read-modify-writes, are those of
    IPbus 1.3 except that the latter returns the new value of an RMW.  Case of
    C16: 32-byte packets against 1500-byte packets through a ControlHub. *)
Definition case_hub : cfg := mkCfg V2 1500 1500 (Some (0x0100A8C0, 0x51C3)).
Example C16_case :
  let ls2 := map LOp (calls case_ls) ++ [LDispatch; LTarget; LReply] in
  cfg_ok case_hub /\ calls ls2 = calls case_ls /\
  option_map (fun y => (y_dev (N * N) y, s_heap (y_c (N * N) y)))
    (run _ fifo_rd fifo_wr fifo_cf case_hub (init_sys _ (0, 0)) (ls2 ++ [LReturn])) =
  option_map (fun y => (y_dev (N * N) y, s_heap (y_c (N * N) y)))
    (run _ fifo_rd fifo_wr fifo_cf case_cfg (init_sys _ (0, 0)) (case_ls ++ [LReturn])) /\
  run _ fifo_rd fifo_wr fifo_cf case_hub (init_sys _ (0, 0)) (ls2 ++ [LReturn]) <> None.
Proof.
  cbv zeta. split; [unfold cfg_ok; cbn; repeat split; try lia; discriminate|].
  vm_compute. repeat split; discriminate.
Qed.

(** C17: a dispatch that finds nothing queued changes nothing; a returned
    dispatch leaves nothing queued, nothing in flight and no reply outstanding;
    dispatches after it without new operations send nothing. *)
Theorem C17_empty_dispatch : forall D rd wr cf g (d0 : D) ls y,
  cfg_ok g -> Forall op_ok (calls ls) ->
  run D rd wr cf g (init_sys D d0) (ls ++ [LReturn]) = Some y ->
  (s_out (y_c D y) = [] /\ y_rep D y = []) /\
  step D rd wr cf g y LDispatch = Some y /\
  (forall ns y', calls ns = [] -> run D rd wr cf g y ns = Some y' -> y' = y).
Proof.
  intros D rd wr cf g d0 ls y G F R.
  destruct (return_quiescent D rd wr cf g G d0 ls y F R) as (C & O & P & W & _ & _).
  split; [auto|].
  assert (SD : step D rd wr cf g y LDispatch = Some y).
  { cbn [step]. rewrite W, C. reflexivity. }
  split; [exact SD|].
  induction ns as [|l t IH]; intros y' Q R'.
  - injection R' as <-. reflexivity.
  - cbn [run] in R'. destruct l; [discriminate| | | |]; cbn [calls] in Q.
    + rewrite SD in R'. exact (IH _ Q R').
    + cbn [step] in R'. rewrite W in R'. discriminate.
    + cbn [step] in R'. rewrite O in R'. discriminate.
    + cbn [step] in R'. rewrite P in R'. discriminate.
Qed.

Theorem C17_nothing_queued : forall D rd wr cf g (y : sys D),
  y_wait D y = false -> s_cur (y_c D y) = None -> step D rd wr cf g y LDispatch = Some y.
Proof. intros D rd wr cf g y W C. cbn [step]. rewrite W, C. reflexivity. Qed.

Example C17_case :
  option_map (fun y => (y_wait _ y, s_cur (y_c _ y), s_ctr (y_c _ y)))
    (run (N * N) fifo_rd fifo_wr fifo_cf case_cfg (init_sys _ (0, 0))
      (case_ls ++ [LReturn; LDispatch; LDispatch])) = Some (false, None, 5).
Proof. vm_compute. reflexivity. Qed.

(** C08: on the device that records its accesses, a block write adds exactly one
    write access per word, in order, to the right address, after whatever
    earlier calls have caused and before whatever later calls cause. *)
Theorem C08_block_write : forall f fc g log0 pre a l inc post ls y,
  cfg_ok g -> Forall op_ok pre -> Forall op_ok post ->
  a < 2 ^ 32 -> N.of_nat (length l) < 2 ^ 29 ->
  calls ls = pre ++ OWriteBlock a l inc :: post ->
  run (list access) (log_rd f) log_wr (log_cf fc) g (init_sys _ log0) (ls ++ [LReturn]) = Some y ->
  let before := fst (direct _ (log_rd f) log_wr (log_cf fc) (g_ver g) log0 pre) in
  let after := before ++
    map (fun k => AWrite (if inc then (a + N.of_nat k) mod 2 ^ 32 else a) (nth k l 0))
        (seq 0 (length l)) in
  y_dev _ y = fst (direct _ (log_rd f) log_wr (log_cf fc) (g_ver g) after post).
Proof.
  intros f fc g log0 pre a l inc post ls y G P Q Ha Hl C R before after.
  assert (F : Forall op_ok (calls ls)).
  { rewrite C. apply Forall_app. split; [assumption|]. constructor; [cbn; auto|assumption]. }
  destruct (C14_end_to_end _ _ _ _ g log0 ls y G F R) as (E & _).
  rewrite C in E. assert (E1 := f_equal fst E). cbn [fst] in E1. rewrite E1.
  clear E E1 R F C P. subst after before. revert log0. induction pre as [|o t IH]; intros log0.
  - cbn [app direct direct_op fst]. rewrite log_write_all. unfold block_addrs.
    rewrite (combine_map_nth (fun i => if inc then (a + N.of_nat i) mod 2 ^ 32 else a) AWrite 0).
    rewrite (map_ext (fun i => AWrite (if inc then (a + N.of_nat i) mod 2 ^ 32 else a) (nth (i - 0) l 0))
                     (fun k => AWrite (if inc then (a + N.of_nat k) mod 2 ^ 32 else a) (nth k l 0)))
      by (intros k; rewrite Nat.sub_0_r; reflexivity).
    destruct (direct _ _ _ _ _ (log0 ++ _) post). reflexivity.
  - cbn [app direct]. destruct (direct_op _ _ _ _ _ log0 o) as [d1 r].
    specialize (IH d1). destruct (direct _ _ _ _ _ d1 (t ++ _)) as [d2 rs].
    destruct (direct _ _ _ _ _ d1 t) as [d3 rs3]. cbn [fst] in *. exact IH.
Qed.

(** C09: a block read makes exactly one read access per element, in order, at
    the right address; element k holds what the device answered to access k. *)
Theorem C09_block_read : forall f fc g log0 pre a n inc post ls y,
  cfg_ok g -> Forall op_ok pre -> Forall op_ok post ->
  a < 2 ^ 32 -> n < 2 ^ 29 ->
  calls ls = pre ++ OReadBlock a n inc :: post ->
  run (list access) (log_rd f) log_wr (log_cf fc) g (init_sys _ log0) (ls ++ [LReturn]) = Some y ->
  let before := direct _ (log_rd f) log_wr (log_cf fc) (g_ver g) log0 pre in
  let addr k := if inc then (a + N.of_nat k) mod 2 ^ 32 else a in
  let reads k := map (fun i => ARead (addr i)) (seq 0 k) in
  y_dev _ y = fst (direct _ (log_rd f) log_wr (log_cf fc) (g_ver g)
                          (fst before ++ reads (N.to_nat n)) post) /\
  exists vals, nth_error (s_heap (y_c _ y)) (length (snd before)) = Some (CVec true vals) /\
    vec_value (CVec true vals) = Some vals /\ length vals = N.to_nat n /\
    forall k, (k < N.to_nat n)%nat -> nth k vals 0 = f (fst before ++ reads k) (addr k).
Proof.
  intros f fc g log0 pre a n inc post ls y G P Q Ha Hl C R before addr reads.
  assert (F : Forall op_ok (calls ls)).
  { rewrite C. apply Forall_app. split; [assumption|]. constructor; [cbn; auto|assumption]. }
  destruct (C14_end_to_end _ _ _ _ g log0 ls y G F R) as (E & _).
  rewrite C in E.
  pose (vals := snd (read_all _ (log_rd f) (fst before) (block_addrs a (N.to_nat n) inc))).
  assert (X : direct _ (log_rd f) log_wr (log_cf fc) (g_ver g) log0 (pre ++ OReadBlock a n inc :: post) =
    let (d, cs) := direct _ (log_rd f) log_wr (log_cf fc) (g_ver g) (fst before ++ reads (N.to_nat n)) post in
    (d, snd before ++ CVec true vals :: cs)).
  { assert (RA : fst (read_all _ (log_rd f) (fst before) (block_addrs a (N.to_nat n) inc)) =
                 fst before ++ reads (N.to_nat n)).
    { rewrite log_read_all. cbn [fst]. unfold block_addrs, reads, addr. rewrite map_map. reflexivity. }
    rewrite <- RA. subst vals. clear RA E R F C P. subst before. revert log0.
    induction pre as [|o t IH]; intros log0.
    - cbn [app direct direct_op fst snd].
      destruct (read_all _ (log_rd f) log0 (block_addrs a (N.to_nat n) inc)) as [d1 xs].
      cbn [fst snd]. destruct (direct _ _ _ _ _ d1 post). reflexivity.
    - cbn [app direct]. destruct (direct_op _ _ _ _ _ log0 o) as [d1 r].
      specialize (IH d1). rewrite IH. destruct (direct _ _ _ _ _ d1 t) as [d3 rs3]. cbn [fst snd] in *.
      destruct (direct _ _ _ _ _ (fst _) post) as [d4 cs]. destruct r; reflexivity. }
  rewrite X in E. clear X.
  destruct (direct _ _ _ _ _ (fst before ++ reads (N.to_nat n)) post) as [d4 cs].
  injection E as E1 E2. split; [exact E1|].
  exists vals. rewrite E2. split; [|split; [reflexivity|]].
  { rewrite nth_error_app2 by lia. rewrite Nat.sub_diag. reflexivity. }
  subst vals. rewrite log_read_all. cbn [snd].
  assert (LB : length (block_addrs a (N.to_nat n) inc) = N.to_nat n)
    by (unfold block_addrs; rewrite map_length, seq_length; reflexivity).
  rewrite LB. split; [rewrite map_length, seq_length; reflexivity|].
  intros k Hk.
  rewrite (nth_indep _ 0 (f (fst before ++ map ARead (firstn 0 (block_addrs a (N.to_nat n) inc)))
     (nth 0 (block_addrs a (N.to_nat n) inc) 0))) by (rewrite map_length, seq_length; lia).
  rewrite (map_nth (fun k => f (fst before ++ map ARead (firstn k (block_addrs a (N.to_nat n) inc)))
     (nth k (block_addrs a (N.to_nat n) inc) 0))).
  rewrite seq_nth by lia. cbn [plus]. f_equal.
  - f_equal. unfold block_addrs, reads, addr. rewrite firstn_map, map_map.
    replace (firstn k (seq 0 (N.to_nat n))) with (seq 0 k); [reflexivity|].
    replace (N.to_nat n) with (k + (N.to_nat n - k))%nat by lia.
    rewrite seq_app, firstn_app, seq_length, Nat.sub_diag, firstn_O, app_nil_r.
    rewrite firstn_all2 by (rewrite seq_length; lia). reflexivity.
  - unfold block_addrs, addr.
    rewrite (nth_indep _ 0 ((fun i => if inc then (a + N.of_nat i) mod 2 ^ 32 else a) 0%nat))
      by (rewrite map_length, seq_length; lia).
    rewrite (map_nth (fun i => if inc then (a + N.of_nat i) mod 2 ^ 32 else a)).
    rewrite seq_nth by lia. reflexivity.
Qed.

(** Case for C08 and C09: a block that wraps around the end of the address space
    and is split over 32-byte packets, queued behind another write. *)
Definition case_f (l : list access) (a : N) : N := N.of_nat (length l) + a mod 16.
Example C08_C09_case :
  option_map (fun y => (y_dev _ y, s_heap (y_c _ y)))
    (run (list access) (log_rd case_f) log_wr (log_cf case_f) (mkCfg V1 32 32 None) (init_sys _ [])
      ([LOp (OWrite 9 9); LOp (OWriteBlock 0xFFFFFFFE [1; 2; 3; 4; 5] true);
        LOp (OReadBlock 0xFFFFFFFF 4 true); LDispatch; LTarget; LTarget; LTarget; LReply; LReply; LReply] ++ [LReturn])) =
  Some ([AWrite 9 9; AWrite 0xFFFFFFFE 1; AWrite 0xFFFFFFFF 2; AWrite 0 3; AWrite 1 4; AWrite 2 5;
         ARead 0xFFFFFFFF; ARead 0; ARead 1; ARead 2],
        [CHdr true; CHdr true; CVec true [21; 7; 9; 11]]).
Proof. vm_compute. reflexivity. Qed.

Example C08_C09_case_cfg : cfg_ok (mkCfg V1 32 32 None).
Proof. unfold cfg_ok; cbn; repeat split; lia. Qed.

Print Assumptions C14_end_to_end.
Print Assumptions C14_handles.
Print Assumptions C14_progress.
Print Assumptions C15_schedule_independent.
Print Assumptions C16_limits_invisible.
Print Assumptions C17_empty_dispatch.
Print Assumptions C17_nothing_queued.
Print Assumptions C08_block_write.
Print Assumptions C09_block_read.
