(** Proof layer: direct execution on the devices of [Devices.v]. *)
From Verif Require Import Word Bits Header WordLemmas BitsProofs ValMem Client Target Spec SpecLemmas Devices
  System Tx E2E E2ECor.
From Coq Require Import NArith ZArith List Lia Bool ZifyBool ZifyNat ZifyN.
Import ListNotations.
Open Scope N_scope.
Ltac Zify.zify_post_hook ::= Z.div_mod_to_equations.

Lemma direct_snoc D rd wr cf v d0 os o :
  direct D rd wr cf v d0 (os ++ [o]) =
  (fst (direct_op D rd wr cf v (fst (direct D rd wr cf v d0 os)) o),
   snd (direct D rd wr cf v d0 os) ++
   match snd (direct_op D rd wr cf v (fst (direct D rd wr cf v d0 os)) o) with
   | Some c => [c] | None => [] end).
Proof.
  etransitivity; [exact (direct_app D rd wr cf (spec_rmw D rd wr) (mkCfg v 0 0 None) d0 os o)|]. cbn [g_ver]. cbv zeta.
  change (AtomicSpec.atomic D rd wr cf (spec_rmw D rd wr)) with (direct D rd wr cf).
  change (AtomicSpec.atomic_op D rd wr cf (spec_rmw D rd wr)) with (direct_op D rd wr cf). f_equal.
  destruct (snd (direct_op D rd wr cf v _ o)); cbn [add_cell]; [reflexivity|].
  rewrite app_nil_r. reflexivity.
Qed.

Lemma mem_wr_ok m a x : mem_ok m -> mem_ok (mem_wr m a x).
Proof. intros H b. unfold mem_wr. destruct (b =? a); [apply N.mod_lt; discriminate|apply H]. Qed.

Lemma mem_write_all_ok l : forall m, mem_ok m -> mem_ok (write_all mem mem_wr m l).
Proof. induction l as [|[a x] t IH]; intros m H; [exact H|]. apply IH, mem_wr_ok, H. Qed.

Lemma mem_read_all l : forall m, read_all mem mem_rd m l = (m, map m l).
Proof.
  induction l as [|a t IH]; intros m; [reflexivity|]. cbn. rewrite IH. reflexivity.
Qed.

Lemma mem_direct_op_ok v m o : mem_ok m -> mem_ok (fst (direct_op mem mem_rd mem_wr mem_cf v m o)).
Proof.
  intros H. destruct o; cbn [direct_op mem_rd spec_rmw mem_cf fst]; try (apply mem_wr_ok; assumption); try assumption.
  - destruct (mask_fits x mask); unfold spec_rmw; cbn [mem_rd fst]; [apply mem_wr_ok|]; assumption.
  - apply mem_write_all_ok. assumption.
  - rewrite mem_read_all. assumption.
  - destruct v; assumption.
Qed.

Lemma mem_direct_ok v os : forall m, mem_ok m -> mem_ok (fst (direct mem mem_rd mem_wr mem_cf v m os)).
Proof.
  induction os as [|o t IH]; intros m H; [exact H|]. cbn [direct].
  assert (A := mem_direct_op_ok v m o H).
  destruct (direct_op mem mem_rd mem_wr mem_cf v m o) as [m1 r]. cbn [fst] in A.
  specialize (IH m1 A). destruct (direct mem mem_rd mem_wr mem_cf v m1 t). exact IH.
Qed.

Lemma masked_update_bits old x m : old < W32 -> x < W32 -> 0 < m < W32 -> mask_fits x m = true ->
  masked_update old x m < W32 /\
  (forall i, N.testbit m i = false -> N.testbit (masked_update old x m) i = N.testbit old i) /\
  (forall i, N.testbit (masked_update old x m) (i + lowest_bit m) && N.testbit m (i + lowest_bit m)
             = N.testbit x i).
Proof.
  intros Ho Hx Hm F. assert (F1 := proj1 (mask_fits_spec x m Hx) F).
  destruct (lowest_bit_spec m Hm) as (L1 & L2 & L3).
  unfold masked_update. rewrite (N.mod_small old) by exact Ho.
  assert (SB : forall i, N.testbit (N.shiftl x (lowest_bit m)) i = true -> N.testbit m i = true).
  { intros i Hi. destruct (N.lt_ge_cases i (lowest_bit m)) as [Q|Q].
    - rewrite N.shiftl_spec_low in Hi by assumption. discriminate.
    - rewrite N.shiftl_spec_high' in Hi by assumption. apply F1 in Hi.
      replace (i - lowest_bit m + lowest_bit m) with i in Hi by lia. exact Hi. }
  split; [|split].
  - rewrite W32_pow. apply lt_pow2_bits. intros i Hi.
    rewrite N.lor_spec, N.ldiff_spec, (testbit_high old 32) by assumption. cbn.
    destruct (N.testbit (N.shiftl x (lowest_bit m)) i) eqn:E; [|reflexivity].
    apply SB in E. rewrite (testbit_high m 32) in E by (try apply Hm; assumption). discriminate.
  - intros i Hi. rewrite N.lor_spec, N.ldiff_spec, Hi. cbn. rewrite andb_true_r.
    destruct (N.testbit (N.shiftl x (lowest_bit m)) i) eqn:E; [|apply orb_false_r].
    apply SB in E. congruence.
  - intros i. rewrite N.lor_spec, N.ldiff_spec, N.shiftl_spec_high' by lia.
    replace (i + lowest_bit m - lowest_bit m) with i by lia.
    destruct (N.testbit x i) eqn:E.
    + rewrite (F1 i E). rewrite orb_true_r. reflexivity.
    + rewrite orb_false_r. destruct (N.testbit m (i + lowest_bit m)); cbn; [|apply andb_false_r].
      rewrite andb_false_r. reflexivity.
Qed.

Lemma log_write_all l : forall d, write_all (list access) log_wr d l = d ++ map (fun p => AWrite (fst p) (snd p)) l.
Proof.
  induction l as [|[a x] t IH]; intros d; cbn [write_all map].
  - rewrite app_nil_r. reflexivity.
  - rewrite IH. unfold log_wr. rewrite <- app_assoc. reflexivity.
Qed.

Lemma combine_map_nth {A B C} (h : nat -> A) (k : A -> B -> C) (d0 : B) : forall l s,
  map (fun p => k (fst p) (snd p)) (combine (map h (seq s (length l))) l) =
  map (fun i => k (h i) (nth (i - s) l d0)) (seq s (length l)).
Proof.
  induction l as [|x t IH]; intros s; [reflexivity|].
  cbn [length seq map combine fst snd]. f_equal.
  - rewrite Nat.sub_diag. reflexivity.
  - rewrite IH. apply map_ext_in. intros i Hi. apply in_seq in Hi.
    replace (i - s)%nat with (S (i - S s)) by lia. reflexivity.
Qed.

Lemma log_read_all f l : forall d,
  read_all (list access) (log_rd f) d l =
  (d ++ map ARead l,
   map (fun k => f (d ++ map ARead (firstn k l)) (nth k l 0)) (seq 0 (length l))).
Proof.
  induction l as [|a t IH]; intros d; cbn [read_all map].
  - cbn. rewrite app_nil_r. reflexivity.
  - unfold log_rd at 1. rewrite IH. rewrite <- app_assoc. cbn [app length seq map firstn nth].
    f_equal. rewrite app_nil_r. f_equal.
    rewrite <- seq_shift, map_map. apply map_ext. intros k. cbn [firstn map nth].
    rewrite <- app_assoc. reflexivity.
Qed.
