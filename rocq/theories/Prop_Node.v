(** C27-C33: nodes, their permissions and bounds, lookup, iteration, copies. *)
From Coq Require Import NArith ZArith List Bool String Ascii Lia PeanoNat Sorted ZifyBool ZifyNat ZifyN.
From Verif Require Import Word WordLemmas Header ValMem Client Spec NodeTree NodeProofs.
Import ListNotations.
Open Scope N_scope.
Ltac Zify.zify_post_hook ::= Z.div_mod_to_equations.

(** ** C27: permissions *)

Definition is_read (o : nop) : bool := match o with NRead | NReadBlock _ | NReadBlockOffset _ _ => true | _ => false end.
Definition is_write (o : nop) : bool := negb (is_read o).

(** What a call means, when it is allowed: the operation of the client at the
    address and mask of the node. *)
Definition meant (a : attrs) (o : nop) : op :=
  let inc := match a_mode a with INCREMENTAL => true | _ => false end in
  match o with
  | NWrite x => if a_mask a =? 2 ^ 32 - 1 then OWrite (a_addr a) x else OWriteMask (a_addr a) x (a_mask a)
  | NWriteBlock l => OWriteBlock (a_addr a) l inc
  | NWriteBlockOffset l off => OWriteBlock ((a_addr a + off) mod 2 ^ 32) l inc
  | NRead => ORead (a_addr a) (a_mask a)
  | NReadBlock n => OReadBlock (a_addr a) n inc
  | NReadBlockOffset n off => OReadBlock ((a_addr a + off) mod 2 ^ 32) n inc
  end.

(** Permission needed: a write to a masked node also reads. *)
Definition permitted (a : attrs) (o : nop) : Prop :=
  if is_read o then a_r a = true
  else a_w a = true /\ match o with NWrite _ => a_mask a <> 2 ^ 32 - 1 -> a_r a = true | _ => True end.

(** The size rules of the documentation: a block of one word on a single
    register, at most size words on a node that declares a size, an offset only
    for incremental blocks. *)
Definition in_bounds (a : attrs) (o : nop) : Prop :=
  match o with
  | NRead | NWrite _ => True
  | NReadBlock n => (a_mode a = SINGLE -> n = 1) /\ (a_size a <> 1 -> n <= a_size a)
  | NWriteBlock l => (a_mode a = SINGLE -> N.of_nat (List.length l) = 1) /\ (a_size a <> 1 -> N.of_nat (List.length l) <= a_size a)
  | NReadBlockOffset n off => (a_mode a = INCREMENTAL \/ a_mode a = HIERARCHICAL) /\ n + off <= a_size a
  | NWriteBlockOffset l off => (a_mode a = INCREMENTAL \/ a_mode a = HIERARCHICAL) /\ N.of_nat (List.length l) + off <= a_size a
  end.

Lemma node_op_inr a o c : node_op a o = inr c -> permitted a o /\ c = meant a o.
Proof.
  unfold permitted, meant. destruct o; cbn [node_op is_read]; unfold node_write, node_write_block, node_write_block_offset,
    node_read, node_read_block, node_read_block_offset, NOMASK, inc_of; change (2 ^ 32 - 1) with 0xFFFFFFFF;
  destruct (a_mode a); cbn [mode_eqb negb andb];
  repeat match goal with |- context [if ?b then _ else _] => destruct b eqn:? end; intros E; try discriminate;
  injection E as <-; repeat split; trivial; try lia; try (f_equal; lia).
Qed.

Lemma node_op_ok a o : a_size a < 2 ^ 32 -> permitted a o -> in_bounds a o -> node_op a o = inr (meant a o).
Proof.
  intros S P B.
  assert (K : forall e, node_op a o <> inl e).
  { revert P B. unfold permitted, in_bounds, meant. destruct o; cbn [node_op is_read]; unfold node_write, node_write_block, node_write_block_offset,
      node_read, node_read_block, node_read_block_offset, NOMASK, inc_of, add32, W32; change (2 ^ 32 - 1) with 0xFFFFFFFF in *;
    change (2 ^ 32) with 4294967296 in *;
    destruct (a_mode a) eqn:?; cbn [mode_eqb negb andb];
    intros P B e; try (destruct B as (B1 & B2)); try (destruct P as (P1 & P2));
    try (destruct B1; discriminate);
    repeat match goal with |- context [if ?b then _ else _] => destruct b eqn:? end; try discriminate; exfalso;
    try (specialize (B1 eq_refl)); try congruence; try lia. }
  destruct (node_op a o) as [e|c] eqn:E; [exfalso; exact (K e eq_refl)|].
  f_equal. exact (proj2 (node_op_inr _ _ _ E)).
Qed.

(** C27, refusal: a read through a node without read permission, a write through
    one without write permission, is refused with an exception and leaves the
    client as it was. *)
Theorem C27_denied : forall g t path o s p n,
  get_node t path = Found p -> get t p = Some n ->
  (is_read o = true /\ a_r (n_at n) = false) \/ (is_write o = true /\ a_w (n_at n) = false) ->
  exists e, hw_call g t path o s = Some (inl (Node_exc e, s)).
Proof.
  intros g t path o s p n F G H. unfold hw_call. rewrite F, G.
  destruct (node_op (n_at n) o) as [e|c] eqn:E; [eexists; reflexivity|].
  destruct (node_op_inr _ _ _ E) as (P & _). exfalso. unfold permitted, is_write in *.
  destruct H as [(H1 & H2)|(H1 & H2)]; destruct (is_read o); try discriminate; [congruence|]. destruct P. congruence.
Qed.

(** C27, access: with permission and within the bounds of the node, the call is
    exactly the client operation at the address and mask of the node. *)
Theorem C27_granted : forall g t path o s p n,
  get_node t path = Found p -> get t p = Some n -> a_size (n_at n) < 2 ^ 32 ->
  permitted (n_at n) o -> in_bounds (n_at n) o ->
  hw_call g t path o s = Some (inr (run_op g s (meant (n_at n) o))).
Proof. intros g t path o s p n F G S P B. unfold hw_call. rewrite F, G, (node_op_ok _ _ S P B). reflexivity. Qed.

(** C27, no other operation: whatever reaches the client through a node is the
    operation meant, on that node, with the permission for it. *)
Theorem C27_only : forall g t path o s r, hw_call g t path o s = Some (inr r) ->
  exists p n, get_node t path = Found p /\ get t p = Some n /\ permitted (n_at n) o /\ r = run_op g s (meant (n_at n) o).
Proof.
  intros g t path o s r H. unfold hw_call in H. destruct (get_node t path) as [p| |] eqn:F; try discriminate.
  destruct (get t p) as [n|] eqn:G; [|discriminate]. destruct (node_op (n_at n) o) as [e|c] eqn:E; [discriminate|].
  injection H as <-. exists p, n. destruct (node_op_inr _ _ _ E) as (P & ->). auto.
Qed.

(** A small tree: a block, a masked register and a read-only register. *)
Definition ex_at (id : string) (addr mask : N) (r w : bool) (md : mode) (sz : N) (ptr : nat) : attrs :=
  mkAttrs id addr addr mask r w md sz "" "" "" "" [] [] ptr true.
Definition ex_blk : node := Node (ex_at "mem" 0x100 NOMASK true true INCREMENTAL 16 1) [] [].
Definition ex_msk : node := Node (ex_at "field" 0x20 0xF0 true true SINGLE 1 2) [] [].
Definition ex_ro : node := Node (ex_at "status" 0x24 NOMASK true false SINGLE 1 3) [] [].
Definition ex_sub : node :=
  Node (ex_at "sub" 0x20 NOMASK true true HIERARCHICAL 1 4) [("status"%string, 3%nat); ("field"%string, 2%nat)] [ex_msk; ex_ro].
Definition ex_tree : node :=
  Node default_attrs [("mem"%string, 1%nat); ("sub"%string, 4%nat)] [ex_sub; ex_blk].

Definition ex_cfg : cfg := mkCfg V2 1024 1024 None.
Example C27_case :
  get_node ex_tree "sub.status" = Found [0; 1]%nat /\
  hw_call ex_cfg ex_tree "sub.status" (NWrite 5) init_st = Some (inl (Node_exc WriteAccessDenied, init_st)) /\
  hw_call ex_cfg ex_tree "sub.field" (NWrite 5) init_st = Some (inr (run_op ex_cfg init_st (OWriteMask 0x20 5 0xF0))) /\
  permitted (n_at ex_blk) (NReadBlockOffset 4 12) /\ in_bounds (n_at ex_blk) (NReadBlockOffset 4 12) /\
  hw_call ex_cfg ex_tree "mem" (NReadBlockOffset 4 12) init_st = Some (inr (run_op ex_cfg init_st (OReadBlock 0x10C 4 true))) /\
  hw_call ex_cfg ex_tree "mem" (NReadBlockOffset 4 13) init_st = Some (inl (Node_exc BulkTransferRequestedTooLarge, init_st)).
Proof. repeat split; try reflexivity; cbn; auto; discriminate. Qed.

(** ** C28: bounds *)

(** A device that records the addresses it is accessed at; the specification of
    the operations of [Spec.v], which C14 relates to the code, run on it. *)
Definition touched (o : op) : list N :=
  fst (direct_op (list N) (fun d a => (d ++ [a], 0)) (fun d a _ => d ++ [a]) (fun d a => (d ++ [a], 0)) V2 [] o).

Lemma read_all_log l : forall d, fst (read_all (list N) (fun d a => (d ++ [a], 0)) d l) = d ++ l.
Proof.
  induction l as [|a t IH]; intros d; cbn [read_all]; [symmetry; apply app_nil_r|].
  specialize (IH (d ++ [a])). destruct (read_all _ _ _ t). cbn [fst] in *. rewrite IH, <- app_assoc. reflexivity.
Qed.

Lemma write_all_log l : forall d, write_all (list N) (fun d a _ => d ++ [a]) d l = d ++ map fst l.
Proof.
  induction l as [|[a x] t IH]; intros d; cbn [write_all map]; [symmetry; apply app_nil_r|].
  rewrite IH, <- app_assoc. reflexivity.
Qed.

Lemma touched_read_block a n inc : touched (OReadBlock a n inc) = block_addrs a (N.to_nat n) inc.
Proof.
  unfold touched. cbn [direct_op]. assert (E := read_all_log (block_addrs a (N.to_nat n) inc) []).
  destruct (read_all _ _ _ _). exact E.
Qed.

Lemma touched_write_block a l inc : touched (OWriteBlock a l inc) = block_addrs a (List.length l) inc.
Proof.
  unfold touched. cbn [direct_op fst]. rewrite write_all_log. cbn [app].
  assert (L : List.length (block_addrs a (List.length l) inc) = List.length l) by (unfold block_addrs; rewrite map_length, seq_length; reflexivity).
  revert L. generalize (block_addrs a (List.length l) inc). intros b. revert l.
  induction b as [|x b IH]; intros [|y l] L; cbn in *; try discriminate; trivial. f_equal. apply IH. congruence.
Qed.

(** The addresses that belong to a node: its size many from its base for an
    incremental block, otherwise the base. *)
Definition within (a : attrs) (x : N) : Prop :=
  x = a_addr a \/ (a_mode a <> NON_INCREMENTAL /\ exists i, i < a_size a /\ x = (a_addr a + i) mod 2 ^ 32).

Lemma block_within a base k n off : a_addr a < 2 ^ 32 -> base = (a_addr a + off) mod 2 ^ 32 -> N.of_nat n + off <= a_size a ->
  a_mode a <> NON_INCREMENTAL -> Forall (within a) (block_addrs base n k).
Proof.
  intros A E L M. apply Forall_forall. intros x X. unfold block_addrs in X. apply in_map_iff in X.
  destruct X as (i & <- & I). apply in_seq in I. right. split; [exact M|]. subst base. destruct k.
  - exists (off + N.of_nat i). split; [lia|]. rewrite N.add_mod_idemp_l by discriminate. f_equal. lia.
  - exists off. split; [lia|]. reflexivity.
Qed.

Lemma block_fixed a n : Forall (within a) (block_addrs (a_addr a) n false).
Proof.
  apply Forall_forall. intros x X. unfold block_addrs in X. apply in_map_iff in X. destruct X as (i & <- & I). left. reflexivity.
Qed.

(** C28, what holds: a call accepted by a node touches only addresses of that
    node, except for the two cases refuted below: a block transfer without offset
    on an incremental node of size 1, and readBlockOffset with size and offset
    adding up to 2^32 or more. *)
Theorem C28_bounds_partial : forall a o c, a_addr a < 2 ^ 32 ->
  node_op a o = inr c ->
  match o with
  | NReadBlockOffset n off => n + off < 2 ^ 32
  | NReadBlock _ | NWriteBlock _ => a_size a <> 1 \/ a_mode a <> INCREMENTAL
  | _ => True
  end -> Forall (within a) (touched c).
Proof.
  intros a o c A E H. destruct (node_op_inr _ _ _ E) as (_ & Q).
  destruct o as [x|l|l off| |n|n off]; cbn [node_op meant] in E, Q.
  - subst c. destruct (a_mask a =? 2 ^ 32 - 1); repeat constructor.
    unfold touched. cbn [direct_op]. destruct (mask_fits x (a_mask a)); repeat constructor.
  - subst c. rewrite touched_write_block. unfold node_write_block in E.
    destruct (a_mode a) eqn:M; cbn [mode_eqb negb andb] in *; try apply block_fixed.
    destruct H as [H|H]; [|congruence].
    destruct (negb (a_size a =? 1) && (a_size a <? N.of_nat (List.length l))) eqn:B; [discriminate|].
    apply (block_within a _ _ _ 0); trivial; [change (2 ^ 32) with 4294967296 in *; lia|lia|congruence].
  - subst c. rewrite touched_write_block. unfold node_write_block_offset in E.
    destruct (a_mode a) eqn:M; cbn [mode_eqb negb andb] in *; try discriminate;
      (destruct (a_size a <? N.of_nat (List.length l) + off) eqn:B; [discriminate|];
       apply (block_within a _ _ _ off); trivial; [lia|congruence]).
  - subst c. repeat constructor.
  - subst c. rewrite touched_read_block. unfold node_read_block in E.
    destruct (a_mode a) eqn:M; cbn [mode_eqb negb andb] in *; try apply block_fixed.
    destruct H as [H|H]; [|congruence].
    destruct (negb (a_size a =? 1) && (a_size a <? n)) eqn:B; [discriminate|].
    apply (block_within a _ _ _ 0); trivial; [change (2 ^ 32) with 4294967296 in *; lia|lia|congruence].
  - subst c. rewrite touched_read_block. unfold node_read_block_offset, add32, W32 in E.
    destruct (a_mode a) eqn:M; cbn [mode_eqb negb andb] in *; try discriminate;
      (change (2 ^ 32) with 4294967296 in *; destruct (a_size a <? (n + off) mod 4294967296) eqn:B; [discriminate|];
       apply (block_within a _ _ _ off); trivial; [lia|congruence]).
Qed.

(** A block transfer through a hierarchical node repeats the one address, as for
    a port: the words of a write overwrite each other. *)
Theorem C28_hierarchical_repeats : forall a o c, a_mode a = HIERARCHICAL -> node_op a o = inr c ->
  match o with
  | NReadBlock n => touched c = repeat (a_addr a) (N.to_nat n)
  | NWriteBlock l => touched c = repeat (a_addr a) (List.length l)
  | _ => True
  end.
Proof.
  intros a o c M E. destruct (node_op_inr _ _ _ E) as (_ & Q).
  assert (G : forall (x : N) k n, map (fun _ : nat => x) (seq k n) = repeat x n)
    by (intros x k n; revert k; induction n as [|n IH]; intros k; cbn [seq map repeat]; [reflexivity|f_equal; apply IH]).
  destruct o; trivial; subst c; cbn [meant]; rewrite M, ?touched_read_block, ?touched_write_block; unfold block_addrs; apply G.
Qed.

Example C28_hierarchical_case : exists c,
  node_op (n_at ex_sub) (NWriteBlock [1; 2; 3]) = inr c /\ touched c = [0x20; 0x20; 0x20].
Proof. eexists. split; reflexivity. Qed.

Example C28_case : exists c,
  node_op (n_at ex_blk) (NReadBlockOffset 4 12) = inr c /\ touched c = [0x10C; 0x10D; 0x10E; 0x10F].
Proof. eexists. split; reflexivity. Qed.

(** C28 is false in general: the sum of size and offset wraps around in
    readBlockOffset, so that a call reaching below (or beyond) the node is
    accepted. *)
Theorem C28_offset_refuted : forall a off, a_mode a = INCREMENTAL -> a_r a = true -> 2 <= a_size a < 2 ^ 31 ->
  a_addr a + a_size a <= 2 ^ 32 -> a_size a < 2 ^ 32 - off -> 2 ^ 31 < off < 2 ^ 32 ->
  exists n c x, n < 2 ^ 32 /\ node_op a (NReadBlockOffset n off) = inr c /\ In x (touched c) /\ ~ within a x.
Proof.
  intros a off M R S A B O. change (2 ^ 32) with 4294967296 in *. change (2 ^ 31) with 2147483648 in *.
  exists (4294967296 - off), (OReadBlock (add32 (a_addr a) off) (4294967296 - off) true), ((a_addr a + off) mod 4294967296).
  split; [lia|]. cbn [node_op]. unfold node_read_block_offset, inc_of. rewrite M, R. cbn [mode_eqb negb].
  replace (a_size a <? add32 (4294967296 - off) off) with false by (unfold add32, W32; lia).
  split; [reflexivity|]. split.
  - rewrite touched_read_block. unfold block_addrs. apply in_map_iff. exists 0%nat. split.
    + unfold add32, W32. change (2 ^ 32) with 4294967296. lia.
    + apply in_seq. lia.
  - unfold within. change (2 ^ 32) with 4294967296. intros [X|(_ & i & I & X)]; lia.
Qed.

(** ... and an incremental node that declares size 1 has no limit at all. *)
Theorem C28_size_one_refuted : forall a n, a_mode a = INCREMENTAL -> a_size a = 1 -> a_r a = true ->
  a_addr a < 2 ^ 32 -> 1 < n <= 2 ^ 32 ->
  exists c x, node_op a (NReadBlock n) = inr c /\ In x (touched c) /\ ~ within a x.
Proof.
  intros a n M S R A L. change (2 ^ 32) with 4294967296 in *.
  exists (OReadBlock (a_addr a) n true), ((a_addr a + 1) mod 4294967296). cbn [node_op].
  unfold node_read_block, inc_of. rewrite S, R. split; [|split].
  - rewrite M. reflexivity.
  - rewrite touched_read_block. unfold block_addrs. apply in_map_iff. exists 1%nat. split.
    + change (2 ^ 32) with 4294967296. reflexivity.
    + apply in_seq. lia.
  - unfold within. change (2 ^ 32) with 4294967296. intros [X|(_ & i & I & X)]; [lia|]. assert (i = 0) by lia. subst i. lia.
Qed.

Definition ex_one : attrs := ex_at "one" 0x200 NOMASK true true INCREMENTAL 1 0.
Example C28_refuted_case :
  node_op (n_at ex_blk) (NReadBlockOffset 20 (2 ^ 32 - 20)) = inr (OReadBlock 0xEC 20 true) /\
  hd 0 (touched (OReadBlock 0xEC 20 true)) = 0xEC /\
  node_op ex_one (NReadBlock 3) = inr (OReadBlock 0x200 3 true) /\
  touched (OReadBlock 0x200 3 true) = [0x200; 0x201; 0x202].
Proof. repeat split; reflexivity. Qed.

(** ** C29-C32 *)
Close Scope N_scope.

Lemma walk_not_dangling : forall toks t, wf t -> walk t toks <> Dangling.
Proof.
  induction toks as [|s r IH]; intros t W; cbn [walk]; [discriminate|].
  destruct (assoc s (n_map t)) as [x|] eqn:A; [|discriminate]. destruct W as [a m ch M IO WC]. cbn [n_map n_ch] in *.
  destruct (mo_sound _ M _ _ A) as (c & I & P & _). cbn [n_ch] in I. destruct (In_nth_error _ _ I) as (i & E).
  rewrite <- P, (child_ix_in ch c (mo_ptr _ M) i E), E.
  rewrite Forall_forall in WC. assert (Q := IH c (WC _ I)). destruct (walk c r); [discriminate|discriminate|congruence].
Qed.

(** C29: hasNode answers true exactly when getNode finds a node. *)
Theorem C29_has_node : forall t s, wf t -> exists b, has_node t s = Some b /\
  (b = true <-> exists p n, get_node t s = Found p /\ get t p = Some n) /\
  (b = false <-> get_node t s = NotFound).
Proof.
  intros t s W. unfold has_node. destruct s as [|c r].
  - exists true. cbn. split; [reflexivity|]. split; split; try discriminate; trivial. intros _. exists [], t. auto.
  - assert (N : String c r <> EmptyString) by discriminate. assert (G := get_node_walk t _ N).
    assert (ND := walk_not_dangling (split (String c r)) t W). unfold get_node in *. cbn [String.length Nat.eqb] in *.
    rewrite has_loop_get. rewrite G.
    destruct (walk t (split (String c r))) as [p| |] eqn:E; [| |congruence].
    + exists true. split; [reflexivity|]. split; split; try discriminate; trivial. intros _.
      destruct (walk_found _ _ _ E) as (n & Gn & _). exists p, n. auto.
    + exists false. split; [reflexivity|]. split; split; try discriminate; trivial. intros (p & n & X & _). discriminate.
Qed.

(** C31, composition: looking up a.b is looking up b in what is found for a. *)
Theorem C31_lookup_compose : forall t a b, a <> EmptyString -> b <> EmptyString ->
  get_node t (a ++ "." ++ b) =
  match get_node t a with
  | Found p => match get t p with
               | Some n => match get_node n b with Found q => Found (p ++ q) | r => r end
               | None => Dangling
               end
  | r => r
  end.
Proof.
  intros t a b A B. rewrite !get_node_walk; trivial.
  - rewrite split_app, walk_app. destruct (walk t (split a)) as [p| |]; trivial.
    destruct (get t p) as [n|]; trivial. rewrite get_node_walk by exact B. reflexivity.
  - destruct a; [congruence|discriminate].
Qed.

(** C31, round trip: looking up, from any ancestor, the path of a node relative
    to it gives that node back. *)
Theorem C31_round_trip : forall t p q n m, wf t -> distinct_ids t -> linked_below t ->
  get t p = Some n -> get n q = Some m ->
  exists path, relative_path t p q = Some path /\ get_node n path = Found q.
Proof.
  intros t p q n m W D K G Q. exists (join (ids_along n q)). split; [apply (relative_path_spec t p q n m); assumption|].
  assert (Wn := wf_get _ _ _ W G). assert (Dn := distinct_get _ _ _ D G).
  destruct q as [|i q]; [reflexivity|].
  destruct (ids_along_ok _ _ _ Wn Q) as (IO & L).
  assert (NE : ids_along n (i :: q) <> []) by (intros X; rewrite X in L; discriminate).
  rewrite get_node_walk.
  - rewrite split_join by (trivial; apply id_ok_free; exact IO). apply (walk_ids _ _ m); assumption.
  - intros X. assert (J := split_join _ NE (id_ok_free _ IO)). rewrite X in J. cbn [split] in J.
    rewrite <- J in IO. inversion IO as [|? ? (E & _) _]. congruence.
Qed.

(** ** C32 *)

(** Depth-first order of positions: a node before its descendants, and before
    everything under its later siblings. *)
Inductive before : list nat -> list nat -> Prop :=
| before_down i p : before [] (i :: p)
| before_side i j p q : i < j -> before (i :: p) (j :: q)
| before_in i p q : before p q -> before (i :: p) (i :: q).

Lemma preorder_from_ge k l : Forall (fun p => match p with i :: _ => k <= i | [] => False end) (preorder_from k l).
Proof.
  revert k. induction l as [|c r IH]; intros k; cbn [preorder_from]; [constructor|].
  apply Forall_app. split.
  - apply Forall_forall. intros p X. apply in_map_iff in X. destruct X as (q & <- & _). lia.
  - eapply Forall_impl; [|apply IH]. intros [|i p]; cbn; [trivial|lia].
Qed.

Lemma preorder_sorted : forall t, StronglySorted before (preorder t).
Proof.
  apply node_ind2. intros a m ch F. rewrite preorder_eq. constructor.
  - generalize 0. induction F as [|c r H F IH]; intros k; cbn [preorder_from]; [constructor|].
    assert (G := preorder_from_ge (S k) r). rewrite Forall_forall in G.
    assert (M : StronglySorted before (map (cons k) (preorder c))).
    { clear -H. induction H as [|x l H IH FA]; cbn [map]; constructor; trivial.
      apply Forall_forall. intros y Y. apply in_map_iff in Y. destruct Y as (z & <- & Z).
      rewrite Forall_forall in FA. apply before_in. apply FA. exact Z. }
    revert M. generalize (preorder c). intros l. induction l as [|x l IHl]; cbn [map app]; intros M; [apply IH|].
    inversion M; subst. constructor; [apply IHl; assumption|]. apply Forall_app. split; [assumption|].
    apply Forall_forall. intros y Y. apply G in Y. destruct y as [|i y]; [contradiction|]. apply before_side. lia.
  - apply Forall_forall. intros p X. assert (G := preorder_from_ge 0 ch). rewrite Forall_forall in G.
    apply G in X. destruct p; [contradiction|]. constructor.
Qed.

(** C32: a loop from begin() to end() visits the node and all its descendants,
    each exactly once, in depth-first order, and then stops: however many rounds
    it is given, it makes as many as there are nodes. *)
Theorem C32_iteration : forall t, exists ps,
  (forall f, iterate f t (Some []) = firstn f ps) /\
  NoDup ps /\ (forall p, In p ps <-> exists n, get t p = Some n) /\ StronglySorted before ps.
Proof.
  intros t. exists (preorder t). split; [intros f; apply iterate_all|].
  split; [apply preorder_nodup|]. split; [apply preorder_in|apply preorder_sorted].
Qed.

Example C32_case : iterate 10 ex_tree (Some []) = [[]; [0]; [0; 0]; [0; 1]; [1]].
Proof. reflexivity. Qed.

(** ** C30 *)

Lemma tl_preorder t : exists r, preorder t = [] :: r.
Proof. destruct t as [a m ch]. rewrite preorder_eq. eauto. Qed.

Lemma join_ids_inj n q1 q2 m1 m2 : wf n -> distinct_ids n -> get n q1 = Some m1 -> get n q2 = Some m2 -> q1 <> [] -> q2 <> [] ->
  join (ids_along n q1) = join (ids_along n q2) -> q1 = q2.
Proof.
  intros W D G1 G2 N1 N2 E.
  destruct (ids_along_ok _ _ _ W G1) as (I1 & L1). destruct (ids_along_ok _ _ _ W G2) as (I2 & L2).
  apply join_inj in E; try (apply id_ok_free; assumption).
  - assert (A := walk_ids _ _ _ W D G1). assert (B := walk_ids _ _ _ W D G2). rewrite E in A. congruence.
  - intros X. rewrite X in L1. destruct q1; [congruence|discriminate].
  - intros X. rewrite X in L2. destruct q2; [congruence|discriminate].
Qed.

(** C30: getNodes() of a node lists the relative paths of its proper descendants,
    all of them, each once, in depth-first order, and looking up the k-th path
    from the node gives the k-th descendant. *)
Theorem C30_get_nodes : forall t p n, wf t -> distinct_ids t -> linked_below t -> get t p = Some n ->
  exists qs paths,
    get_nodes t p = Some (map Some paths) /\
    (forall q, In q qs <-> q <> [] /\ exists m, get n q = Some m) /\ NoDup qs /\ StronglySorted before qs /\
    NoDup paths /\ Forall2 (fun q path => get_node n path = Found q) qs paths.
Proof.
  intros t p n W D K G. assert (Wn := wf_get _ _ _ W G). assert (Dn := distinct_get _ _ _ D G).
  destruct (tl_preorder n) as (qs & E). exists qs, (map (fun q => join (ids_along n q)) qs).
  assert (IN : forall q, In q qs <-> q <> [] /\ exists m, get n q = Some m).
  { intros q. assert (ND := preorder_nodup n). rewrite E in ND. inversion ND; subst. rewrite <- preorder_in, E. cbn [In]. split.
    - intros X. split; [intros ->; contradiction|auto].
    - intros (A & [B|B]); [congruence|exact B]. }
  assert (IT : iterate (size n) n (next n (Some [])) = qs).
  { assert (X : tl (iterate (S (size n)) n (Some [])) = firstn (size n) qs) by (rewrite iterate_all, E; reflexivity).
    change (iterate (size n) n (next n (Some [])) = firstn (size n) qs) in X. rewrite X. apply firstn_all2. rewrite <- (preorder_length n), E. cbn. lia. }
  split; [|split; [exact IN|split; [|split; [|split]]]].
  - unfold get_nodes. rewrite G. cbn [option_map]. rewrite IT, map_map. f_equal. apply map_ext_in. intros q X.
    apply IN in X. destruct X as (_ & m & Q). apply (relative_path_spec t p q n m); assumption.
  - assert (ND := preorder_nodup n). rewrite E in ND. inversion ND; assumption.
  - assert (S := preorder_sorted n). rewrite E in S. inversion S; assumption.
  - assert (ND := preorder_nodup n). rewrite E in ND. apply NoDup_cons_iff in ND. destruct ND as (_ & ND').
    clear -IN ND' Wn Dn. assert (IN' : forall q, In q qs -> q <> [] /\ exists m, get n q = Some m) by (intros q; apply IN).
    clear IN. induction ND' as [|q qs NI ND IH]; cbn [map]; constructor.
    + intros X. apply in_map_iff in X. destruct X as (q' & X & I).
      destruct (IN' q (or_introl eq_refl)) as (N1 & m1 & G1). destruct (IN' q' (or_intror I)) as (N2 & m2 & G2).
      assert (q' = q) by (eapply join_ids_inj; eauto). subst. contradiction.
    + apply IH. intros q' X. apply IN'. right. exact X.
  - assert (IN' : forall q, In q qs -> q <> [] /\ exists m, get n q = Some m) by (intros q; apply IN).
    clear -IN' Wn Dn W D K G. revert IN'. generalize qs. intros l. induction l as [|q l IH]; intros IN'; cbn [map]; constructor.
    + destruct (IN' q (or_introl eq_refl)) as (_ & m & Q).
      destruct (C31_round_trip t p q n m W D K G Q) as (path & R & F).
      rewrite (relative_path_spec t p q n m K W G Q) in R. injection R as <-. exact F.
    + apply IH. intros q' X. apply IN'. right. exact X.
Qed.

Lemma ex_wf : wf ex_tree /\ distinct_ids ex_tree /\ linked_below ex_tree.
Proof.
  assert (MO : forall a m ch, NoDup (map (fun c => a_ptr (n_at c)) ch) ->
    Forall (fun kx => exists c, In c ch /\ a_ptr (n_at c) = snd kx /\ a_id (n_at c) = fst kx) m ->
    Forall (fun c => assoc (a_id (n_at c)) m <> None) ch -> map_ok (Node a m ch)).
  { intros a m ch N S C. constructor; cbn [n_ch n_map]; trivial.
    - intros k x. clear C. induction S as [|[k' x'] r H S IH]; cbn [assoc]; [discriminate|].
      destruct (String.eqb_spec k k'); [|exact IH]. intros E. injection E as <-. subst. exact H.
    - rewrite Forall_forall in C. exact C. }
  assert (LF : forall a, wf (Node a [] []) /\ distinct_ids (Node a [] []) /\ linked_below (Node a [] [])).
  { intros a. split; [|split]; constructor; try constructor; cbn; try constructor; try discriminate; contradiction. }
  assert (NN : forall a b : nat, a <> b -> NoDup [a; b]).
  { intros a b H. constructor; [intros [X|[]]; congruence|]. constructor; [intros []|constructor]. }
  assert (NS : forall a b : string, a <> b -> NoDup [a; b]).
  { intros a b H. constructor; [intros [X|[]]; congruence|]. constructor; [intros []|constructor]. }
  assert (SUB : wf ex_sub /\ distinct_ids ex_sub /\ linked_below ex_sub).
  { split; [|split].
    - constructor; [apply MO| |repeat (constructor; try apply LF)].
      + apply NN. discriminate.
      + repeat constructor; [exists ex_ro|exists ex_msk]; cbn; auto.
      + repeat constructor; discriminate.
      + repeat constructor; discriminate.
    - constructor; [apply NS; discriminate|repeat (constructor; try apply LF)].
    - constructor; [repeat constructor|repeat (constructor; try apply LF)]. }
  split; [|split].
  - constructor; [apply MO| |constructor; [apply SUB|constructor; [apply LF|constructor]]].
    + apply NN. discriminate.
    + repeat constructor; [exists ex_blk|exists ex_sub]; cbn; auto.
    + repeat constructor; discriminate.
    + repeat constructor; discriminate.
  - constructor; [apply NS; discriminate|constructor; [apply SUB|constructor; [apply LF|constructor]]].
  - constructor; [repeat constructor|constructor; [apply SUB|constructor; [apply LF|constructor]]].
Qed.

Example C30_case : wf ex_tree /\ distinct_ids ex_tree /\ linked_below ex_tree /\
  get_nodes ex_tree [] = Some (map Some ["sub"; "sub.field"; "sub.status"; "mem"]%string) /\
  get_node ex_tree "sub.status" = Found [0; 1] /\ has_node ex_tree "sub.none" = Some false /\
  get_node ex_tree "sub." = NotFound /\ get_node ex_tree "" = Found [].
Proof. destruct ex_wf as (A & B & C). split; [exact A|]. split; [exact B|]. split; [exact C|]. repeat split; reflexivity. Qed.

(** ** C33: copies *)

(** Everything but the object address and the link upwards. *)
Definition same_attrs (a b : attrs) : Prop := set_ptr (set_linked a true) 0 = set_ptr (set_linked b true) 0.

Lemma clone_ch t : n_ch (clone t) = map (fun c => with_attrs (clone c) (fun b => set_linked b true)) (n_ch t).
Proof. destruct t as [a m ch]. cbn [clone n_ch]. apply map_ext. intros c. destruct (clone c). reflexivity. Qed.

Lemma clone_at t : n_at (clone t) = set_linked (n_at t) false.
Proof. destruct t; reflexivity. Qed.

Lemma clone_map t : n_map (clone t) = children_map (n_ch (clone t)).
Proof. destruct t; reflexivity. Qed.

Lemma get_with_attrs t f p : p <> [] -> get (with_attrs t f) p = get t p.
Proof. destruct p; [congruence|reflexivity]. Qed.

Lemma clone_get : forall p t, match get t p, get (clone t) p with
                              | Some n, Some n' => same_attrs (n_at n) (n_at n') /\ List.length (n_ch n) = List.length (n_ch n')
                              | None, None => True
                              | _, _ => False
                              end.
Proof.
  induction p as [|i p IH]; intros t.
  - cbn [get]. rewrite clone_at, clone_ch, map_length. split; [reflexivity|reflexivity].
  - cbn [get]. rewrite clone_ch, nth_error_map. destruct (nth_error (n_ch t) i) as [c|]; cbn [option_map]; [|exact I].
    specialize (IH c). destruct p as [|j p].
    + cbn [get] in *. cbn [with_attrs n_at n_ch]. rewrite clone_at, clone_ch, map_length. split; reflexivity.
    + rewrite get_with_attrs by discriminate. exact IH.
Qed.

(** The map filled from the children. *)
Lemma assoc_app {A} k (m1 m2 : list (string * A)) : assoc k (m1 ++ m2) = match assoc k m1 with Some x => Some x | None => assoc k m2 end.
Proof. induction m1 as [|[x v] r IH]; cbn; [reflexivity|]. destruct (String.eqb k x); [reflexivity|exact IH]. Qed.

Lemma assoc_insert {A} k (m : list (string * A)) k' v :
  assoc k (map_insert m k' v) = match assoc k m with Some x => Some x | None => if String.eqb k k' then Some v else None end.
Proof.
  unfold map_insert. destruct (assoc k' m) as [y|] eqn:E.
  - destruct (assoc k m) eqn:F; [reflexivity|]. destruct (String.eqb_spec k k'); [|reflexivity]. congruence.
  - rewrite assoc_app. destruct (assoc k m); reflexivity.
Qed.

Lemma children_map_assoc k ch : assoc k (children_map ch) = option_map (fun c => a_ptr (n_at c)) (find (fun c => String.eqb k (a_id (n_at c))) ch).
Proof.
  unfold children_map.
  assert (X : forall m, assoc k (fold_left (fun m c => map_insert m (a_id (n_at c)) (a_ptr (n_at c))) ch m) =
    match assoc k m with Some x => Some x | None => option_map (fun c => a_ptr (n_at c)) (find (fun c => String.eqb k (a_id (n_at c))) ch) end).
  { induction ch as [|c r IH]; intros m; cbn [fold_left find].
    - destruct (assoc k m); reflexivity.
    - rewrite IH, assoc_insert. destruct (assoc k m); [reflexivity|]. destruct (String.eqb k (a_id (n_at c))); reflexivity. }
  rewrite X. reflexivity.
Qed.

Lemma children_map_ok a ch : NoDup (map (fun c => a_ptr (n_at c)) ch) -> map_ok (Node a (children_map ch) ch).
Proof.
  intros N. constructor; cbn [n_ch n_map]; trivial.
  - intros k x E. rewrite children_map_assoc in E. destruct (find _ ch) as [c|] eqn:F; [|discriminate]. injection E as <-.
    apply find_some in F. destruct F as (I & Q). apply String.eqb_eq in Q. exists c. auto.
  - intros c I E. rewrite children_map_assoc in E. destruct (find _ ch) as [d|] eqn:F; [discriminate|].
    assert (X := find_none _ _ F c I). cbn in X. rewrite String.eqb_refl in X. discriminate.
Qed.

Lemma map_clone_attr {B} (f : attrs -> B) ch : (forall a b, f (set_linked a b) = f a) ->
  map (fun c => f (n_at c)) (map (fun c => with_attrs (clone c) (fun b => set_linked b true)) ch) = map (fun c => f (n_at c)) ch.
Proof. intros H. rewrite map_map. apply map_ext. intros c. cbn [with_attrs n_at]. rewrite clone_at, !H. reflexivity. Qed.

Lemma with_attrs_wf t f : wf t -> wf (with_attrs t f).
Proof. intros H. destruct H as [a m ch M I W]. destruct M as [M1 M2 M3]. constructor; trivial. constructor; trivial. Qed.

Lemma clone_wf : forall t, wf t -> wf (clone t) /\ linked_below (clone t).
Proof.
  apply (node_ind2 (fun t => wf t -> wf (clone t) /\ linked_below (clone t))). intros a m ch F W.
  inversion W as [? ? ? M IO WC]; subst.
  assert (CH := clone_ch (Node a m ch)). assert (CA := clone_at (Node a m ch)). assert (CM := clone_map (Node a m ch)).
  destruct (clone (Node a m ch)) as [a' m' ch']. cbn [n_ch n_at n_map] in *. subst a' m'. rewrite CH.
  rewrite Forall_forall in F, IO, WC. split.
  - constructor.
    + apply children_map_ok. rewrite (map_clone_attr a_ptr) by reflexivity. exact (mo_ptr _ M).
    + apply Forall_forall. intros c X. apply in_map_iff in X. destruct X as (d & <- & I). cbn [with_attrs n_at].
      rewrite clone_at. exact (IO d I).
    + apply Forall_forall. intros c X. apply in_map_iff in X. destruct X as (d & <- & I).
      apply with_attrs_wf. apply (F d I (WC d I)).
  - constructor.
    + apply Forall_forall. intros c X. apply in_map_iff in X. destruct X as (d & <- & I). reflexivity.
    + apply Forall_forall. intros c X. apply in_map_iff in X. destruct X as (d & <- & I).
      destruct (F d I (WC d I)) as (_ & K). destruct (linked_below_inv _ K). destruct (clone d); constructor; assumption.
Qed.

Lemma clone_distinct : forall t, distinct_ids t -> distinct_ids (clone t).
Proof.
  apply (node_ind2 (fun t => distinct_ids t -> distinct_ids (clone t))). intros a m ch F D.
  inversion D as [? ? ? N DC]; subst. assert (CH := clone_ch (Node a m ch)).
  destruct (clone (Node a m ch)) as [a' m' ch']. cbn [n_ch] in CH. subst ch'. constructor.
  - rewrite (map_clone_attr a_id) by reflexivity. exact N.
  - rewrite Forall_forall in F, DC. apply Forall_forall. intros c X. apply in_map_iff in X. destruct X as (d & <- & I).
    assert (K := F d I (DC d I)). destruct (clone d); inversion K; subst; constructor; assumption.
Qed.

Lemma walk_with_attrs t f l : walk (with_attrs t f) l = walk t l.
Proof. destruct l; reflexivity. Qed.

Lemma find_NoDup {A} (f : A -> string) l x : NoDup (map f l) -> In x l -> find (fun y => String.eqb (f x) (f y)) l = Some x.
Proof.
  intros N I. destruct (find (fun y => String.eqb (f x) (f y)) l) as [y|] eqn:F.
  - apply find_some in F. destruct F as (J & E). apply String.eqb_eq in E. f_equal. eapply NoDup_map_eq; eauto.
  - assert (X := find_none _ _ F x I). cbn in X. rewrite String.eqb_refl in X. discriminate.
Qed.

Lemma clone_walk : forall l t, wf t -> distinct_ids t -> walk (clone t) l = walk t l.
Proof.
  induction l as [|s r IH]; intros t W D; [reflexivity|]. cbn [walk]. rewrite clone_map, children_map_assoc.
  inversion W as [a m ch M IO WC]; subst. inversion D as [? ? ? N DC]; subst. rewrite clone_ch. cbn [n_ch n_map].
  set (g := fun c => with_attrs (clone c) (fun b => set_linked b true)).
  assert (PT : map (fun c => a_ptr (n_at c)) (map g ch) = map (fun c => a_ptr (n_at c)) ch) by (apply (map_clone_attr a_ptr); reflexivity).
  assert (ND : NoDup (map (fun c => a_id (n_at c)) (map g ch))) by (unfold g; rewrite (map_clone_attr a_id) by reflexivity; exact N).
  destruct (assoc s m) as [x|] eqn:A.
  - destruct (mo_sound _ M _ _ A) as (c & I & P & E). cbn [n_ch] in I. destruct (In_nth_error _ _ I) as (i & NI).
    assert (FX : find (fun c0 => String.eqb s (a_id (n_at c0))) (map g ch) = Some (g c)).
    { rewrite <- E. replace (a_id (n_at c)) with (a_id (n_at (g c))) by (unfold g; cbn [with_attrs n_at]; rewrite clone_at; reflexivity).
      apply (find_NoDup (fun c => a_id (n_at c))); [exact ND|]. apply in_map. exact I. }
    rewrite FX. cbn [option_map].
    replace (a_ptr (n_at (g c))) with x by (unfold g; cbn [with_attrs n_at]; rewrite clone_at, <- P; reflexivity).
    assert (IX : child_ix x ch = Some i) by (rewrite <- P; apply child_ix_in; [exact (mo_ptr _ M)|exact NI]).
    assert (IX' : child_ix x (map g ch) = Some i).
    { replace x with (a_ptr (n_at (g c))) by (unfold g; cbn [with_attrs n_at]; rewrite clone_at, <- P; reflexivity).
      apply child_ix_in; [rewrite PT; exact (mo_ptr _ M)|]. rewrite nth_error_map, NI. reflexivity. }
    rewrite IX, IX', nth_error_map, NI. cbn [option_map]. unfold g. rewrite walk_with_attrs.
    rewrite Forall_forall in WC, DC. rewrite IH by auto. reflexivity.
  - replace (find (fun c0 => String.eqb s (a_id (n_at c0))) (map g ch)) with (@None node); [reflexivity|].
    symmetry. destruct (find _ (map g ch)) as [d|] eqn:F; [|reflexivity]. exfalso.
    apply find_some in F. destruct F as (I & Q). apply String.eqb_eq in Q. apply in_map_iff in I. destruct I as (c & <- & I).
    unfold g in Q. cbn [with_attrs n_at] in Q. rewrite clone_at in Q. cbn [set_linked a_id] in Q.
    apply (mo_complete _ M c I). cbn [n_map]. rewrite <- Q. exact A.
Qed.

(** C33: a copy has the same nodes at the same places with the same attributes,
    and the same lookups; it is again well-formed. *)
Theorem C33_clone : forall t, wf t -> distinct_ids t ->
  (forall p, match get t p, get (clone t) p with
             | Some n, Some n' => same_attrs (n_at n) (n_at n')
             | None, None => True
             | _, _ => False
             end) /\
  (forall s, get_node (clone t) s = get_node t s) /\ (forall s, has_node (clone t) s = has_node t s) /\
  wf (clone t) /\ distinct_ids (clone t) /\ linked_below (clone t).
Proof.
  intros t W D. assert (CW := clone_wf t W). assert (CD := clone_distinct t D).
  assert (GN : forall s, get_node (clone t) s = get_node t s).
  { intros s. destruct s as [|c r]; [reflexivity|]. rewrite !get_node_walk by discriminate. apply clone_walk; assumption. }
  split; [|split; [exact GN|split; [|destruct CW; auto]]].
  - intros p. assert (X := clone_get p t). destruct (get t p), (get (clone t) p); tauto.
  - intros s. assert (X := GN s). unfold has_node, get_node in *.
    destruct (Nat.eqb (String.length s) 0); [reflexivity|]. rewrite !has_loop_get, X. reflexivity.
Qed.

Example C33_case : get_node (clone ex_tree) "sub.status" = Found [0; 1] /\
  option_map (fun n => a_addr (n_at n)) (get (clone ex_tree) [0; 1]) = Some 0x24%N.
Proof. split; reflexivity. Qed.

(** With operator= the firmware information is not copied: C33 is false of it. *)
Theorem C33_assign_refuted : forall old t, a_fw (n_at old) <> a_fw (n_at t) ->
  ~ same_attrs (n_at t) (n_at (assign_node old t)).
Proof. intros old t H E. apply H. unfold same_attrs in E. unfold assign_node in E. cbn in E. injection E. congruence. Qed.

Example C33_assign_case :
  let t := with_attrs ex_tree (fun a => mkAttrs (a_id a) (a_paddr a) (a_addr a) (a_mask a) (a_r a) (a_w a) (a_mode a) (a_size a)
             (a_tags a) (a_desc a) (a_module a) (a_class a) (a_pars a) [("type", "endpoint")]%string (a_ptr a) (a_linked a)) in
  a_fw (n_at t) <> [] /\ a_fw (n_at (assign_node ex_tree t)) = [] /\ a_id (n_at (assign_node ex_tree t)) = a_id (n_at t).
Proof. cbn. split; [discriminate|split; reflexivity]. Qed.

Print Assumptions C27_denied.
Print Assumptions C27_granted.
Print Assumptions C27_only.
Print Assumptions C28_bounds_partial.
Print Assumptions C28_hierarchical_repeats.
Print Assumptions C28_offset_refuted.
Print Assumptions C28_size_one_refuted.
Print Assumptions C29_has_node.
Print Assumptions C30_get_nodes.
Print Assumptions C31_lookup_compose.
Print Assumptions C31_round_trip.
Print Assumptions C32_iteration.
Print Assumptions C33_clone.
Print Assumptions C33_assign_refuted.
