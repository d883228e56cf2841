(** Theorems about the memory of the page ring: C52 (copying replies), C53 (mmap
    writes), C70 (packets and pages), C71 (header word), C72 (mmap bounds). *)
From Coq Require Import NArith ZArith Lia List Bool Arith ZifyBool ZifyNat ZifyN.
From Verif Require Import Word WordLemmas Client Validate Ring Pages.
Import ListNotations.
Open Scope N_scope.
Ltac Zify.zify_post_hook ::= Z.div_mod_to_equations.

(** ** C52: copying a reply page *)

Lemma header_words_bound : forall w, w < W32 -> header_words w < 2 ^ 17.
Proof.
  intros w H. unfold header_words. rewrite N.shiftr_div_pow2.
  change 0xFFFF with (N.ones 16). rewrite N.land_ones. unfold W32 in H.
  change (2 ^ 16) with 65536. change (2 ^ 17) with 131072. lia.
Qed.

Lemma scatter_nil : forall ds, scatter ds [] = map (fun e => (e, [])) ds.
Proof. intros ds; induction ds as [|d t IH]; [reflexivity|]. cbn [scatter map]. rewrite firstn_nil, skipn_nil, IH. reflexivity. Qed.

Lemma skipn_skipn' : forall A (l : list A) i j, skipn i (skipn j l) = skipn (i + j) l.
Proof.
  intros A l; induction l as [|x l IH]; intros i j.
  - rewrite !skipn_nil. reflexivity.
  - destruct j; [rewrite Nat.add_0_r; reflexivity|]. rewrite Nat.add_succ_r. cbn [skipn]. apply IH.
Qed.

Lemma copy_loop_spec : forall m w ws ds k,
  m < 2 ^ 17 ->
  N.of_nat k + dests_words ds <= N.of_nat (length ws) ->
  copy_loop (4 * m) (w :: ws) (4 * N.of_nat k) ds = CpOk (scatter ds (skipn k (firstn (N.to_nat m) ws))) \/
  (copy_loop (4 * m) (w :: ws) (4 * N.of_nat k) ds = CpRange /\ N.of_nat (length ws) < m /\
   exists d, In d ds /\ dest_words d = 0).
Proof.
  intros m w ws ds; induction ds as [|d t IH]; intros k Hm Hk; cbn [copy_loop].
  - left; reflexivity.
  - cbn [dests_words] in Hk. destruct (4 * m <=? 4 * N.of_nat k) eqn:E1.
    + left. rewrite skipn_firstn_comm. replace (N.to_nat m - k)%nat with O by lia. cbn [firstn]. rewrite scatter_nil. reflexivity.
    + replace (4 * N.of_nat k / 4) with (N.of_nat k) by lia.
      destruct (N.of_nat (length (w :: ws)) <=? 1 + N.of_nat k) eqn:E2.
      * right. cbn [length] in E2. split; [reflexivity|]. split; [lia|]. exists d. split; [left; reflexivity|lia].
      * cbn [length] in E2.
        assert (En : N.min (4 * dest_words d) (wrap32 (4 * m - 4 * N.of_nat k)) = 4 * N.min (dest_words d) (m - N.of_nat k)).
        { unfold wrap32, W32. rewrite N.mod_small by (change (2 ^ 17) with 131072 in Hm; lia). lia. }
        rewrite En. unfold take_words. cbn [length].
        replace (4 * (1 + N.of_nat k) + 4 * N.min (dest_words d) (m - N.of_nat k) <=? 4 * N.of_nat (S (length ws))) with true by lia.
        replace (4 * N.min (dest_words d) (m - N.of_nat k) / 4) with (N.min (dest_words d) (m - N.of_nat k)) by lia.
        replace (N.to_nat (1 + N.of_nat k)) with (S k) by lia. cbn [skipn scatter].
        set (j := N.to_nat (N.min (dest_words d) (m - N.of_nat k))).
        replace (4 * N.of_nat k + 4 * N.min (dest_words d) (m - N.of_nat k)) with (4 * N.of_nat (k + j)) by lia.
        assert (F : firstn j (skipn k ws) = firstn (N.to_nat (dest_words d)) (skipn k (firstn (N.to_nat m) ws))).
        { rewrite skipn_firstn_comm, firstn_firstn. f_equal. lia. }
        assert (G : scatter t (skipn (k + j) (firstn (N.to_nat m) ws)) =
                    scatter t (skipn (N.to_nat (dest_words d)) (skipn k (firstn (N.to_nat m) ws)))).
        { f_equal. rewrite skipn_skipn'. destruct (N.le_gt_cases (dest_words d) (m - N.of_nat k)) as [L|L].
          - f_equal. lia.
          - rewrite !skipn_all2; [reflexivity| |]; rewrite firstn_length; lia. }
        destruct (IH (k + j)%nat Hm) as [Z|(Z1 & Z2 & d' & Z3 & Z4)]; [lia| |].
        -- left. rewrite Z, F, G. reflexivity.
        -- right. rewrite Z1. split; [reflexivity|]. split; [exact Z2|]. exists d'. split; [right; exact Z3|exact Z4].
Qed.

(** C52: whatever 32-bit header word the page holds, the copy never reads
    outside the words read from the page and never puts more in a reply buffer
    than it holds: each buffer gets the next words of the announced packet.
    The only exception is std::out_of_range, when the page announces more words
    than were asked for and an empty read is among the requests. *)
Theorem C52_copy : forall b w ws wk,
  w < W32 -> length (w :: ws) = N.to_nat (read_words wk (reply_counter b)) ->
  copy_page (w :: ws) b = CpOk (scatter (b_reply b) (firstn (N.to_nat (header_words w)) ws)) \/
  (copy_page (w :: ws) b = CpRange /\ dests_words (b_reply b) < header_words w /\
   exists d, In d (b_reply b) /\ dest_words d = 0).
Proof.
  intros b w ws wk Hw Hl. unfold copy_page.
  assert (Hlen : dests_words (b_reply b) <= N.of_nat (length ws)).
  { unfold read_words, reply_counter in Hl. cbn [length] in Hl.
    replace (4 * dests_words (b_reply b) / 4) with (dests_words (b_reply b)) in Hl by lia.
    destruct (wk && _)%bool; lia. }
  destruct (copy_loop_spec (header_words w) w ws (b_reply b) 0 (header_words_bound w Hw)) as [Z|(Z1 & Z2 & Z3)]; [lia| |].
  - left. exact Z.
  - right. split; [exact Z1|]. split; [lia|exact Z3].
Qed.

(** Never out of bounds, and each buffer gets at most its size. *)
Theorem C52_bounds : forall b w ws wk,
  w < W32 -> length (w :: ws) = N.to_nat (read_words wk (reply_counter b)) ->
  copy_page (w :: ws) b <> CpBad /\
  (forall l, copy_page (w :: ws) b = CpOk l -> Forall (fun e => N.of_nat (length (snd e)) <= dest_words (fst e)) l).
Proof.
  intros b w ws wk Hw Hl. destruct (C52_copy b w ws wk Hw Hl) as [Z|(Z & _)]; rewrite Z; split; try discriminate.
  intros l E. assert (El : l = scatter (b_reply b) (firstn (N.to_nat (header_words w)) ws)) by congruence. rewrite El. clear.
  generalize (firstn (N.to_nat (header_words w)) ws) as u. generalize (b_reply b) as ds.
  induction ds as [|d t IH]; intros u; cbn [scatter]; constructor; [|apply IH].
  cbn [fst snd]. rewrite firstn_length. lia.
Qed.

(** When the page announces the expected number of words the user sees exactly
    the packet in the page: the copy is the one of the other transports. *)
Theorem C52_same : forall g heap b w ws wk,
  w < W32 -> length (w :: ws) = N.to_nat (read_words wk (reply_counter b)) ->
  header_words w = dests_words (b_reply b) ->
  exists l, copy_page (w :: ws) b = CpOk l /\
    receive_packet g heap b (firstn (N.to_nat (dests_words (b_reply b))) ws) =
    (let h := fill heap l in
     match validate_packet g b l with VOk => (mark_valid h (b_vals b), VOk) | r => (h, r) end).
Proof.
  intros g heap b w ws wk Hw Hl He.
  destruct (C52_copy b w ws wk Hw Hl) as [Z|(_ & Z & _)]; [|lia].
  eexists; split; [exact Z|]. rewrite He. reflexivity.
Qed.

(** A read of two words and a status word; the page announces 65536 words: the
    reply buffers get what they asked for and nothing else. *)
Definition reply4 : buf := mkBuf [0x200000F0; 0x2000020F; 0x1000] [DPkt; DHdr; DVec 0 0 2] [0%nat].
Example copy_long : copy_page [0x1FFFF; 0x200000F0; 0x20000200; 7; 8] reply4 =
  CpOk [(DPkt, [0x200000F0]); (DHdr, [0x20000200]); (DVec 0 0 2, [7; 8])] /\
  length [0x1FFFF; 0x200000F0; 0x20000200; 7; 8] = N.to_nat (read_words false (reply_counter reply4)).
Proof. vm_compute. auto. Qed.
Example copy_short : copy_page [0x10001; 0x200000F0; 0x20000201; 7; 8] reply4 =
  CpOk [(DPkt, [0x200000F0]); (DHdr, [0x20000201]); (DVec 0 0 2, [])].
Proof. vm_compute. reflexivity. Qed.
Example copy_exact : header_words 0x10003 = dests_words (b_reply reply4).
Proof. reflexivity. Qed.
(** An empty read last in the packet and a page announcing too much:
    std::out_of_range leaves the copy. *)
Definition reply_empty : buf := mkBuf [0x200000F0; 0x2000000F; 0x1000] [DPkt; DHdr; DVec 0 0 0] [0%nat].
Example copy_range : copy_page [0x10007; 0x200000F0; 0x20000000] reply_empty = CpRange.
Proof. vm_compute. reflexivity. Qed.

(** ** C53: what an mmap write changes *)

(** [m'] is [m] with the words [ws] from word [a] on, and no other change. *)
Definition written (m : mem) (a : N) (ws : list N) (m' : mem) : Prop :=
  forall b, m' b = if (a <=? b) && (b <? a + N.of_nat (length ws)) then nth (N.to_nat (b - a)) ws 0 else m b.

Lemma list_pair_ind : forall (P : list N -> Prop), P [] -> (forall x, P [x]) ->
  (forall x y t, P t -> P (x :: y :: t)) -> forall l, P l.
Proof.
  intros P H0 H1 H2. assert (Z : forall l, P l /\ forall x, P (x :: l)).
  { induction l as [|y l [IH1 IH2]]; [auto|]. split; [apply IH2|]. intros x. apply H2. exact IH1. }
  intros l. apply Z.
Qed.

Lemma mmap_store_at : forall ws m a b,
  mmap_store m a ws b =
    if (a <=? b) && (b <? a + N.of_nat (length ws)) then nth (N.to_nat (b - a)) ws 0
    else if N.odd (N.of_nat (length ws)) && (b =? a + N.of_nat (length ws)) then 0 else m b.
Proof.
  intros ws; induction ws as [|x|x y t IH] using list_pair_ind; intros m a b.
  - cbn [mmap_store length]. replace ((a <=? b) && (b <? a + N.of_nat 0)) with false by lia. reflexivity.
  - cbn [mmap_store length]. unfold set_word. change (N.odd (N.of_nat 1)) with true. cbn [andb].
    replace (a + N.of_nat 1) with (a + 1) by lia.
    destruct (N.eqb_spec b (a + 1)) as [->|H1].
    + replace ((a <=? a + 1) && (a + 1 <? a + 1)) with false by lia. reflexivity.
    + destruct (N.eqb_spec b a) as [->|H2].
      * replace ((a <=? a) && (a <? a + 1)) with true by lia. rewrite N.sub_diag. reflexivity.
      * replace ((a <=? b) && (b <? a + 1)) with false by lia. reflexivity.
  - cbn [mmap_store length]. rewrite IH. unfold set_word.
    replace (N.odd (N.of_nat (S (S (length t))))) with (N.odd (N.of_nat (length t))).
    2:{ rewrite !Nat2N.inj_succ, N.odd_succ, N.even_succ. reflexivity. }
    replace (a + 2 + N.of_nat (length t)) with (a + N.of_nat (S (S (length t)))) by lia.
    destruct (N.lt_ge_cases b a) as [L|L].
    + replace (a + 2 <=? b) with false by lia. replace (a <=? b) with false by lia. cbn [andb].
      destruct (N.odd (N.of_nat (length t)) && (b =? a + N.of_nat (S (S (length t))))); [reflexivity|].
      replace (b =? a + 1) with false by lia. replace (b =? a) with false by lia. reflexivity.
    + replace (a <=? b) with true by lia. cbn [andb].
      destruct (N.eqb_spec b a) as [->|H1].
      { replace (a + 2 <=? a) with false by lia. cbn [andb]. replace (a <? a + N.of_nat (S (S (length t)))) with true by lia.
        replace (a =? a + N.of_nat (S (S (length t)))) with false by lia. rewrite andb_false_r.
        replace (a =? a + 1) with false by lia. rewrite N.sub_diag. reflexivity. }
      destruct (N.eqb_spec b (a + 1)) as [->|H2].
      { replace (a + 2 <=? a + 1) with false by lia. cbn [andb]. replace (a + 1 <? a + N.of_nat (S (S (length t)))) with true by lia.
        replace (a + 1 =? a + N.of_nat (S (S (length t)))) with false by lia. rewrite andb_false_r.
        replace (N.to_nat (a + 1 - a)) with 1%nat by lia. reflexivity. }
      replace (a + 2 <=? b) with true by lia. cbn [andb].
      destruct (b <? a + N.of_nat (S (S (length t)))) eqn:Z; [|reflexivity].
      replace (N.to_nat (b - a)) with (S (S (N.to_nat (b - (a + 2))))) by lia. reflexivity.
Qed.

(** C53 for an even number of words (page header included): exactly those words
    change.  Missing: an odd number ([C53_refuted]). *)
Theorem C53_even_partial : forall m addr ws m', addr mod 4 = 0 ->
  N.even (N.of_nat (length ws)) = true -> mmap_write m addr ws = Some m' -> written m (addr / 4) ws m'.
Proof.
  intros m addr ws m' Ha He H b. unfold mmap_write in H. destruct (map_size <? _); [discriminate H|]. inversion H; subst.
  rewrite mmap_store_at. rewrite <- N.negb_even, He. reflexivity.
Qed.

(** Exact effect for every number of words: with an odd number the word after
    the packet becomes 0. *)
Theorem C53_effect : forall m addr ws m', addr mod 4 = 0 -> mmap_write m addr ws = Some m' ->
  written m (addr / 4) (ws ++ (if N.odd (N.of_nat (length ws)) then [0] else [])) m'.
Proof.
  intros m addr ws m' Ha H b. unfold mmap_write in H. destruct (map_size <? _); [discriminate H|]. inversion H; subst.
  rewrite mmap_store_at. destruct (N.odd (N.of_nat (length ws))); [|rewrite app_nil_r; reflexivity].
  rewrite app_length. cbn [length andb].
  destruct ((addr / 4 <=? b) && (b <? addr / 4 + N.of_nat (length ws))) eqn:E.
  - replace ((addr / 4 <=? b) && (b <? addr / 4 + N.of_nat (length ws + 1))) with true by lia.
    rewrite app_nth1 by lia. reflexivity.
  - destruct (N.eqb_spec b (addr / 4 + N.of_nat (length ws))) as [->|Hne].
    + replace ((addr / 4 <=? addr / 4 + N.of_nat (length ws)) && (addr / 4 + N.of_nat (length ws) <? addr / 4 + N.of_nat (length ws + 1))) with true by lia.
      rewrite app_nth2 by lia. replace (N.to_nat (addr / 4 + N.of_nat (length ws) - addr / 4) - length ws)%nat with O by lia. reflexivity.
    + replace ((addr / 4 <=? b) && (b <? addr / 4 + N.of_nat (length ws + 1))) with false by lia. reflexivity.
Qed.

(** PCIe: the driver's write changes exactly the words sent, any number. *)
Theorem C53_pcie : forall ws m a, written m a ws (pcie_store m a ws).
Proof.
  intros ws; induction ws as [|x t IH]; intros m a b; cbn [pcie_store length].
  - replace ((a <=? b) && (b <? a + N.of_nat 0)) with false by lia. reflexivity.
  - rewrite (IH (set_word m a x) (a + 1) b). unfold set_word. destruct (N.eqb_spec b a) as [->|H].
    + replace ((a + 1 <=? a) && (a <? a + 1 + N.of_nat (length t))) with false by lia.
      replace ((a <=? a) && (a <? a + N.of_nat (S (length t)))) with true by lia. rewrite N.sub_diag. reflexivity.
    + destruct ((a <=? b) && (b <? a + N.of_nat (S (length t)))) eqn:E.
      * replace ((a + 1 <=? b) && (b <? a + 1 + N.of_nat (length t))) with true by lia.
        replace (N.to_nat (b - a)) with (S (N.to_nat (b - (a + 1)))) by lia. reflexivity.
      * replace ((a + 1 <=? b) && (b <? a + 1 + N.of_nat (length t))) with false by lia. reflexivity.
Qed.

Theorem C53_refuted : exists m addr ws m', addr mod 4 = 0 /\ mmap_write m addr ws = Some m' /\ ~ written m (addr / 4) ws m'.
Proof.
  exists (fun _ => 9), 0, [0x10001; 1; 2]. eexists. split; [reflexivity|]. split; [vm_compute; reflexivity|].
  intros H. specialize (H 3). vm_compute in H. discriminate H.
Qed.

Example mmap_even : match mmap_write (fun _ => 9) 8 [0x10002; 1; 2; 3] with
  | Some m => map m [1; 2; 3; 4; 5; 6] = [9; 0x10002; 1; 2; 3; 9] | None => False end.
Proof. vm_compute. reflexivity. Qed.
Example pcie_odd : map (pcie_store (fun _ => 9) 2 [0x10001; 1; 2]) [1; 2; 3; 4; 5; 6] = [9; 0x10001; 1; 2; 9; 9].
Proof. vm_compute. reflexivity. Qed.
Example mmap_odd : match mmap_write (fun _ => 9) 8 [0x10001; 1; 2] with
  | Some m => map m [1; 2; 3; 4; 5; 6] = [9; 0x10001; 1; 2; 0; 9] | None => False end.
Proof. vm_compute. reflexivity. Qed.

(** ** C70: packets stay in their page, pages do not overlap *)

(** Words of page [i] when pages are [size] words long and start at word
    [first]. *)
Definition in_page (first size i a : N) : Prop := first + i * size <= a < first + (i + 1) * size.

Lemma in_page_disjoint : forall first size i j a, in_page first size i a -> in_page first size j a -> i = j.
Proof. intros first size i j a H1 H2. unfold in_page in *. destruct (N.lt_total i j) as [L|[L|L]]; [nia|exact L|nia]. Qed.

(** What a client may put in a packet: at most getMaxSendSize bytes. *)
Lemma layout_limit : forall k user pages size next y,
  connect_layout k user pages size next = Some y -> 1 <= size ->
  p_size y = (match k with RPCIe => size | RMmap => N.min 4096 size end) /\
  page_limit y = 4 * p_maxpkt y /\ p_maxpkt y + 1 <= p_size y /\ p_size y <= 0xFFFF /\ next < pages.
Proof.
  intros k user pages size next y H Hs. unfold connect_layout in H.
  destruct (0xFFFF <? size) eqn:E1; [discriminate H|]. destruct (pages <=? next) eqn:E2; [discriminate H|].
  inversion H; subst; clear H. unfold page_limit. cbn [p_size p_maxpkt].
  set (ps := match k with RPCIe => size | RMmap => N.min 4096 size end).
  assert (Hps : 1 <= ps <= 0xFFFF) by (subst ps; destruct k; lia).
  assert (Hsub : sub32 ps 1 = ps - 1) by (unfold sub32, W32; rewrite (N.mod_small 1) by lia; lia).
  split; [reflexivity|].
  destruct ((user =? 0) || (ps <=? user)) eqn:E3.
  - rewrite Hsub. unfold wrap32, W32. rewrite N.mod_small by lia. lia.
  - unfold wrap32, W32. rewrite N.mod_small by lia. lia.
Qed.

(** C70, PCIe: after a successful connect to a device with pages of at least one
    word and less than 4 GB of pages, a request packet within getMaxSendSize
    (with its header word) is written inside page [idx] of the hardware, and a
    reply within getMaxReplySize is read from inside reply page [idx], for every
    page index. *)
Theorem C70_pcie_partial : forall user pages size next y idx (ws : list N) n,
  connect_layout RPCIe user pages size next = Some y -> 1 <= size ->
  4 * (pages * size) + 16 <= W32 -> idx < pages ->
  4 * N.of_nat (length ws) <= page_limit y -> n <= page_limit y ->
  write_addr (p_size y) idx = 4 * (idx * size) /\
  (forall a, write_addr (p_size y) idx / 4 <= a < write_addr (p_size y) idx / 4 + (1 + N.of_nat (length ws)) -> in_page 0 size idx a) /\
  (forall a, read_addr (p_size y) idx / 4 <= a < read_addr (p_size y) idx / 4 + read_words false n -> in_page 4 size idx a).
Proof.
  intros user pages size next y idx ws n H Hs Hm Hi Hw Hn.
  destruct (layout_limit _ _ _ _ _ _ H Hs) as (L1 & L2 & L3 & L4 & L5). rewrite L1 in *.
  assert (Hp : (idx + 1) * size <= pages * size) by (apply N.mul_le_mono_r; lia).
  assert (E : (idx + 1) * size = idx * size + size) by lia.
  assert (Hwa : write_addr size idx = 4 * (idx * size)).
  { unfold write_addr, wrap32. assert (Z : idx * 4 < W32).
    { assert (idx * 1 <= idx * size) by (apply N.mul_le_mono_l; lia). lia. }
    rewrite (N.mod_small (idx * 4)) by exact Z. replace (idx * 4 * size) with (4 * (idx * size)) by lia.
    apply N.mod_small. lia. }
  assert (Hra : read_addr size idx = 4 * (4 + idx * size)).
  { unfold read_addr, wrap32. rewrite (N.mod_small (4 + idx * size)) by lia. apply N.mod_small. lia. }
  split; [exact Hwa|]. rewrite Hwa, Hra. unfold in_page, read_words. cbn [andb].
  replace (4 * (idx * size) / 4) with (idx * size) by lia. replace (4 * (4 + idx * size) / 4) with (4 + idx * size) by lia.
  rewrite L2 in *. split; intros a Ha; rewrite E; lia.
Qed.

(** The same for mmap, when the hardware's pages are at most 4096 words. *)
Theorem C70_mmap_partial : forall user pages size next y idx (ws : list N) n,
  connect_layout RMmap user pages size next = Some y -> 1 <= size <= 4096 ->
  4 * (pages * size) + 16 <= W32 -> idx < pages ->
  4 * N.of_nat (length ws) <= page_limit y -> n <= page_limit y ->
  write_addr (p_size y) idx = 4 * (idx * size) /\
  (forall a, write_addr (p_size y) idx / 4 <= a < write_addr (p_size y) idx / 4 + (1 + N.of_nat (length ws)) -> in_page 0 size idx a) /\
  (forall a, read_addr (p_size y) idx / 4 <= a < read_addr (p_size y) idx / 4 + read_words false n -> in_page 4 size idx a).
Proof.
  intros user pages size next y idx ws n H Hs Hm Hi Hw Hn.
  refine (C70_pcie_partial user pages size next y idx ws n _ _ Hm Hi Hw Hn); [|lia].
  unfold connect_layout in *. replace (N.min 4096 size) with size in H by lia. exact H.
Qed.

(** With the 7-series workaround up to four more words are read: beyond the end
    of the page. *)
Theorem C70_workaround_refuted : exists user pages size next y idx n a,
  connect_layout RPCIe user pages size next = Some y /\ 1 <= size /\ 4 * (pages * size) + 16 <= W32 /\ idx < pages /\
  n <= page_limit y /\
  read_addr (p_size y) idx / 4 <= a < read_addr (p_size y) idx / 4 + read_words true n /\ ~ in_page 4 size idx a.
Proof.
  exists 0, 3, 33, 0, (mkLay 33 32), 0, 128, 37.
  split; [reflexivity|]. split; [lia|]. split; [unfold W32; lia|]. split; [lia|]. split; [vm_compute; discriminate|].
  split; [vm_compute; split; [discriminate|reflexivity]|]. unfold in_page. lia.
Qed.

(** Pages of no words are accepted: the limit announced for packets is then
    2^32 - 4 bytes. *)
Theorem C70_empty_refuted : exists y, connect_layout RPCIe 0 4 0 0 = Some y /\ page_limit y = W32 - 4 /\ p_size y = 0.
Proof. exists (mkLay 0 (W32 - 1)). vm_compute. auto. Qed.

(** mmap with hardware pages longer than 4096 words: page 1 is written where the
    hardware has page 0. *)
Theorem C70_stride_refuted : exists y, connect_layout RMmap 0 2 5000 0 = Some y /\
  in_page 0 5000 0 (write_addr (p_size y) 1 / 4) /\ ~ in_page 0 5000 1 (write_addr (p_size y) 1 / 4).
Proof. exists (mkLay 4096 4095). split; [reflexivity|]. vm_compute. split; [split; [discriminate|reflexivity]|]. intros [Z _]. contradiction (Z eq_refl). Qed.

(** Beyond 4 GB of pages two pages have one address. *)
Theorem C70_wrap_refuted : exists y, connect_layout RPCIe 0 65537 16384 0 = Some y /\
  write_addr (p_size y) 65536 = write_addr (p_size y) 0.
Proof. exists (mkLay 16384 16383). vm_compute. auto. Qed.

Example c70_case : connect_layout RPCIe 0 4 2048 3 = Some (mkLay 2048 2047) /\ page_limit (mkLay 2048 2047) = 8188 /\
  write_addr 2048 3 = 24576 /\ read_addr 2048 3 = 24592.
Proof. vm_compute. auto. Qed.
Example c70_user : connect_layout RMmap 100 4 2048 3 = Some (mkLay 2048 100).
Proof. reflexivity. Qed.

(** ** C71: the page header announces the packet *)

(** The header word written before a packet of [n] words announces [n] words, for
    every packet a connected client may send. *)
Theorem C71_header : forall b, 4 <= send_counter b -> send_counter b <= 4 * 65536 ->
  header_words (page_header (send_counter b)) = N.of_nat (length (b_send b)).
Proof.
  intros b H1 H2. unfold send_counter in *. unfold page_header, header_words.
  set (n := N.of_nat (length (b_send b))) in *.
  replace (4 * n / 4) with n by lia.
  assert (Hs : sub32 n 1 = n - 1) by (unfold sub32, W32; rewrite (N.mod_small 1) by lia; lia).
  rewrite Hs. change 0xFFFF with (N.ones 16). rewrite !N.land_ones. change (2 ^ 16) with 65536.
  rewrite (N.mod_small (n - 1)) by lia.
  assert (E : N.lor 65536 (n - 1) = 65536 + (n - 1)).
  { rewrite <- N.lxor_lor, <- N.add_nocarry_lxor; [reflexivity| |].
    - apply N.bits_inj_0. intros i. rewrite N.land_spec. destruct (N.eq_dec i 16) as [->|Hi].
      + rewrite (N.bits_above_log2 (n - 1)); [apply andb_false_r|].
        destruct (N.eq_dec (n - 1) 0) as [->|Hz]; [reflexivity|]. apply N.log2_lt_pow2; lia.
      + change 65536 with (2 ^ 16). rewrite N.pow2_bits_false by congruence. reflexivity.
    - apply N.bits_inj_0. intros i. rewrite N.land_spec. destruct (N.eq_dec i 16) as [->|Hi].
      + rewrite (N.bits_above_log2 (n - 1)); [apply andb_false_r|].
        destruct (N.eq_dec (n - 1) 0) as [->|Hz]; [reflexivity|]. apply N.log2_lt_pow2; lia.
      + change 65536 with (2 ^ 16). rewrite N.pow2_bits_false by congruence. reflexivity. }
  rewrite E, N.shiftr_div_pow2. change (2 ^ 16) with 65536. lia.
Qed.

Example c71_one : header_words (page_header 4) = 1 /\ header_words (page_header (4 * 65536)) = 65536 /\ page_header 1468 = 0x1016E.
Proof. vm_compute. auto. Qed.

(** ** C72: mmap accesses stay inside the mapping *)

(** An accepted write of a page with an even number of words per page stays
    inside its page and inside the mapping, the extra zero word included. *)
Theorem C72_write : forall size idx ws m m', N.even size = true -> size <= 4096 -> idx * size * 4 < W32 ->
  N.of_nat (length ws) <= size ->
  mmap_write m (write_addr size idx) ws = Some m' ->
  forall a, m' a <> m a -> in_page 0 size idx a /\ 4 * a + 4 <= map_size.
Proof.
  intros size idx ws m m' He Hs Hi Hl H a Hne.
  assert (Hwa : write_addr size idx = 4 * (idx * size)).
  { destruct (N.eq_dec size 0) as [->|Hz].
    - unfold write_addr, wrap32. rewrite !N.mul_0_r. reflexivity.
    - unfold write_addr, wrap32. assert (idx * 1 <= idx * size) by (apply N.mul_le_mono_l; lia).
      rewrite (N.mod_small (idx * 4)) by lia. replace (idx * 4 * size) with (4 * (idx * size)) by lia. apply N.mod_small. lia. }
  rewrite Hwa in H.
  pose proof (C53_effect m (4 * (idx * size)) ws m' ltac:(lia) H a) as Z.
  replace (4 * (idx * size) / 4) with (idx * size) in Z by lia.
  assert (Hc : 4 * (idx * size) + 4 * N.of_nat (length ws) <= map_size).
  { unfold mmap_write in H. destruct (map_size <? _) eqn:Q; [discriminate H|]. lia. }
  rewrite app_length in Z.
  apply N.even_spec in He. destruct He as [h He].
  destruct (_ && _) eqn:Q in Z; [|congruence]. clear Z.
  assert (E : (idx + 1) * size = idx * size + size) by lia.
  assert (X : idx * size = 2 * (idx * h)) by (rewrite He; lia).
  unfold in_page. rewrite E. unfold map_size in *.
  destruct (N.odd (N.of_nat (length ws))) eqn:Ho; cbn [length] in Q.
  - apply N.odd_spec in Ho. destruct Ho as [o Ho]. set (ih := idx * h) in *. split; lia.
  - split; lia.
Qed.

(** With an odd number of words per page the store runs past the mapping and,
    before that, into the next page. *)
Theorem C72_odd_refuted : exists size idx ws m m' a, size <= 4096 /\ idx * size * 4 < W32 /\ N.of_nat (length ws) <= size /\
  mmap_write m (write_addr size idx) ws = Some m' /\ m' a <> m a /\ map_size <= 4 * a.
Proof.
  exists 2049, 3, (repeat 5 2049), (fun _ => 9).
  eexists. exists 8196. split; [lia|]. split; [unfold W32; lia|]. split; [vm_compute; discriminate|].
  split; [vm_compute write_addr; unfold mmap_write; reflexivity|]. split; [|unfold map_size; lia].
  rewrite mmap_store_at. rewrite repeat_length. vm_compute. discriminate.
Qed.

(** After a page was accepted by write, an accepted read of the reply page of
    the same index stays inside the mapping (no wrap-around in the check). *)
Theorem C72_read : forall size idx ws m m' n l, size <= 4096 -> 4 * n < 2 ^ 31 ->
  mmap_write m (write_addr size idx) ws = Some m' ->
  mmap_read m' (wrap32 (4 + idx * size)) n = Some l ->
  read_addr size idx + 4 * n <= map_size /\ length l = N.to_nat n.
Proof.
  intros size idx ws m m' n l Hs Hn Hw Hr.
  unfold mmap_write in Hw. destruct (map_size <? write_addr size idx + _) eqn:Q; [discriminate Hw|].
  unfold mmap_read in Hr. destruct (map_size <? add32 _ _) eqn:Q2; [discriminate Hr|]. inversion Hr; subst.
  rewrite map_length, seq_length. split; [|reflexivity].
  fold (read_addr size idx) in Q2.
  assert (E : read_addr size idx = (write_addr size idx + 16) mod W32).
  { unfold read_addr, write_addr, wrap32. rewrite N.mul_mod_idemp_l, N.mul_mod_idemp_r by (unfold W32; lia).
    rewrite N.add_mod_idemp_l by (unfold W32; lia). f_equal. lia. }
  assert (Hq : write_addr size idx <= map_size) by lia.
  rewrite (N.mod_small (write_addr size idx + 16)) in E by (unfold map_size, W32 in *; lia).
  unfold add32, wrap32, W32 in Q2. rewrite (N.mod_small (4 * n)) in Q2 by lia.
  rewrite N.mod_small in Q2 by (rewrite E; unfold map_size in *; lia). lia.
Qed.

Example c72_case : match mmap_write (fun _ => 9) (write_addr 2048 3) [0x10001; 1; 2] with
  | Some m => map m [6143; 6144; 6145; 6146; 6147; 6148] = [9; 0x10001; 1; 2; 0; 9] /\
              mmap_read m (wrap32 (4 + 3 * 2048)) 2 = Some [9; 9]
  | None => False end.
Proof. vm_compute. auto. Qed.

Print Assumptions C52_copy.
Print Assumptions C52_bounds.
Print Assumptions C52_same.
Print Assumptions C53_even_partial.
Print Assumptions C53_effect.
Print Assumptions C53_pcie.
Print Assumptions C53_refuted.
Print Assumptions C70_pcie_partial.
Print Assumptions C70_mmap_partial.
Print Assumptions C70_workaround_refuted.
Print Assumptions C70_empty_refuted.
Print Assumptions C70_stride_refuted.
Print Assumptions C70_wrap_refuted.
Print Assumptions C71_header.
Print Assumptions C72_write.
Print Assumptions C72_odd_refuted.
Print Assumptions C72_read.
