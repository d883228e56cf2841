(** C101: the packet inspectors report exactly the transactions of a packet;
    they read behind the end of packets that are cut short. *)
From Verif Require Import Word Bits Header WordLemmas HeaderProofs ValMem Client
  Validate Target Spec SpecLemmas System Tx E2E Sent WireSpec SentProofs Prop_Wire
  Inspector InspectorSpec InspectorProofs.
From Coq Require Import NArith ZArith List Lia Bool ZifyBool ZifyNat ZifyN.
Import ListNotations.
Open Scope N_scope.
Ltac Zify.zify_post_hook ::= Z.div_mod_to_equations.

(** C101: a packet of whole transactions, wherever it lies in the vector and
    whatever surrounds it: one call for each transaction, in order, with the
    fields of its header and the words of its body; the iterator ends at the end
    of the packet. *)
Theorem C101_whole : forall d v go_on head calls tws cs pre tail,
  head_of v head calls -> Forall2 (txn d v) tws cs -> tws <> [] ->
  analyze d v (pre ++ (head ++ concat tws) ++ tail) (length pre) (length pre + length (head ++ concat tws)) go_on =
  (calls ++ cs, Done true (length pre + length (head ++ concat tws))%nat).
Proof. intros. apply analyze_whole; assumption. Qed.

(** A write of two words and a read, in a packet with ID 7; a word before and
    stale words behind. *)
Example C101_whole_case :
  analyze Requests V2 [99; 0x200007F0; 0x2005021F; 0x100; 1; 2; 0x2006030F; 0x200; 77; 78] 1 8 true =
  ([KPacket PControl 0x200007F0 7;
    KTx 0x2005021F (mkHdr WRITE 2 5 15) (KWrite 0x100 [1; 2]);
    KTx 0x2006030F (mkHdr READ 3 6 15) (KRead 0x200)], Done true 8).
Proof. reflexivity. Qed.

(** The words of that packet are whole transactions. *)
Example C101_whole_txn :
  head_of V2 [0x200007F0] [KPacket PControl 0x200007F0 7] /\
  Forall2 (txn Requests V2) [[0x2005021F; 0x100; 1; 2]; [0x2006030F; 0x200]]
    [KTx 0x2005021F (mkHdr WRITE 2 5 15) (KWrite 0x100 [1; 2]);
     KTx 0x2006030F (mkHdr READ 3 6 15) (KRead 0x200)].
Proof.
  split; [exact (head_v2 V2 0x200007F0 eq_refl eq_refl)|].
  constructor; [exact (txn_intro Requests V2 0x2005021F WRITE [0x100; 1; 2] (conj eq_refl (conj eq_refl (conj eq_refl Logic.I))) eq_refl)|].
  constructor; [exact (txn_intro Requests V2 0x2006030F READ [0x200] (conj eq_refl (conj eq_refl (conj eq_refl Logic.I))) eq_refl)|].
  constructor.
Qed.

(** Whatever the words are: nothing is invented, skipped or reported twice.  The
    calls, with the right fields, account for the words from the start one after
    the other, and the function ended for one of the reasons in [ended], at that
    place. *)
Theorem C101_exact : forall d v buf start stop go_on, (start <= length buf)%nat ->
  let r := analyze d v buf start stop go_on in
  Forall (call_right d v) (fst r) /\
  exists rest, skipn start buf = concat (map call_words (fst r)) ++ rest /\
    ended d v go_on start stop (fst r) (concat (map call_words (fst r))) rest (snd r).
Proof. intros. apply analyze_says. assumption. Qed.

(** A bad header that is the header of the next packet (as in the reply of the
    TCP dummy hardware, which has an extra word in front). *)
Example C101_exact_case :
  analyze Replies V2 [0; 0x200007F0; 0x20060200; 11; 12] 0 5 true =
  ([KPacket PControl 0 0; KPacket PControl 0x200007F0 7;
    KTx 0x20060200 (mkHdr READ 2 6 0) (KData true [11; 12])], Done true 5) /\
  analyze Replies V2 [0; 0x200007F0; 0x20060200; 11; 12] 0 5 false =
  ([KPacket PControl 0 0], Done true 1).
Proof. split; reflexivity. Qed.

(** Words behind the end of the vector are needed for exactly the packets that
    are cut short: those without any transaction and those whose last
    transaction announces more words than there are. *)
Theorem C101_overrun : forall d v ws go_on,
  snd (analyze d v ws 0 (length ws) go_on) = Overrun <-> cut_packet d v go_on ws.
Proof. intros. apply overrun_iff. Qed.

(** For all other packets the words behind the end do not matter. *)
Theorem C101_tail : forall d v buf tail start go_on, (start <= length buf)%nat ->
  snd (analyze d v buf start (length buf) go_on) <> Overrun ->
  analyze d v (buf ++ tail) start (length buf) go_on = analyze d v buf start (length buf) go_on.
Proof. intros. apply analyze_tail; assumption. Qed.

(** A packet header alone; and the same bad info code with and without words
    behind. *)
Example C101_overrun_case :
  cut_packet Requests V2 true [0x200007F0] /\
  snd (analyze Requests V2 [0x200007F0] 0 1 true) = Overrun /\
  analyze Requests V2 [0x200007F0; 0x20060300; 0x200] 0 3 true = ([KPacket PControl 0x200007F0 7], Done false 2) /\
  analyze Requests V2 ([0x200007F0; 0x20060300; 0x200] ++ [1; 2]) 0 3 true = ([KPacket PControl 0x200007F0 7], Done false 2).
Proof.
  split; [|repeat split].
  apply (cut_body Requests V2 true [0x200007F0] [KPacket PControl 0x200007F0 7] []);
    [exact (head_v2 V2 0x200007F0 eq_refl eq_refl)|constructor].
Qed.

(** The call for a request of the client. *)
Definition client_call (v : version) (x : wtx) : call :=
  KTx (hd 0 (wtx_words v x))
      (mkHdr (wt_type x) (wt_count x) (wt_id x mod spec_ids v) (match v with V1 => 0 | V2 => 15 end))
      (report Requests (wt_type x) (wt_words x)).

Lemma spec_type_small v t ty : spec_type v t = Some ty -> ty < match v with V1 => 32 | V2 => 16 end.
Proof. destruct v, t; cbn; intros E; try discriminate; injection E as <-; lia. Qed.

Lemma wtx_txn v x : wtx_ok v x -> wt_type x <> RAI -> txn Requests v (wtx_words v x) (client_call v x).
Proof.
  intros (A & B & C & _) NR. unfold client_call, wtx_words.
  destruct (spec_type v (wt_type x)) as [ty|] eqn:T; [|congruence]. cbn [hd].
  set (i := wt_id x mod spec_ids v). assert (Hi : i < spec_ids v) by (apply N.mod_lt; destruct v; discriminate).
  assert (Ht := spec_type_small _ _ _ T). set (info := match v with V1 => 0 | V2 => 15 end) in *.
  set (w := spec_header v ty (wt_count x) i info).
  assert (W1 : word_version w = version_number v).
  { unfold w, word_version, version_number, spec_header, spec_ids, spec_counts, info in *. destruct v; clear - B Hi Ht; lia. }
  assert (W2 : word_type v w = ty).
  { unfold w, word_type, spec_header, spec_ids, spec_counts, info in *. destruct v; clear - B Hi Ht; lia. }
  assert (W3 : word_count v w = wt_count x).
  { unfold w, word_count, spec_header, spec_ids, spec_counts, info in *. destruct v; clear - B Hi Ht; lia. }
  assert (W4 : word_id v w = i).
  { unfold w, word_id, spec_header, spec_ids, spec_counts, info in *. destruct v; clear - B Hi Ht; lia. }
  assert (W5 : word_info v w = info).
  { unfold w, word_info, spec_header, spec_ids, spec_counts, info in *. destruct v; clear - B Hi Ht; lia. }
  rewrite <- W3 at 1. rewrite <- W4 at 1. rewrite <- W5 at 1. apply txn_intro.
  - split; [exact W1|]. split; [rewrite W2; exact T|]. split; [exact W5|].
    destruct (wt_type x); try exact Logic.I. congruence.
  - rewrite W3. exact C.
Qed.

(** Every packet the client sends, for every sequence of calls (behind the two
    words for the ControlHub, if any), is reported completely: one call for each
    of its transactions. *)
Theorem C101_sent : forall g cs, cfg_ok g -> Forall op_ok (cmd_ops cs) ->
  exists bs, sent g cs = Some bs /\
  Forall (fun b => exists xs, packet g b xs /\
    forall go_on tail,
    let hub := match g_hub g with Some _ => 2%nat | None => 0%nat end in
    exists head, (match g_ver g with V1 => head = [] | V2 => head = [KPacket PControl 0x200000F0 0] end) /\
    analyze Requests (g_ver g) (b_send b ++ tail) hub (length (b_send b)) go_on =
    (head ++ map (client_call (g_ver g)) xs, Done true (length (b_send b)))) bs.
Proof.
  intros g cs G F. destruct (sent_packets g cs G F) as (bs & E & P). exists bs. split; [exact E|].
  eapply Forall_impl; [|exact P]. intros b (_ & p & R & W & N0).
  destruct (repr_packet g b p R W N0) as (A & _). exists (map to_w (fst p)). split; [exact A|].
  destruct A as (NE & OK & pre & LP & S). intros go_on tail hub.
  set (xs := map to_w (fst p)) in *.
  assert (NR : Forall (fun x => wt_type x <> RAI) xs).
  { unfold xs. apply Forall_forall. intros x I. apply in_map_iff in I. destruct I as (y & <- & _).
    destruct y as [|[] | |[] | | ]; discriminate. }
  assert (F2 : Forall2 (txn Requests (g_ver g)) (map (wtx_words (g_ver g)) xs) (map (client_call (g_ver g)) xs)).
  { clear - OK NR. induction xs as [|x xs IH]; [constructor|]. inversion OK; inversion NR; subst.
    cbn [map]. constructor; [apply wtx_txn; assumption|apply IH; assumption]. }
  assert (HH : exists head, (match g_ver g with V1 => head = [] | V2 => head = [KPacket PControl 0x200000F0 0] end) /\
                            head_of (g_ver g) (packet_header (g_ver g)) head).
  { destruct (g_ver g) eqn:V; eexists; (split; [reflexivity|]).
    - constructor. reflexivity.
    - exact (head_v2 V2 0x200000F0 eq_refl eq_refl). }
  destruct HH as (head & H1 & H2). exists head. split; [exact H1|].
  assert (Q := C101_whole Requests (g_ver g) go_on _ _ _ _ pre tail H2 F2
                 ltac:(intros QQ; apply NE; destruct xs; [reflexivity|discriminate])).
  rewrite <- flat_map_concat_map in Q. rewrite app_assoc, <- S in Q.
  replace (length pre + length (packet_header (g_ver g) ++ flat_map (wtx_words (g_ver g)) xs))%nat
    with (length (b_send b)) in Q by (rewrite S, app_length; reflexivity).
  unfold hub. rewrite <- LP. exact Q.
Qed.

(** The two packets of an IPbus 1.3 client ([v1_cs], Prop_Wire.v): the callbacks
    for the second. *)
Example C101_sent_case : cfg_ok v1_cfg /\ Forall op_ok (cmd_ops (v1_cs ++ [CDispatch])) /\
  option_map (map (fun b => analyze Requests V1 (b_send b ++ [5; 5]) 0 (length (b_send b)) true)) (sent v1_cfg (v1_cs ++ [CDispatch])) =
  Some [([KTx 0x100000F8 (mkHdr BOT 0 0 0) KBot; KTx 0x10020120 (mkHdr WRITE 1 1 0) (KWrite 1 [2]);
          KTx 0x10040118 (mkHdr READ 1 2 0) (KRead 3); KTx 0x100000F8 (mkHdr BOT 0 0 0) KBot;
          KTx 0x100000F8 (mkHdr BOT 0 0 0) KBot], Done true 8);
        ([KTx 0x100600F8 (mkHdr BOT 0 3 0) KBot; KTx 0x10080130 (mkHdr RMW_SUM 1 4 0) (KSum 4 5);
          KTx 0x100A0120 (mkHdr WRITE 1 5 0) (KWrite 6 [7]); KTx 0x100C0318 (mkHdr READ 3 6 0) (KRead 9)], Done true 9)].
Proof.
  split; [unfold cfg_ok; cbn; repeat split; lia|]. split; [repeat constructor; cbn; lia|].
  vm_compute. reflexivity.
Qed.

(** A packet cut short is not refused: the callback of its last transaction gets
    words from behind the packet (here a write of three words of which the
    packet has one), whatever lies there in the buffer. *)
Theorem C101_stale_refuted : exists ws, forall a b,
  cut_packet Requests V2 true ws /\
  fst (analyze Requests V2 (ws ++ [a; b]) 0 (length ws) true) =
  [KPacket PControl 0x200000F0 0; KTx 0x2005031F (mkHdr WRITE 3 5 15) (KWrite 0x100 [1; a; b])].
Proof.
  exists [0x200000F0; 0x2005031F; 0x100; 1]. intros a b. split; [|reflexivity].
  apply (cut_body Requests V2 true [0x200000F0] [KPacket PControl 0x200000F0 0]);
    [exact (head_v2 V2 0x200000F0 eq_refl eq_refl)|].
  apply (cut_inside Requests V2 true 0x2005031F WRITE); [repeat split|reflexivity].
Qed.

(** The correct reply to a configuration space read, which the client accepts,
    is reported as of unknown type, with all that follows it. *)
Theorem C101_config_refuted : exists ws, forall x y,
  analyze Replies V2 (ws ++ [x; 0x20060100; y]) 0 (length ws + 3) true =
  ([KPacket PControl 0x200000F0 0; KTx 0x20050160 (mkHdr CONFIG_SPACE_READ 1 5 0) KUnknown], Done false (length ws)).
Proof. exists [0x200000F0; 0x20050160]. reflexivity. Qed.

Print Assumptions C101_whole.
Print Assumptions C101_exact.
Print Assumptions C101_overrun.
Print Assumptions C101_tail.
Print Assumptions C101_sent.
Print Assumptions C101_stale_refuted.
Print Assumptions C101_config_refuted.
