(** C116: a ControlHub client and the ControlHub agree on the target: the one the URI of
    the client names. *)
From Coq Require Import NArith ZArith List Bool String Ascii Lia PeanoNat ZifyBool ZifyNat ZifyN.
From Verif Require Import Word Bits Header WordLemmas Client Spec System Sent SentProofs Prop_Wire.
From Verif Require Import Hub Manager ManSpec Prop_Manager Full FullSpec FullBytes.
From Verif Require Uri Prop_Uri.
From Verif Require Import HubTarget.
Import ListNotations.
Local Open Scope char_scope.
Open Scope N_scope.
Ltac Zify.zify_post_hook ::= Z.to_euclidean_division_equations.

(** ** What is said *)

(** An IPv4 address, and the 32-bit number it stands for. *)
Definition address (q : quad) : Prop := let '(a, b, c, d) := q in a < 256 /\ b < 256 /\ c < 256 /\ d < 256.
Definition number (q : quad) : N := let '(a, b, c, d) := q in a * 2 ^ 24 + b * 2 ^ 16 + c * 2 ^ 8 + d.

(** Resolvers give addresses and ports. *)
Definition proper (resolve : Uri.str -> Uri.str -> option (quad * N)) : Prop :=
  forall h s q port, resolve h s = Some (q, port) -> address q /\ port < 2 ^ 16.

(** The first argument of the URI called target has the value [v]. *)
Definition target_value (u : Uri.uri) (v : Uri.str) : Prop :=
  exists before after, Uri.u_args u = before ++ (Uri.s_ "target", v) :: after /\ ~ In (Uri.s_ "target") (map fst before).

(** The URI names this host and this port (both without white space): they are what is
    before and after the first colon. *)
Definition names (u : Uri.uri) (host service : Uri.str) : Prop :=
  exists h p, target_value u (h ++ ":" :: p) /\ ~ In ":" h /\ host = Prop_Uri.nosp h /\ service = Prop_Uri.nosp p.

(** Decimal numerals without superfluous zeroes. *)
Definition value (s : Uri.str) : N := fold_left (fun n c => n * 10 + (N_of_ascii c - 48)) s 0.
Definition numeral (s : Uri.str) (n : N) : Prop :=
  s <> [] /\ Forall (fun c => 48 <= N_of_ascii c <= 57) s /\ value s = n /\ (forall t, s = "0" :: t -> t = []).

(** ** Proofs *)

Lemma digit_of x : x < 10 -> digit (ascii_of_N (48 + x)) = Some x.
Proof.
  intros X. unfold digit. rewrite N_ascii_embedding by lia.
  destruct (N.leb_spec 48 (48 + x)); [|lia]. destruct (N.leb_spec (48 + x) 57); [|lia]. cbn [andb]. f_equal. lia.
Qed.
Lemma digit_space x : x < 10 -> Uri.is_space (ascii_of_N (48 + x)) = false.
Proof. intros X. unfold Uri.is_space. rewrite N_ascii_embedding by lia. lia. Qed.

Definition no_digit (r : Uri.str) : Prop := match r with [] => True | c :: _ => digit c = None end.

Lemma more_end acc r : no_digit r -> more_digits acc r = Some (acc, r).
Proof. destruct r as [|c r]; [reflexivity|]. cbn [no_digit more_digits]. intros ->. reflexivity. Qed.
Lemma more_one acc x r : x < 10 -> acc < 1000 -> more_digits acc (ascii_of_N (48 + x) :: r) = more_digits (acc * 10 + x) r.
Proof. intros X A. cbn [more_digits]. rewrite digit_of by exact X. destruct (N.ltb_spec (acc * 10 + x) (2 ^ 32)) as [_|L]; [reflexivity|]. change (2 ^ 32) with 4294967296 in L. lia. Qed.

Lemma decimal_3 a : a < 256 -> exists x y z, decimal 3 a = (if 100 <=? a then [ascii_of_N (48 + x)] else []) ++ (if 10 <=? a then [ascii_of_N (48 + y)] else []) ++ [ascii_of_N (48 + z)] /\
  x = a / 100 /\ y = a / 10 mod 10 /\ z = a mod 10.
Proof.
  intros A. do 3 eexists. split; [|repeat split; reflexivity]. cbn [decimal].
  destruct (N.ltb_spec a 10) as [L|L].
  - destruct (N.leb_spec 100 a); [lia|]. destruct (N.leb_spec 10 a); [lia|]. reflexivity.
  - destruct (N.leb_spec 10 a); [|lia]. destruct (N.ltb_spec (a / 10) 10) as [M|M].
    + destruct (N.leb_spec 100 a); [lia|]. reflexivity.
    + destruct (N.leb_spec 100 a); [|lia]. destruct (N.ltb_spec (a / 10 / 10) 10); [|lia]. cbn [app].
      replace (a / 10 / 10 mod 10) with (a / 100) by lia. reflexivity.
Qed.

Lemma uint_decimal a r : a < 256 -> no_digit r -> uint_ (decimal 3 a ++ r) = Some (a, r).
Proof.
  intros A R. destruct (decimal_3 a A) as (x & y & z & -> & X & Y & Z).
  destruct (N.leb_spec 100 a) as [L|L]; destruct (N.leb_spec 10 a) as [M|M]; try lia; cbn [app]; unfold uint_; cbn [Uri.skip];
    rewrite digit_space by lia; rewrite digit_of by lia; rewrite ?more_one by lia; rewrite more_end by exact R; do 2 f_equal; lia.
Qed.

Lemma part_decimal a r : a < 256 -> part (decimal 3 a ++ "." :: r) = Some (a, r).
Proof. intros A. unfold part. rewrite uint_decimal by (try reflexivity; exact A). reflexivity. Qed.

Lemma read_dotted q : address q -> read_back (dotted q) = Some q.
Proof.
  destruct q as (((a, b), c), d). intros (A & B & C & D). unfold read_back, dotted. cbn [app].
  rewrite part_decimal, part_decimal, part_decimal by assumption. rewrite <- (app_nil_r (decimal 3 d)), uint_decimal by (try exact I; exact D). reflexivity.
Qed.

Lemma joined_number q : address q -> joined q = number q.
Proof.
  destruct q as (((a, b), c), d). intros (A & B & C & D). unfold joined, number. rewrite !N.shiftl_mul_pow2.
  rewrite (N.mod_small (a * 2 ^ 24)), (N.mod_small (b * 2 ^ 16)), (N.mod_small (c * 2 ^ 8)) by (cbn; lia).
  rewrite (lor_mul_pow 24 (b * 2 ^ 16) a) by (cbn; lia).
  replace (a * 2 ^ 24 + b * 2 ^ 16) with ((a * 256 + b) * 2 ^ 16) by (change (2 ^ 24) with 16777216; change (2 ^ 16) with 65536; lia).
  rewrite (lor_mul_pow 16 (c * 2 ^ 8)) by (cbn; lia).
  replace ((a * 256 + b) * 2 ^ 16 + c * 2 ^ 8) with (((a * 256 + b) * 256 + c) * 2 ^ 8) by (change (2 ^ 8) with 256; change (2 ^ 16) with 65536; lia).
  rewrite (lor_mul_pow 8 d) by (cbn; lia). change (2 ^ 24) with 16777216; change (2 ^ 16) with 65536; change (2 ^ 8) with 256. lia.
Qed.

Lemma number_lt q : address q -> number q < 2 ^ 32.
Proof. destruct q as (((a, b), c), d). intros (A & B & C & D). unfold number. change (2 ^ 24) with 16777216; change (2 ^ 16) with 65536; change (2 ^ 8) with 256; change (2 ^ 32) with 4294967296. lia. Qed.

Lemma land255 x : N.land x 255 = x mod 256.
Proof. change 255 with (N.ones 8). rewrite N.land_ones. reflexivity. Qed.

Lemma htonl_turned x : htonl x = turned4 x.
Proof.
  unfold htonl, turned4. rewrite !land255, !N.shiftl_mul_pow2, !N.shiftr_div_pow2.
  set (a := x mod 256). set (b := x / 2 ^ 8 mod 256). set (c := x / 2 ^ 16 mod 256). set (d := x / 2 ^ 24 mod 256).
  assert (A : a < 256) by (apply N.mod_lt; discriminate). assert (B : b < 256) by (apply N.mod_lt; discriminate).
  assert (C : c < 256) by (apply N.mod_lt; discriminate). assert (D : d < 256) by (apply N.mod_lt; discriminate). clearbody a b c d.
  rewrite (lor_mul_pow 8 d c) by (cbn; lia). rewrite (lor_mul_pow 24 (b * 2 ^ 16) a) by (cbn; lia).
  replace (a * 2 ^ 24 + b * 2 ^ 16) with ((a * 256 + b) * 2 ^ 16) by (change (2 ^ 24) with 16777216; change (2 ^ 16) with 65536; lia).
  rewrite (lor_mul_pow 16 (c * 2 ^ 8 + d)) by (cbn; lia). change (2 ^ 24) with 16777216; change (2 ^ 16) with 65536; change (2 ^ 8) with 256. lia.
Qed.
Lemma htons_turned x : htons x = turned2 x.
Proof.
  unfold htons, turned2. rewrite !land255, !N.shiftl_mul_pow2, !N.shiftr_div_pow2. apply lor_mul_pow. apply N.mod_lt. discriminate.
Qed.

Lemma tuple_number q : address q -> to_tuple (number q) = Some q.
Proof.
  intros A. unfold to_tuple. pose proof (number_lt q A) as L. destruct (N.ltb_spec (number q) (2 ^ 32)); [|lia].
  destruct q as (((a, b), c), d). destruct A as (A & B & C & D). unfold number. change (2 ^ 24) with 16777216; change (2 ^ 16) with 65536; change (2 ^ 8) with 256.
  repeat f_equal; lia.
Qed.

(** *** The text of the target *)
Lemma find_target (args : list (Uri.str * Uri.str)) (v : Uri.str) : (exists b a, args = b ++ (Uri.s_ "target", v) :: a /\ ~ In (Uri.s_ "target") (map fst b)) <->
  option_map snd (find (fun kv => if list_eq_dec Ascii.ascii_dec (fst kv) (Uri.s_ "target") then true else false) args) = Some v.
Proof.
  induction args as [|(k, w) args IH].
  - split; [intros ([|? b] & a & E & _); discriminate|discriminate].
  - cbn [find fst]. destruct (list_eq_dec Ascii.ascii_dec k (Uri.s_ "target")) as [->|NE]; cbn [option_map snd].
    + split.
      * intros (b & a & E & NI). destruct b as [|(k', w') b]; [injection E as <- <-; reflexivity|]. injection E as <- <- E. destruct NI. left. reflexivity.
      * intros E. injection E as <-. exists [], args. split; [reflexivity|intros []].
    + rewrite <- IH. split.
      * intros (b & a & E & NI). destruct b as [|(k', w') b]; [destruct NE; injection E as E _ _; exact E|]. injection E as <- <- E. exists b, a. split; [exact E|]. intros H. apply NI. right. exact H.
      * intros (b & a & -> & NI). exists ((k, w) :: b), a. split; [reflexivity|]. cbn [map fst]. intros [H|H]; [congruence|apply NI, H].
Qed.
Lemma target_arg_value u v : target_value u v <-> option_map snd (target_arg u) = Some v.
Proof. apply find_target. Qed.
Lemma target_arg_none u : target_arg u = None <-> ~ In (Uri.s_ "target") (map fst (Uri.u_args u)).
Proof.
  unfold target_arg. generalize (Uri.u_args u). intros args. induction args as [|(k, w) args IH]; [cbn; tauto|].
  cbn [find fst map]. destruct (list_eq_dec Ascii.ascii_dec k (Uri.s_ "target")) as [->|NE].
  - split; [discriminate|]. intros H. destruct H. left. reflexivity.
  - rewrite IH. cbn [In]. split; intros H; [intros [E|E]; [congruence|tauto]|tauto].
Qed.

Lemma many_colon h r : ~ In ":" h -> Uri.many (Uri.is ":") (h ++ ":" :: r) = (Prop_Uri.nosp h, ":" :: r).
Proof.
  induction h as [|c h IH]; intros NI; [reflexivity|]. cbn [app Uri.many]. unfold Prop_Uri.nosp. cbn [filter]. fold (Prop_Uri.nosp h).
  rewrite IH by (intros H; apply NI; right; exact H). destruct (Uri.is_space c); [reflexivity|]. cbn [negb].
  unfold Uri.is. destruct (Ascii.eqb_spec c ":") as [->|_]; [destruct NI; left; reflexivity|reflexivity].
Qed.
Lemma many_none h : ~ In ":" h -> Uri.many (Uri.is ":") h = (Prop_Uri.nosp h, []).
Proof.
  induction h as [|c h IH]; intros NI; [reflexivity|]. cbn [Uri.many]. unfold Prop_Uri.nosp. cbn [filter]. fold (Prop_Uri.nosp h).
  rewrite IH by (intros H; apply NI; right; exact H). destruct (Uri.is_space c); [reflexivity|]. cbn [negb].
  unfold Uri.is. destruct (Ascii.eqb_spec c ":") as [->|_]; [destruct NI; left; reflexivity|reflexivity].
Qed.
Lemma many_all l : Uri.many (fun _ => false) l = (Prop_Uri.nosp l, []).
Proof.
  induction l as [|c l IH]; [reflexivity|]. cbn [Uri.many]. unfold Prop_Uri.nosp. cbn [filter]. fold (Prop_Uri.nosp l). rewrite IH.
  destruct (Uri.is_space c); reflexivity.
Qed.
Lemma colon_or l : ~ In ":" l \/ exists h p, l = h ++ ":" :: p /\ ~ In ":" h.
Proof.
  induction l as [|c l IH]; [left; intros []|]. destruct (Ascii.ascii_dec c ":") as [->|NE].
  - right. exists [], l. split; [reflexivity|intros []].
  - destruct IH as [IH|(h & p & -> & NI)].
    + left. intros [H|H]; [congruence|apply IH, H].
    + right. exists (c :: h), p. split; [reflexivity|]. intros [H|H]; [congruence|apply NI, H].
Qed.

Lemma hub_target_value u v : target_value u v -> Uri.hub_target u =
  let (h, r) := Uri.many (Uri.is ":") v in match Uri.lit [":"] r with None => None | Some r => Some (h, Prop_Uri.nosp r) end.
Proof.
  intros T. apply target_arg_value in T. unfold Uri.hub_target. unfold target_arg in T.
  destruct (find _ _) as [(k, w)|]; [|discriminate]. injection T as ->. destruct (Uri.many (Uri.is ":") v) as (h, r).
  destruct (Uri.lit [":"] r) as [t|]; [|reflexivity]. rewrite many_all. reflexivity.
Qed.
Lemma names_target u host service : names u host service -> Uri.hub_target u = Some (host, service) /\ target_arg u <> None.
Proof.
  intros (h & p & T & NI & -> & ->). rewrite (hub_target_value u _ T), many_colon by exact NI. split; [reflexivity|].
  apply target_arg_value in T. destruct (target_arg u); discriminate.
Qed.
Lemma no_colon u v : target_value u v -> ~ In ":" v -> Uri.hub_target u = None /\ target_arg u <> None.
Proof.
  intros T NI. rewrite (hub_target_value u _ T), many_none by exact NI. split; [reflexivity|].
  apply target_arg_value in T. destruct (target_arg u); discriminate.
Qed.

(** What becomes of every URI: one of four things, no fifth.  (The exception for an
    address that cannot be read back is never thrown.) *)
Theorem C116_extract : forall resolve u, proper resolve ->
  (~ In (Uri.s_ "target") (map fst (Uri.u_args u)) /\ extract_target resolve u = TMissing) \/
  (exists v, target_value u v /\ ~ In ":" v /\ extract_target resolve u = TUnparsed) \/
  (exists host service, names u host service /\ resolve host service = None /\ extract_target resolve u = TLookup) \/
  (exists host service q port, names u host service /\ resolve host service = Some (q, port) /\ extract_target resolve u = TId (number q) port).
Proof.
  intros resolve u P. destruct (target_arg u) as [(k, v)|] eqn:A.
  - assert (T : target_value u v) by (apply target_arg_value; rewrite A; reflexivity). right.
    destruct (colon_or v) as [NI|(h & p & -> & NI)].
    + left. exists v. split; [exact T|]. split; [exact NI|]. unfold extract_target. rewrite A, (proj1 (no_colon u v T NI)). reflexivity.
    + right. assert (NM : names u (Prop_Uri.nosp h) (Prop_Uri.nosp p)) by (exists h, p; auto).
      destruct (resolve (Prop_Uri.nosp h) (Prop_Uri.nosp p)) as [(q, port)|] eqn:R.
      * right. do 4 eexists. split; [exact NM|]. split; [exact R|]. unfold extract_target. rewrite A, (proj1 (names_target _ _ _ NM)), R.
        destruct (P _ _ _ _ R) as (Q & _). rewrite read_dotted, joined_number by exact Q. reflexivity.
      * left. do 2 eexists. split; [exact NM|]. split; [exact R|]. unfold extract_target. rewrite A, (proj1 (names_target _ _ _ NM)), R. reflexivity.
  - left. split; [apply target_arg_none, A|]. unfold extract_target. rewrite A. reflexivity.
Qed.

Lemma extract_named resolve u host service q port : proper resolve -> names u host service -> resolve host service = Some (q, port) ->
  extract_target resolve u = TId (number q) port.
Proof.
  intros P NM R. destruct (names_target _ _ _ NM) as (H & A). unfold extract_target. destruct (target_arg u) as [?|]; [|congruence].
  rewrite H, R. destruct (P _ _ _ _ R) as (Q & _). rewrite read_dotted, joined_number by exact Q. reflexivity.
Qed.

(** The usual text of a URI names the target in it. *)
Theorem C116_text : forall prot host port h p,
  prot <> [] -> Prop_Uri.plain (Uri.is ":") prot ->
  host <> [] -> Prop_Uri.plain (fun c => Uri.is ":" c || Uri.is "?" c) host ->
  port <> [] -> Prop_Uri.plain Uri.is_punct port ->
  Prop_Uri.plain (fun c => Uri.is ":" c || Uri.is "&" c) h -> Prop_Uri.plain (Uri.is "&") p ->
  exists u, Uri.parse_uri (prot ++ Uri.s_ "://" ++ host ++ Uri.s_ ":" ++ port ++ Uri.s_ "?target=" ++ h ++ Uri.s_ ":" ++ p) = Uri.POk u [] /\
    Uri.u_prot u = prot /\ Uri.u_host u = host /\ Uri.u_port u = port /\ names u h p.
Proof.
  intros prot host port h p N1 P1 N2 P2 N3 P3 P4 P5.
  assert (P4' : Prop_Uri.plain (Uri.is "&") h).
  { eapply Forall_impl; [|exact P4]. cbn. intros c (A & B). destruct (Uri.is ":" c), (Uri.is "&" c); try discriminate; auto. }
  set (u := Uri.mkUri prot host port [] [] [(Uri.s_ "target", h ++ ":" :: p)]).
  assert (W : Prop_Uri.wf_uri u).
  { constructor; cbn [u Uri.u_prot Uri.u_host Uri.u_port Uri.u_path Uri.u_ext Uri.u_args]; auto; try (apply Forall_nil).
    constructor; [|constructor]. cbn [fst snd]. split; [discriminate|]. split; [apply Prop_Uri.plain_b; reflexivity|].
    apply Forall_app. split; [exact P4'|]. constructor; [split; reflexivity|exact P5]. }
  exists u. split.
  - rewrite <- (Prop_Uri.C61_round_trip u W). f_equal. unfold Uri.print_uri, u. cbn [Uri.u_prot Uri.u_host Uri.u_port Uri.u_path Uri.u_ext Uri.u_args Uri.print_args].
    destruct port as [|c port]; [congruence|]. cbn [app Uri.s_ list_ascii_of_string]. reflexivity.
  - do 3 (split; [reflexivity|]). exists h, p. split; [|split].
    + exists [], []. split; [reflexivity|intros []].
    + intros I. unfold Prop_Uri.plain in P4. rewrite Forall_forall in P4. destruct (P4 _ I) as (_ & B). discriminate.
    + split; symmetry; eapply Prop_Uri.nosp_plain; eassumption.
Qed.

(** The packet of IPbus that is in what the client sends. *)
Definition inner (b : buf) : bytes := bytes_of (skipn 2 (b_send b)).

Lemma swap_swap v : v < 65536 -> swap16 (v mod 256 * 256 + v / 256) = v /\ v mod 256 * 256 + v / 256 < 65536.
Proof. intros V. unfold swap16. lia. Qed.
Lemma word_halves w p n : w < 2 ^ 32 -> p < 2 ^ 16 -> w mod 2 ^ 16 = turned2 p -> (w / 2 ^ 16) mod 256 * 256 + w / 2 ^ 24 = n ->
  Tcp.mem4 w = be16 p ++ be16 n.
Proof.
  change (2 ^ 32) with 4294967296. change (2 ^ 16) with 65536. change (2 ^ 24) with (65536 * 256). intros W P A B.
  rewrite <- N.div_div in B by discriminate. assert (V : w / 65536 < 65536) by (clear - W; lia).
  destruct (swap_swap _ V) as (S1 & S2). rewrite B in S1, S2. rewrite <- (mem4_halves p n) by assumption. f_equal. rewrite S1, <- A.
  rewrite N.add_comm. apply N.div_mod. discriminate.
Qed.

Lemma bytes_length ws : List.length (bytes_of ws) = (4 * List.length ws)%nat.
Proof. apply bytes_of_length. Qed.

(** Every packet of the client, of both versions of the protocol: its bytes. *)
Lemma sent_bytes g t cs : good_target t -> cfg_ok g -> g_maxsend g < 2 ^ 18 -> g_hub g = Some (turned4 (fst t), turned2 (snd t)) ->
  Forall op_ok (cmd_ops cs) -> exists bs, sent g cs = Some bs /\
  Forall (fun b => good_req (inner b) /\ bytes_of (b_send b) = be32 (fst t) ++ be16 (snd t) ++ be16 (N.of_nat (List.length (inner b) / 4)) ++ inner b) bs.
Proof.
  intros (T1 & T2) G M H F. destruct (C55_hub_preamble g _ _ cs G H F) as (bs & E & P). exists bs. split; [exact E|].
  assert (L : exists bs', sent g cs = Some bs' /\ Forall (fun b => send_counter b <= g_maxsend g) bs').
  { destruct (sent_packets g cs G F) as (bs' & E' & P'). exists bs'. split; [exact E'|]. eapply Forall_impl; [|exact P']. intros b ((S1 & _) & _). exact S1. }
  destruct L as (bs' & E' & L). rewrite E in E'. injection E' as <-. rewrite Forall_forall in *. intros b B. specialize (P b B). specialize (L b B).
  destruct P as (w & rest & S & W & Wp & _ & Wn). specialize (Wn M). unfold inner. rewrite S. cbn [skipn].
  unfold send_counter in L. rewrite S in L. cbn [List.length] in L.
  assert (NL : N.of_nat (List.length rest) < 2 ^ 16). { change (2 ^ 16) with 65536. change (2 ^ 18) with 262144 in M. lia. }
  assert (D : (List.length (bytes_of rest) / 4 = List.length rest)%nat). { rewrite bytes_length, Nat.mul_comm. apply Nat.div_mul. discriminate. }
  split.
  - split; [rewrite bytes_length, Nat.mul_comm; apply Nat.mod_mul; discriminate|]. rewrite D. exact NL.
  - rewrite D. cbn [bytes_of flat_map]. fold (bytes_of rest). rewrite (mem4_turned _ T1). rewrite (word_halves w (snd t) (N.of_nat (List.length rest)) W T2 Wp Wn).
    rewrite <- !app_assoc. reflexivity.
Qed.

Lemma chunk_of t bs : Forall (fun b => good_req (inner b) /\ bytes_of (b_send b) = be32 (fst t) ++ be16 (snd t) ++ be16 (N.of_nat (List.length (inner b) / 4)) ++ inner b) bs ->
  flat_map (fun b => bytes_of (b_send b)) bs = chunk t (map inner bs).
Proof.
  induction 1 as [|b bs (_ & B) F IH]; [reflexivity|]. cbn [flat_map map]. rewrite chunk_cons, IH, B, <- !app_assoc. reflexivity.
Qed.

Lemma be32_number a b c d : address (a, b, c, d) -> be32 (number (a, b, c, d)) = [a; b; c; d].
Proof.
  intros Q. pose proof (tuple_number _ Q) as TU. set (x := number (a, b, c, d)) in *. clearbody x. unfold to_tuple in TU. destruct (x <? 2 ^ 32); [|discriminate].
  unfold be32. injection TU as <- <- <- <-. reflexivity.
Qed.

(** The client whose URI names a host and a port which the resolver turns into the
    address a.b.c.d and a port: the first six bytes of every packet are a, b, c, d and
    the port, most significant byte first; any packets in any chunk are given to the
    device client of this target by the manager, unless it is blocked; and its datagrams
    go to a.b.c.d and this port. *)
Theorem C116_reached : forall resolve u host service a b c d port members g cs,
  proper resolve -> names u host service -> resolve host service = Some ((a, b, c, d), port) ->
  hub_members resolve u = Some members -> g_hub g = Some members -> cfg_ok g -> g_maxsend g < 2 ^ 18 -> Forall op_ok (cmd_ops cs) ->
  exists bs, sent g cs = Some bs /\
    Forall (fun k => firstn 6 (bytes_of (b_send k)) = [a; b; c; d; port / 256; port mod 256]) bs /\
    forall part allow m, part <> [] -> incl part bs -> m_dead m = false ->
      exists t, udp_end t = Some ((a, b, c, d), port) /\
        snd (fst (man_step allow m (MChunk (flat_map (fun k => bytes_of (b_send k)) part)))) =
          (if allow t then map (fun k => (t, inner k)) part else []).
Proof.
  intros resolve u host service a b c d port members g cs P NM R HM GH G M F.
  destruct (P _ _ _ _ R) as (Q & PT). unfold hub_members in HM. rewrite (extract_named _ _ _ _ _ _ P NM R) in HM. injection HM as <-.
  rewrite htonl_turned, htons_turned in GH. set (t := (number (a, b, c, d), port)).
  assert (T : good_target t) by (split; [apply number_lt, Q|exact PT]).
  destruct (sent_bytes g t cs T G M GH F) as (bs & E & B). exists bs. split; [exact E|]. split.
  - eapply Forall_impl; [|exact B]. intros k (_ & ->). cbn [fst snd t]. rewrite be32_number by exact Q. unfold be16. cbn [app firstn].
    change (2 ^ 16) with 65536 in PT. replace (port / 256 mod 256) with (port / 256) by (clear - PT; lia). reflexivity.
  - intros part allow m NE I A. exists t. split; [unfold udp_end; cbn [t fst snd]; rewrite tuple_number by exact Q; reflexivity|].
    assert (B' : Forall (fun b => good_req (inner b) /\ bytes_of (b_send b) = be32 (fst t) ++ be16 (snd t) ++ be16 (N.of_nat (List.length (inner b) / 4)) ++ inner b) part).
    { rewrite Forall_forall in *. intros x X. apply B, I, X. }
    rewrite (chunk_of t part B'). unfold man_step. rewrite A.
    assert (GC : good_chunk (map inner part)). { split; [destruct part; [congruence|discriminate]|]. apply Forall_map. eapply Forall_impl; [|exact B']. intros x (X & _). exact X. }
    destruct (allow t) eqn:AL.
    + rewrite (C88_chunk allow t _ m T AL GC). cbn [fst snd]. rewrite map_map. reflexivity.
    + unfold on_chunk. rewrite chunk_length by apply GC. cbn [Nat.eqb].
      assert (U : exists r, unpack allow (Datatypes.S (List.length (chunk t (map inner part)))) (chunk t (map inner part)) None 0 = ([], UError r)).
      { destruct part as [|k part]; [congruence|]. cbn [map]. rewrite chunk_cons. inversion GC as (_ & GR). inversion GR as [|? ? (G1 & G2) G3]; subst.
        unfold be32, be16. cbn [app unpack]. rewrite un32_be32, !be16_back by (try apply T; exact G2). rewrite Nat2N.id.
        replace (4 * (List.length (inner k) / 4))%nat with (List.length (inner k)) by lia.
        destruct (Nat.leb_spec (List.length (inner k)) (List.length (inner k ++ chunk t (map inner part)))) as [_|L]; [|rewrite app_length in L; lia].
        cbn [fst snd t] in *. fold t. rewrite AL. eexists. reflexivity. }
      destruct U as (r & ->). reflexivity.
Qed.

(** A client of IPbus 2.0 made with such a URI is one that [C92_full] speaks of. *)
Theorem C116_full : forall resolve u host service q port members ms mr,
  proper resolve -> names u host service -> resolve host service = Some (q, port) -> hub_members resolve u = Some members ->
  29 + 8 <= ms < 2 ^ 18 -> 29 + 12 <= mr < 2 ^ 32 ->
  hub_client (number q, port) (mkCfg V2 ms mr (Some members)) /\ good_target (number q, port).
Proof.
  intros resolve u host service q port members ms mr P NM R HM MS MR. destruct (P _ _ _ _ R) as (Q & PT).
  unfold hub_members in HM. rewrite (extract_named _ _ _ _ _ _ P NM R) in HM. injection HM as <-. rewrite htonl_turned, htons_turned.
  pose proof (turned2_lt port). change (2 ^ 18) with 262144 in MS. change (2 ^ 32) with 4294967296 in MR.
  split; [|split; [apply number_lt, Q|exact PT]]. split; [|split; [reflexivity|split; [reflexivity|cbn; lia]]].
  unfold cfg_ok. cbn [g_hub g_maxsend g_maxreply g_ver]. change (2 ^ 32) with 4294967296. change (2 ^ 16) with 65536. repeat split; try lia; try discriminate.
Qed.

(** *** The log of the ControlHub *)
Lemma value_app s c : value (s ++ [c]) = value s * 10 + (N_of_ascii c - 48).
Proof. unfold value. rewrite fold_left_app. reflexivity. Qed.
Lemma decimal_value f : forall n, n < 10 ^ N.of_nat (S f) -> value (decimal (S f) n) = n /\ Forall (fun c => 48 <= N_of_ascii c <= 57) (decimal (S f) n) /\
  (0 < n -> forall t, decimal (S f) n <> "0" :: t).
Proof.
  induction f as [|f IH]; intros n L.
  - change (10 ^ N.of_nat 1) with 10 in L. cbn [decimal]. destruct (N.ltb_spec n 10); [|lia]. cbn [app]. rewrite N.mod_small by lia.
    unfold value. cbn [fold_left]. rewrite N_ascii_embedding by lia. split; [lia|]. split; [repeat constructor; rewrite N_ascii_embedding by lia; lia|].
    intros P t E. apply (f_equal (fun l => N_of_ascii (hd " " l))) in E. cbn [app hd] in E. rewrite N_ascii_embedding in E by lia. change (N_of_ascii "0") with 48 in E. lia.
  - change (decimal (S (S f)) n) with ((if n <? 10 then [] else decimal (S f) (n / 10)) ++ [ascii_of_N (48 + n mod 10)]).
    assert (M : n mod 10 < 10) by (apply N.mod_lt; discriminate).
    rewrite value_app, N_ascii_embedding by lia. destruct (N.ltb_spec n 10) as [H|H].
    + cbn [app value fold_left]. rewrite N.mod_small by lia. split; [lia|]. split; [repeat constructor; rewrite N_ascii_embedding by lia; lia|].
      intros P t E. apply (f_equal (fun l => N_of_ascii (hd " " l))) in E. cbn [app hd] in E. rewrite N_ascii_embedding in E by lia. change (N_of_ascii "0") with 48 in E. lia.
    + assert (Q : n / 10 < 10 ^ N.of_nat (S f)).
      { apply N.div_lt_upper_bound; [discriminate|]. rewrite <- N.pow_succ_r', <- Nat2N.inj_succ. exact L. }
      destruct (IH _ Q) as (V & D & Z). rewrite V. split; [lia|]. split.
      * apply Forall_app. split; [exact D|]. repeat constructor; rewrite N_ascii_embedding by lia; lia.
      * intros _ t E. destruct (decimal (S f) (n / 10)) as [|c s] eqn:ED.
        { cbn [decimal] in ED. destruct (if n / 10 <? 10 then [] else _); discriminate. }
        injection E as -> _. apply (Z ltac:(lia) s). reflexivity.
Qed.
Lemma decimal_numeral f n : n < 10 ^ N.of_nat (S f) -> numeral (decimal (S f) n) n.
Proof.
  intros L. destruct (decimal_value f n L) as (V & D & Z). split; [|split; [exact D|split; [exact V|]]].
  - cbn [decimal]. destruct (if n <? 10 then [] else _); discriminate.
  - intros t E. destruct (N.eq_dec n 0) as [->|NZ]; [|destruct (Z ltac:(lia) t E)]. cbn [decimal] in E. cbn in E. injection E as <-. reflexivity.
Qed.

(** The name the ControlHub gives to a target in its log is its address in the usual
    notation, a colon and the port. *)
Theorem C116_log : forall a b c d port, address (a, b, c, d) -> port < 2 ^ 16 ->
  exists sa sb sc sd sp, numeral sa a /\ numeral sb b /\ numeral sc c /\ numeral sd d /\ numeral sp port /\
    ip_port_string (number (a, b, c, d)) port = Some (sa ++ Uri.s_ "." ++ sb ++ Uri.s_ "." ++ sc ++ Uri.s_ "." ++ sd ++ Uri.s_ ":" ++ sp).
Proof.
  intros a b c d port Q P. exists (decimal 3 a), (decimal 3 b), (decimal 3 c), (decimal 3 d), (decimal 5 port).
  pose proof Q as (A & B & C & D). repeat (split; [apply decimal_numeral; cbn in *; lia|]).
  unfold ip_port_string. rewrite tuple_number by exact Q. unfold dotted. rewrite <- !app_assoc. reflexivity.
Qed.

(** ** Not so *)

(** Every target a URI names is honoured or refused: false, only the first counts. *)
Theorem C116_second_refuted : ~ forall resolve u v, proper resolve -> In (Uri.s_ "target", v) (Uri.u_args u) -> ~ In ":" v ->
  hub_members resolve u = None.
Proof.
  intros H. set (r := fun _ _ : Uri.str => Some ((192, 168, 200, 200), 50001)).
  specialize (H r (Uri.mkUri (Uri.s_ "chtcp-2.0") (Uri.s_ "hub") (Uri.s_ "10203") [] [] [(Uri.s_ "target", Uri.s_ "a:1"); (Uri.s_ "target", Uri.s_ "b")]) (Uri.s_ "b")).
  cbv beta in H. vm_compute (hub_members _ _) in H. discriminate H; clear H.
  - intros h s q port E. injection E as <- <-. repeat split; reflexivity.
  - right. left. reflexivity.
  - intros [E|[]]; discriminate.
Qed.

(** ** A case *)
Definition one_board (h s : Uri.str) : option (quad * N) :=
  if Uri.str_eqb h (Uri.s_ "board") && Uri.str_eqb s (Uri.s_ "50001") then Some ((192, 168, 200, 17), 50001) else None.
Lemma one_proper : proper one_board.
Proof. intros h s q port. unfold one_board. destruct (_ && _); [|discriminate]. intros E. injection E as <- <-. repeat split; reflexivity. Qed.
Definition board_uri : Uri.uri := Uri.mkUri (Uri.s_ "chtcp-2.0") (Uri.s_ "hub") (Uri.s_ "10203") [] [] [(Uri.s_ "x", Uri.s_ "y"); (Uri.s_ "target", Uri.s_ "board:50001")].
Lemma board_named : names board_uri (Uri.s_ "board") (Uri.s_ "50001").
Proof.
  exists (Uri.s_ "board"), (Uri.s_ "50001"). split; [|split; [|split; reflexivity]].
  - exists [(Uri.s_ "x", Uri.s_ "y")], []. split; [reflexivity|]. cbn. intros [E|[]]. discriminate.
  - cbn. intros H. repeat (destruct H as [H|H]; [discriminate|]). exact H.
Qed.
Definition board_cfg : cfg := mkCfg V2 1400 1400 (hub_members one_board board_uri).
Definition board_calls : list cmd := [COp (OWrite 16 0x12345678); COp (ORead 17 0xFFFFFFFF); CDispatch].

(** The four cases of [C116_extract]. *)
Example C116_extract_case :
  extract_target one_board (Uri.mkUri [] [] [] [] [] [(Uri.s_ "x", Uri.s_ "y")]) = TMissing /\
  extract_target one_board (Uri.mkUri [] [] [] [] [] [(Uri.s_ "target", Uri.s_ "board")]) = TUnparsed /\
  extract_target one_board (Uri.mkUri [] [] [] [] [] [(Uri.s_ "target", Uri.s_ "shelf:50001")]) = TLookup /\
  extract_target one_board (Uri.mkUri [] [] [] [] [] [(Uri.s_ "target", Uri.s_ " bo ard: 50001")]) = TId 0xC0A8C811 50001 /\ proper one_board.
Proof. repeat (split; [vm_compute; reflexivity|]). exact one_proper. Qed.

Example C116_text_case : exists u, Uri.parse_uri (Uri.s_ "chtcp-2.0://hub:10203?target=board:50001") = Uri.POk u [] /\ names u (Uri.s_ "board") (Uri.s_ "50001") /\
  extract_target one_board u = TId 0xC0A8C811 50001.
Proof.
  destruct (C116_text (Uri.s_ "chtcp-2.0") (Uri.s_ "hub") (Uri.s_ "10203") (Uri.s_ "board") (Uri.s_ "50001")) as (u & E & _ & _ & _ & NM);
    try discriminate; try (apply Prop_Uri.plain_b; vm_compute; reflexivity).
  exists u. split; [exact E|]. split; [exact NM|]. exact (extract_named _ _ _ _ _ _ one_proper NM eq_refl).
Qed.

Example C116_reached_case : hub_members one_board board_uri = Some (0x11C8A8C0, 0x51C3) /\ cfg_ok board_cfg /\ Forall op_ok (cmd_ops board_calls) /\
  option_map (map (fun b => bytes_of (b_send b))) (sent board_cfg board_calls) =
    Some [[192; 168; 200; 17; 195; 81; 0; 6] ++ [0xF0; 0; 0; 0x20] ++ [0x1F; 1; 0; 0x20] ++ [16; 0; 0; 0] ++ [0x78; 0x56; 0x34; 0x12] ++ [0x0F; 1; 1; 0x20] ++ [17; 0; 0; 0]].
Proof.
  split; [vm_compute; reflexivity|]. split; [vm_compute; repeat split; discriminate|]. split; [repeat constructor|]. vm_compute. reflexivity.
Qed.

Example C116_delivered_case : forall bs, sent board_cfg board_calls = Some bs ->
  snd (fst (man_step (fun _ => true) man0 (MChunk (flat_map (fun k => bytes_of (b_send k)) bs)))) = map (fun k => ((0xC0A8C811, 50001), inner k)) bs /\
  udp_end (0xC0A8C811, 50001) = Some ((192, 168, 200, 17), 50001) /\ bs <> [].
Proof. intros bs E. vm_compute in E. injection E as <-. vm_compute. repeat split; discriminate. Qed.

Example C116_full_case : hub_client (0xC0A8C811, 50001) board_cfg.
Proof. exact (proj1 (C116_full one_board board_uri _ _ _ _ _ 1400 1400 one_proper board_named eq_refl eq_refl ltac:(split; [discriminate|reflexivity]) ltac:(split; [discriminate|reflexivity]))). Qed.

Example C116_log_case : option_map string_of_list_ascii (ip_port_string 0xC0A8C811 50001) = Some "192.168.200.17:50001"%string /\ number (192, 168, 200, 17) = 0xC0A8C811.
Proof. split; vm_compute; reflexivity. Qed.

Print Assumptions C116_extract.
Print Assumptions C116_text.
Print Assumptions C116_reached.
Print Assumptions C116_full.
Print Assumptions C116_log.
Print Assumptions C116_second_refuted.
