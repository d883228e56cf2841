(** C118: the report file of overlapping nodes. *)
From Coq Require Import NArith ZArith List Bool String Ascii Permutation Lia PeanoNat ZifyBool ZifyNat ZifyN.
From Verif Require Import Word NodeTree NodeProofs Overlap Prop_Overlap Builder BuilderProofs Prop_Builder OverlapText.
From Verif Require Describe DescribeSpec DescribeProofs.
Import ListNotations.
Open Scope N_scope.
Ltac Zify.zify_post_hook ::= Z.div_mod_to_equations.

(** ** Specification *)

(** The value of a hexadecimal digit. *)
Definition hex_digits : list (ascii * N) :=
  [("0", 0); ("1", 1); ("2", 2); ("3", 3); ("4", 4); ("5", 5); ("6", 6); ("7", 7); ("8", 8); ("9", 9);
   ("a", 10); ("b", 11); ("c", 12); ("d", 13); ("e", 14); ("f", 15)]%char.
Fixpoint value_of (c : ascii) (l : list (ascii * N)) : option N :=
  match l with [] => None | (d, v) :: r => if Ascii.eqb c d then Some v else value_of c r end.
(** The number a text of digits means, after the number read so far. *)
Fixpoint reads (acc : N) (s : text) : option N :=
  match s with [] => Some acc | c :: r => match value_of c hex_digits with Some d => reads (16 * acc + d) r | None => None end end.
(** Eight hexadecimal digits for this number. *)
Definition hex8 (s : text) (v : N) : Prop := List.length s = 8%nat /\ reads 0 s = Some v.

(** What a line says about the place of a node: its addresses, and its mask if both nodes
    have just one. *)
Definition place (a other : attrs) (s : text) : Prop :=
  (a_mode a = INCREMENTAL /\ exists x y v w, s = lit "addresses 0x" ++ x ++ lit " - 0x" ++ y /\ hex8 x v /\ hex8 y w /\
     forall z, occupies a z <-> v <= z <= w) \/
  (a_mode a <> INCREMENTAL /\ a_mode other = INCREMENTAL /\ exists x v, s = lit "address 0x" ++ x /\ hex8 x v /\
     forall z, occupies a z <-> z = v) \/
  (a_mode a <> INCREMENTAL /\ a_mode other <> INCREMENTAL /\ exists x v y, s = lit "address 0x" ++ x ++ lit ", mask 0x" ++ y /\ hex8 x v /\
     (forall z, occupies a z <-> z = v) /\ hex8 y (a_mask a)).

(** The line about two nodes. *)
Definition line (t : node) (p q : list nat) (s : text) : Prop :=
  exists n m x y, get t p = Some n /\ get t q = Some m /\ place (n_at n) (n_at m) x /\ place (n_at m) (n_at n) y /\
  s = lit "Node '" ++ lit (DescribeSpec.full_name t p) ++ lit "' [" ++ x ++ lit "] overlaps with '" ++
      lit (DescribeSpec.full_name t q) ++ lit "' [" ++ y ++ lit "].".

Definition nl : ascii := ascii_of_nat 10.
(** The text is these lines, each with its end. *)
Definition in_lines (s : text) (L : list text) : Prop := Forall (fun l => ~ In nl l) L /\ s = List.concat (map (fun l => l ++ [nl]) L).

(** Addresses and masks are uint32_t; no id has an end of line in it. *)
Definition in_range (t : node) : Prop := forall p n, get t p = Some n -> a_addr (n_at n) < 2 ^ 32 /\ a_mask (n_at n) < 2 ^ 32.
Definition one_line_ids (t : node) : Prop := forall p n, get t p = Some n -> ~ In nl (lit (a_id (n_at n))).

(** Some nodes below the top one overlap. *)
Definition overlapping (t : node) : Prop := exists p q, p <> [] /\ q <> [] /\ p <> q /\ overlap t p q.

(** The same text but for slashes and hyphens. *)
Definition alike_names (p q : text) : Prop :=
  Forall2 (fun a b => a = b \/ (In a ["/"; "-"]%char /\ In b ["/"; "-"]%char)) p q.

(** Where the report on the table of path [p] is to be: the directory of the user, and the
    path with hyphens for its slashes. *)
Definition place_of_report (user : option text) (p f : text) : Prop :=
  exists d n, f = lit "/tmp" ++ d ++ lit "/uhal/OverlapReport" ++ n ++ lit ".txt" /\
  match user with Some u => d = "/"%char :: u | None => d = [] end /\
  Forall2 (fun a b => a = "/"%char /\ b = "-"%char \/ a <> "/"%char /\ b = a) p n.

(** ** Numbers *)

Lemma digit_value d : d < 16 -> value_of (digit_char d) hex_digits = Some d.
Proof.
  intros H. assert (K : In d (map N.of_nat (seq 0 16))) by (rewrite in_map_iff; exists (N.to_nat d); rewrite in_seq; lia).
  revert d K H. apply (proj1 (Forall_forall (fun d => d < 16 -> value_of (digit_char d) hex_digits = Some d) _)).
  repeat (apply Forall_cons; [intros _; vm_compute; reflexivity|]). apply Forall_nil.
Qed.

Lemma reads_app x : forall acc y, reads acc (x ++ y) = match reads acc x with Some v => reads v y | None => None end.
Proof. induction x as [|c x IH]; intros acc y; [reflexivity|]. cbn [app reads]. destruct (value_of c hex_digits); [apply IH|reflexivity]. Qed.

Lemma reads_zeros n : reads 0 (repeat "0"%char n) = Some 0.
Proof. induction n as [|n IH]; [reflexivity|]. cbn [repeat reads]. change (value_of "0" hex_digits) with (Some 0). exact IH. Qed.

Lemma digits_read : forall f v, v < 16 ^ N.of_nat f -> reads 0 (digits f 16 v) = Some v.
Proof.
  induction f as [|f IH]; intros v H.
  { cbn [digits reads]. f_equal. change (16 ^ N.of_nat 0) with 1 in H. lia. }
  rewrite Nat2N.inj_succ, N.pow_succ_r' in H. cbn [digits]. rewrite reads_app.
  assert (D : forall acc, reads acc [digit_char (v mod 16)] = Some (16 * acc + v mod 16)).
  { intros acc. cbn [reads]. rewrite digit_value by (apply N.mod_lt; discriminate). reflexivity. }
  destruct (N.ltb_spec v 16) as [L|L].
  - transitivity (reads 0 [digit_char (v mod 16)]); [reflexivity|]. rewrite D. f_equal. rewrite N.mod_small by exact L. lia.
  - rewrite IH by (apply N.div_lt_upper_bound; [discriminate|exact H]). rewrite D. f_equal. symmetry. apply N.div_mod. discriminate.
Qed.

Lemma digits_length : forall f k v, (1 <= k)%nat -> v < 16 ^ N.of_nat k -> (List.length (digits f 16 v) <= k)%nat.
Proof.
  induction f as [|f IH]; intros k v K H; cbn [digits]; [cbn; lia|]. rewrite app_length. cbn [List.length].
  destruct (N.ltb_spec v 16) as [L|L]; [cbn [List.length]; lia|].
  destruct k as [|[|k]]; [lia|change (16 ^ N.of_nat 1) with 16 in H; lia|].
  rewrite Nat2N.inj_succ, N.pow_succ_r' in H.
  assert (X := IH (S k) (v / 16) ltac:(lia) ltac:(apply N.div_lt_upper_bound; [discriminate|exact H])). lia.
Qed.

(** The eight digits written for a number. *)
Definition eight (v : N) : text := repeat "0"%char (8 - List.length (digits 10 16 v)) ++ digits 10 16 v.
Lemma eight_ok v : v < 2 ^ 32 -> hex8 (eight v) v.
Proof.
  intros H. unfold hex8, eight. change (2 ^ 32) with (16 ^ N.of_nat 8) in H. split.
  - assert (X := digits_length 10 8 v ltac:(lia) H). rewrite app_length, repeat_length. lia.
  - rewrite reads_app, reads_zeros. apply digits_read. eapply N.lt_trans; [exact H|]. vm_compute. reflexivity.
Qed.

Lemma reads_one_line : forall s acc v, reads acc s = Some v -> ~ In nl s.
Proof.
  induction s as [|c s IH]; intros acc v E I; [exact I|]. cbn [reads] in E. destruct I as [->|I].
  - vm_compute in E. discriminate.
  - destruct (value_of c hex_digits); [|discriminate]. exact (IH _ _ E I).
Qed.

(** ** Lines *)

Definition place_text (a other : attrs) : text :=
  if mode_eqb (a_mode a) INCREMENTAL then lit "addresses 0x" ++ eight (a_addr a) ++ lit " - 0x" ++ eight (sub32 (add32 (a_addr a) (a_size a)) 1)
  else if mode_eqb (a_mode other) INCREMENTAL then lit "address 0x" ++ eight (a_addr a)
  else lit "address 0x" ++ eight (a_addr a) ++ lit ", mask 0x" ++ eight (a_mask a).
Definition line_text (t : node) (p q : list nat) : text :=
  lit "Node '" ++ lit (Describe.path_at t p) ++ lit "' [" ++ place_text (at_pos t p) (at_pos t q) ++ lit "] overlaps with '" ++
  lit (Describe.path_at t q) ++ lit "' [" ++ place_text (at_pos t q) (at_pos t p) ++ lit "].".

(** A stream in the middle of a line. *)
Definition inside_line (s : stream) (x : text) : Prop := s_hex s = true /\ s_fill s = "0"%char /\ s_width s = 0%nat /\ s_out s = x.

Lemma put_inside s x y : inside_line s x -> inside_line (put s y) (x ++ y).
Proof. intros (H & F & W & O). unfold inside_line, put. cbn [s_hex s_fill s_width s_out]. rewrite W, O. cbn [Nat.sub repeat app]. auto. Qed.

Lemma put_number s x v : inside_line s x -> inside_line (put_u32 (setw 8 s) v) (x ++ eight v).
Proof.
  intros (H & F & W & O). unfold inside_line, put_u32, put, setw, eight. cbn [s_hex s_fill s_width s_out]. rewrite H, F, O. auto.
Qed.

Lemma put_place_inside a b s x : inside_line s x -> inside_line (put_place a b s) (x ++ place_text a b).
Proof.
  intros H. unfold put_place, place_text. destruct (mode_eqb (a_mode a) INCREMENTAL); [|destruct (mode_eqb (a_mode b) INCREMENTAL)]; cbv zeta;
  repeat rewrite app_assoc; repeat (apply put_number || apply put_inside); exact H.
Qed.

Lemma describe_ok t s p q : s_width s = 0%nat ->
  s_hex (describe t s p q) = s_hex s /\ s_fill (describe t s p q) = s_fill s /\ s_width (describe t s p q) = 0%nat /\
  s_out (describe t s p q) = s_out s ++ line_text t p q.
Proof.
  intros W. unfold describe. cbv zeta.
  set (s1 := put (put (put (set_hex true (set_fill "0" s)) (lit "Node '")) (lit (Describe.path_at t p))) (lit "' [")).
  set (s2 := put_place (at_pos t p) (at_pos t q) s1).
  set (s3 := put (put (put s2 (lit "] overlaps with '")) (lit (Describe.path_at t q))) (lit "' [")).
  set (s4 := put (put_place (at_pos t q) (at_pos t p) s3) (lit "].")).
  assert (K : inside_line s4 (s_out s ++ line_text t p q)).
  { unfold line_text. repeat rewrite app_assoc. unfold s4. apply put_inside, put_place_inside. unfold s3. do 3 apply put_inside.
    unfold s2. apply put_place_inside. unfold s1. do 3 apply put_inside. unfold inside_line, set_hex, set_fill. cbn [s_hex s_fill s_width s_out]. auto. }
  destruct K as (_ & _ & K1 & K2). unfold set_fill, set_hex. cbn [s_hex s_fill s_width s_out]. auto.
Qed.

Lemma body_text t : body t = List.concat (map (fun l => l ++ [nl]) (map (fun pq => line_text t (fst pq) (snd pq)) (overlaps t))).
Proof.
  unfold body. generalize (overlaps t). intros l.
  assert (K : forall l s, s_width s = 0%nat -> s_out (fold_left (fun s pq => put (describe t s (fst pq) (snd pq)) newline) l s) =
    s_out s ++ List.concat (map (fun l => l ++ [nl]) (map (fun pq => line_text t (fst pq) (snd pq)) l))).
  { clear l. induction l as [|(p, q) l IH]; intros s W; cbn [fold_left map List.concat fst snd].
    - rewrite app_nil_r. reflexivity.
    - destruct (describe_ok t s p q W) as (_ & _ & W' & O). rewrite IH by reflexivity. unfold put at 1. cbn [s_out]. rewrite W', O. cbn [Nat.sub repeat app].
      change newline with [nl]. repeat rewrite <- app_assoc. reflexivity. }
  rewrite K; reflexivity.
Qed.

Lemma place_ok t p n a : in_range t -> blocks_fit t -> get t p = Some n -> a_mode (n_at n) <> HIERARCHICAL -> place (n_at n) a (place_text (n_at n) a).
Proof.
  intros R B G NH. destruct (R p n G) as (RA & RM). assert (BF := B p n G). unfold place, place_text.
  assert (D : a_mode (n_at n) = INCREMENTAL \/ (a_mode (n_at n) <> INCREMENTAL /\ mode_eqb (a_mode (n_at n)) INCREMENTAL = false /\
    forall z, occupies (n_at n) z <-> z = a_addr (n_at n))).
  { unfold occupies. destruct (a_mode (n_at n)); try congruence; auto; right; (split; [discriminate|]); (split; [reflexivity|]); intros z; reflexivity. }
  destruct D as [M|(NI & -> & O)].
  2: { right. destruct (mode_eqb (a_mode a) INCREMENTAL) eqn:MA; [left|right]; (split; [exact NI|]);
       (split; [destruct (a_mode a); congruence || discriminate|]); eauto 10 using eight_ok. }
  specialize (BF M). rewrite M. cbn [mode_eqb].
  left. split; [reflexivity|]. destruct BF as (B1 & B2).
  assert (S : sub32 (add32 (a_addr (n_at n)) (a_size (n_at n))) 1 = a_addr (n_at n) + a_size (n_at n) - 1).
  { clear - B1 B2. unfold sub32, add32, W32. change 4294967296 with (2 ^ 32). change (2 ^ 32) with 4294967296 in *. lia. }
  exists (eight (a_addr (n_at n))), (eight (sub32 (add32 (a_addr (n_at n)) (a_size (n_at n))) 1)), (a_addr (n_at n)), (a_addr (n_at n) + a_size (n_at n) - 1).
  split; [reflexivity|]. split; [apply eight_ok; exact RA|]. split; [rewrite S; apply eight_ok; lia|].
  intros z. unfold occupies. rewrite M. lia.
Qed.

Lemma lit_one_line s : forallb (fun c => negb (Ascii.eqb c nl)) (lit s) = true -> ~ In nl (lit s).
Proof. intros H I. rewrite forallb_forall in H. specialize (H _ I). rewrite Ascii.eqb_refl in H. discriminate. Qed.

Lemma place_one_line a b s : place a b s -> ~ In nl s.
Proof.
  assert (H8 : forall x v, hex8 x v -> ~ In nl x) by (intros x v (_ & H); eapply reads_one_line; exact H).
  intros [(_ & x & y & v & w & -> & X & Y & _)|[(_ & _ & x & v & -> & X & _)|(_ & _ & x & v & y & -> & X & _ & Y)]] I;
  repeat (apply in_app_or in I; destruct I as [I|I]); first [exact (H8 _ _ X I)|exact (H8 _ _ Y I)|revert I; apply lit_one_line; vm_compute; reflexivity].
Qed.

Lemma lit_app x y : lit (x ++ y)%string = lit x ++ lit y.
Proof. induction x as [|c x IH]; [reflexivity|]. cbn. f_equal. exact IH. Qed.

Lemma join_one_line l : Forall (fun s => ~ In nl (lit s)) l -> ~ In nl (lit (join l)).
Proof.
  induction 1 as [|s l H F IH]; [intros []|]. cbn [join]. destruct l as [|s' l]; [exact H|].
  rewrite !lit_app. intros I. repeat (apply in_app_or in I; destruct I as [I|I]); auto. revert I. apply lit_one_line. vm_compute. reflexivity.
Qed.

Lemma ids_one_line : forall p t n, one_line_ids t -> get t p = Some n -> Forall (fun s => ~ In nl (lit s)) (ids_along t p).
Proof.
  induction p as [|i p IH]; intros t n ON G; cbn [get ids_along] in *; [constructor|].
  destruct (nth_error (n_ch t) i) as [c|] eqn:E; [|discriminate]. constructor.
  - apply (ON [i] c). cbn [get]. rewrite E. reflexivity.
  - apply (IH c n); [|exact G]. intros q m Q. apply (ON (i :: q) m). cbn [get]. rewrite E. exact Q.
Qed.

Lemma name_one_line t p n : one_line_ids t -> get t p = Some n -> ~ In nl (lit (DescribeSpec.full_name t p)).
Proof.
  intros ON G. apply join_one_line, Forall_app. split; [|eapply ids_one_line; eassumption].
  destruct (String.eqb _ _); constructor; [|constructor]. apply (ON [] t). reflexivity.
Qed.

Lemma line_one_line t p q s : one_line_ids t -> line t p q s -> ~ In nl s.
Proof.
  intros ON (n & m & x & y & GP & GQ & X & Y & ->) I.
  repeat (apply in_app_or in I; destruct I as [I|I]);
  first [exact (name_one_line _ _ _ ON GP I)|exact (name_one_line _ _ _ ON GQ I)|exact (place_one_line _ _ _ X I)|exact (place_one_line _ _ _ Y I)|revert I; apply lit_one_line; vm_compute; reflexivity].
Qed.

Lemma overlaps_line t p q : wf t -> linked_below t -> blocks_fit t -> in_range t -> In (p, q) (overlaps t) -> line t p q (line_text t p q).
Proof.
  intros W L B R I. assert (H := C40_hierarchical t p q L B I). destruct (C40_report t L B) as (_ & X & _).
  destruct (X p q I) as (_ & _ & _ & (n & m & GP & GQ & _) & _).
  exists n, m, (place_text (n_at n) (n_at m)), (place_text (n_at m) (n_at n)). split; [exact GP|]. split; [exact GQ|].
  split; [eapply place_ok; eauto|]. split; [eapply place_ok; eauto|].
  unfold line_text. rewrite (DescribeProofs.path_full _ _ _ W L GP), (DescribeProofs.path_full _ _ _ W L GQ).
  unfold at_pos. rewrite GP, GQ. reflexivity.
Qed.

(** ** Theorems *)

(** The main part of the report: one line for each pair of overlapping nodes, with the
    full names of the nodes and with their addresses and masks. *)
Theorem C118_body : forall t, wf t -> linked_below t -> blocks_fit t -> in_range t -> one_line_ids t ->
  exists pairs L, in_lines (body t) L /\ Forall2 (fun pq s => line t (fst pq) (snd pq) s) pairs L /\ NoDup pairs /\
  (forall p q, p <> [] -> q <> [] -> p <> q -> In (p, q) pairs \/ In (q, p) pairs <-> overlap t p q) /\
  (forall p q, In (p, q) pairs -> p <> [] /\ q <> [] /\ p <> q /\ ~ In (q, p) pairs).
Proof.
  intros t W L B R ON. exists (overlaps t), (map (fun pq => line_text t (fst pq) (snd pq)) (overlaps t)).
  destruct (C40_report t L B) as (C1 & C2 & C3).
  assert (LN : forall pq, In pq (overlaps t) -> line t (fst pq) (snd pq) (line_text t (fst pq) (snd pq))).
  { intros (p, q) I. apply overlaps_line; assumption. }
  split; [split; [|apply body_text]|split; [|split; [exact C3|split; [exact C1|]]]].
  - apply Forall_forall. intros s I. apply in_map_iff in I. destruct I as (pq & <- & I). eapply line_one_line; [exact ON|exact (LN pq I)].
  - clear C1 C2 C3. induction (overlaps t) as [|pq l IH]; constructor; [apply LN; left; reflexivity|]. apply IH. intros x I. apply LN. right. exact I.
  - intros p q I. destruct (C2 p q I) as (X1 & X2 & X3 & _ & X4). auto.
Qed.

(** printNodeOverlapDescription writes the same whatever the base and the fill character
    of the stream are, and gives them back. *)
Theorem C118_stream : forall t p q, exists x, forall s, s_width s = 0%nat ->
  s_out (describe t s p q) = s_out s ++ x /\ s_hex (describe t s p q) = s_hex s /\ s_fill (describe t s p q) = s_fill s /\ s_width (describe t s p q) = 0%nat.
Proof. intros t p q. exists (line_text t p q). intros s W. destruct (describe_ok t s p q W) as (A & B & C & D). auto. Qed.

Lemma overlapping_cons t : linked_below t -> blocks_fit t -> (overlapping t <-> overlaps t <> []).
Proof.
  intros L B. destruct (C40_report t L B) as (C1 & C2 & _). split.
  - intros (p & q & P & Q & NE & O) E. apply (C1 p q P Q NE) in O. rewrite E in O. destruct O; contradiction.
  - intros NE. destruct (overlaps t) as [|(p, q) l] eqn:E; [congruence|]. exists p, q.
    destruct (C2 p q (or_introl eq_refl)) as (X1 & X2 & X3 & X4 & _). auto.
Qed.

(** Without overlapping nodes nothing is done. *)
Theorem C118_quiet : forall e t p, linked_below t -> blocks_fit t -> ~ overlapping t ->
  check e t p = {| o_file := None; o_log := []; o_throws := false |}.
Proof.
  intros e t p L B N. unfold check. destruct (overlaps t) as [|pq l] eqn:E; [reflexivity|].
  destruct N. apply (overlapping_cons t L B). congruence.
Qed.

Lemma report_placed e p : place_of_report (e_user e) p (report_path e p).
Proof.
  exists (match e_user e with Some u => "/"%char :: u | None => [] end), (no_slash p). split; [|split].
  - unfold report_path, dir_name. rewrite <- !app_assoc. destruct (e_user e); reflexivity.
  - destruct (e_user e); reflexivity.
  - unfold no_slash. induction p as [|a p IH]; cbn [map]; constructor; [|exact IH]. destruct (Ascii.eqb_spec a "/"); auto.
Qed.

(** With overlapping nodes, if nothing goes wrong with the file, the report is written and
    the log says where. *)
Theorem C118_file : forall e t p, linked_below t -> blocks_fit t -> overlapping t ->
  e_dir e = DirThere -> e_regular e <> None -> e_opens e = true -> e_room e = None -> e_chmod e = true ->
  exists f, check e t p = {| o_file := Some (f, lit "Overlap report for """ ++ p ++ lit """." ++ [nl] ++ lit "Written at " ++ e_time e ++ lit "." ++ [nl] ++ [nl] ++ body t);
                   o_log := [Written f]; o_throws := false |} /\ place_of_report (e_user e) p f.
Proof.
  intros e t p L B O D R OP RO CH. exists (report_path e p). split; [|apply report_placed]. apply (overlapping_cons t L B) in O. unfold check.
  destruct (overlaps t) as [|pq l]; [congruence|]. rewrite D, OP, RO, CH. destruct (e_regular e) as [old|]; [|congruence].
  rewrite andb_false_r. reflexivity.
Qed.

(** With overlapping nodes, in any surroundings: if no exception comes out there is one
    message; it says that a file was written only if that file was opened for it. *)
Theorem C118_told : forall e t p, linked_below t -> blocks_fit t -> overlapping t -> o_throws (check e t p) = false ->
  exists m, o_log (check e t p) = [m] /\
  match m with
  | Written f => e_opens e = true /\ exists c, o_file (check e t p) = Some (f, c)
  | NotCreated _ => e_opens e = false /\ o_file (check e t p) = None
  | NoDirectory _ => e_dir e <> DirThere /\ o_file (check e t p) = None
  end.
Proof.
  intros e t p L B O. apply (overlapping_cons t L B) in O. unfold check. destruct (overlaps t) as [|pq l]; [congruence|].
  destruct (e_dir e).
  2,3: cbn [o_throws o_log o_file]; intros _; eexists; split; [reflexivity|]; split; [discriminate|reflexivity].
  destruct (e_regular e) as [old|]; [|discriminate]. cbv zeta. destruct (e_opens e).
  - destruct (negb old && negb (e_chmod e)); [discriminate|]. cbn [o_throws o_log o_file]. intros _. eexists. split; [reflexivity|]. split; [reflexivity|]. eexists. reflexivity.
  - cbn [o_throws o_log o_file]. intros _. eexists. split; [reflexivity|]. split; reflexivity.
Qed.

(** A report that cannot be written keeps the table from being read: the exception of
    is_regular_file, which is outside of the try block, comes out of the builder. *)
Theorem C118_throws_refuted : forall e t p, linked_below t -> blocks_fit t -> overlapping t ->
  e_dir e = DirThere -> e_regular e = None -> o_throws (check e t p) = true /\ o_log (check e t p) = [].
Proof.
  intros e t p L B O D R. apply (overlapping_cons t L B) in O. unfold check. destruct (overlaps t) as [|pq l]; [congruence|]. rewrite D, R. auto.
Qed.

(** On a full disk the log says that the report was written although nothing was. *)
Theorem C118_full_refuted : forall e t p, linked_below t -> blocks_fit t -> overlapping t ->
  e_dir e = DirThere -> e_regular e = Some true -> e_opens e = true -> e_room e = Some 0%nat ->
  exists f, o_file (check e t p) = Some (f, []) /\ o_log (check e t p) = [Written f].
Proof.
  intros e t p L B O D R OP RO. exists (report_path e p). apply (overlapping_cons t L B) in O. unfold check.
  destruct (overlaps t) as [|pq l]; [congruence|]. rewrite D, R, OP, RO. auto.
Qed.

Lemma no_slash_alike : forall p q, no_slash p = no_slash q <-> alike_names p q.
Proof.
  assert (C : forall a b, (if Ascii.eqb a "/" then "-" else a)%char = (if Ascii.eqb b "/" then "-" else b)%char <->
    (a = b \/ (In a ["/"; "-"]%char /\ In b ["/"; "-"]%char))).
  { intros a b. destruct (Ascii.eqb_spec a "/") as [->|NA], (Ascii.eqb_spec b "/") as [->|NB]; cbn [In]; split; intros H; try tauto; try (subst; tauto).
    - destruct H as [H|(_ & [H|[H|[]]])]; congruence.
    - destruct H as [H|([H|[H|[]]] & _)]; congruence.
    - destruct H as [H|([H|[H|[]]] & [H'|[H'|[]]])]; congruence. }
  unfold no_slash, alike_names. induction p as [|a p IH]; intros [|b q]; cbn [map]; split; intros H; try discriminate; try constructor; try (inversion H; fail).
  - apply C. exact (f_equal (fun l => hd "x"%char l) H).
  - apply IH. exact (f_equal (fun l => tl l) H).
  - inversion H as [|? ? ? ? H1 H2]; subst. apply C in H1. apply IH in H2. rewrite H1, H2. reflexivity.
Qed.

(** Reports of one user share a file exactly if the paths of the tables are the same but
    for slashes and hyphens. *)
Theorem C118_name : forall e p q, report_path e p = report_path e q <-> alike_names p q.
Proof.
  intros e p q. rewrite <- no_slash_alike. unfold report_path. split; [|intros ->; reflexivity].
  intros H. do 3 apply app_inv_head in H. apply app_inv_tail in H. exact H.
Qed.

(** So the report of one table can overwrite that of another. *)
Theorem C118_name_refuted : exists p q, p <> q /\ forall e, report_path e p = report_path e q.
Proof.
  exists (lit "/a/b-c.xml"), (lit "/a-b/c.xml"). split; [vm_compute; discriminate|]. intros e. reflexivity.
Qed.

(** ** Examples *)

(** What holds of each node of a tree, by computation. *)
Fixpoint each (f : node -> bool) (t : node) : bool := match t with Node a m ch => f (Node a m ch) && forallb (each f) ch end.
Lemma each_get f : forall p t n, each f t = true -> get t p = Some n -> f n = true.
Proof.
  induction p as [|i p IH]; intros [a m ch] n E G; cbn [each] in E; apply andb_prop in E; destruct E as (E1 & E2); cbn [get n_ch] in G.
  - injection G as <-. exact E1.
  - destruct (nth_error ch i) as [c|] eqn:NT; [|discriminate]. apply nth_error_In in NT. rewrite forallb_forall in E2. exact (IH _ _ (E2 _ NT) G).
Qed.

(** A block over a register, and fields with common bits, read from a table. *)
Definition ex_table : xml :=
 (Xml [("id", "TOP")]
    [Xml [("id", "mem"); ("address", "0x100"); ("mode", "block"); ("size", "16")] [];
     Xml [("id", "reg"); ("address", "0x10f")] [];
     Xml [("id", "ctl"); ("address", "4")] [Xml [("id", "lo"); ("mask", "0x1F")] []; Xml [("id", "hi"); ("mask", "0xF0")] []]])%string.
Local Notation ex_built :=
  (get_node_tree (fun _ => []) (fun s => Some (s, [])) (fun _ _ => Some ("/t.xml"%string, ex_table)) sort_nodes (fun _ => false) 2 EmptyString "file://t.xml"%string).
Definition ex_env (regular : option bool) (room : option nat) : env :=
  {| e_user := Some (lit "me"); e_dir := DirThere; e_regular := regular; e_opens := true; e_room := room; e_chmod := true; e_time := lit "now" |}.

Definition ex_tree : node := Eval vm_compute in match ex_built with BOk t => t | _ => Node default_attrs [] [] end.

Lemma ex_built_tree : ex_built = BOk ex_tree.
Proof. vm_compute. reflexivity. Qed.

Lemma ex_tree_wf : wf ex_tree /\ linked_below ex_tree.
Proof. assert (K := ex_built_tree). apply (get_node_tree_ok _ _ _ _ _ sort_nodes_ok) in K. destruct K as (W & L & _). split; assumption. Qed.

Definition ex_good (n : node) : bool :=
  (if mode_eqb (a_mode (n_at n)) INCREMENTAL then (1 <=? a_size (n_at n)) && (a_addr (n_at n) + a_size (n_at n) <=? 2 ^ 32) else true) &&
  (a_addr (n_at n) <? 2 ^ 32) && (a_mask (n_at n) <? 2 ^ 32) && forallb (fun c => negb (Ascii.eqb c nl)) (lit (a_id (n_at n))).
Lemma ex_good_each : each ex_good ex_tree = true.
Proof. vm_compute. reflexivity. Qed.

Lemma each_good t : each ex_good t = true -> blocks_fit t /\ in_range t /\ one_line_ids t.
Proof.
  intros X. split; [|split].
  - intros p n G M. assert (Y := each_get _ _ _ _ X G). unfold ex_good in Y. rewrite M in Y. cbn [mode_eqb] in Y. repeat (apply andb_prop in Y; destruct Y as (Y & ?)). clear X. lia.
  - intros p n G. assert (Y := each_get _ _ _ _ X G). unfold ex_good in Y. repeat (apply andb_prop in Y; destruct Y as (Y & ?)). clear X. lia.
  - intros p n G. assert (Y := each_get _ _ _ _ X G). unfold ex_good in Y. apply andb_prop in Y. destruct Y as (_ & Y). apply lit_one_line. exact Y.
Qed.

Lemma ex_overlaps : overlaps ex_tree <> [].
Proof. vm_compute. discriminate. Qed.

Lemma ex_tree_ok : wf ex_tree /\ linked_below ex_tree /\ blocks_fit ex_tree /\ in_range ex_tree /\ one_line_ids ex_tree /\ overlapping ex_tree.
Proof.
  destruct ex_tree_wf as (W & L). destruct (each_good _ ex_good_each) as (B & R & O).
  do 5 (split; [assumption|]). apply (overlapping_cons ex_tree L B). exact ex_overlaps.
Qed.

Example C118_case : let t := ex_tree in ex_built = BOk t /\ wf t /\ linked_below t /\ blocks_fit t /\ in_range t /\ one_line_ids t /\ overlapping t /\
  string_of_list_ascii (body t) =
  ("Node 'TOP.ctl.lo' [address 0x00000004, mask 0x0000001f] overlaps with 'TOP.ctl.hi' [address 0x00000004, mask 0x000000f0]." ++
   String nl "Node 'TOP.mem' [addresses 0x00000100 - 0x0000010f] overlaps with 'TOP.reg' [address 0x0000010f]." ++ String nl "")%string /\
  (match o_log (check (ex_env (Some false) None) t (lit "/etc/t.xml")) with [Written f] => string_of_list_ascii f | _ => "" end =
   "/tmp/me/uhal/OverlapReport-etc-t.xml.txt")%string /\
  o_throws (check (ex_env None None) t (lit "/etc/t.xml")) = true /\
  o_file (check (ex_env (Some true) (Some 0%nat)) t (lit "/etc/t.xml")) = Some (lit "/tmp/me/uhal/OverlapReport-etc-t.xml.txt", []).
Proof.
  cbv zeta. split; [exact ex_built_tree|]. destruct ex_tree_ok as (A1 & A2 & A3 & A4 & A5 & A6).
  do 6 (split; [assumption|]). clear. repeat split; vm_compute; reflexivity.
Qed.

(** A tree without overlaps, for C118_quiet. *)
Example C118_quiet_case : let t := Node default_attrs [] [] in linked_below t /\ blocks_fit t /\ ~ overlapping t.
Proof.
  cbv zeta. assert (L : linked_below (Node default_attrs [] [])) by (constructor; constructor).
  assert (B : blocks_fit (Node default_attrs [] [])).
  { intros [|i p] n G M; cbn [get n_ch] in G; [injection G as <-; discriminate|destruct i; discriminate]. }
  split; [exact L|]. split; [exact B|]. rewrite (overlapping_cons _ L B). vm_compute. congruence.
Qed.

Example C118_name_case : ~ alike_names (lit "/a/b.xml") (lit "/a/c.xml") /\ alike_names (lit "/a/b.xml") (lit "/a-b.xml").
Proof. split; [rewrite <- no_slash_alike; vm_compute; discriminate|rewrite <- no_slash_alike; reflexivity]. Qed.

Print Assumptions C118_body.
Print Assumptions C118_stream.
Print Assumptions C118_quiet.
Print Assumptions C118_file.
Print Assumptions C118_told.
Print Assumptions C118_throws_refuted.
Print Assumptions C118_full_refuted.
Print Assumptions C118_name.
Print Assumptions C118_name_refuted.
