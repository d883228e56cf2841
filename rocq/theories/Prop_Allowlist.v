(** C98: the text of the allowlist file. *)

From Coq Require Import List NArith ZArith Ascii String Bool Lia Arith.
From Coq Require Import ZifyBool ZifyNat ZifyN.
Import ListNotations.
From Verif Require Manager Prop_Manager.
From Verif Require Import Allowlist AllowlistSpec.
Open Scope N_scope.
Open Scope list_scope.

(** ** Characters *)

Lemma digit_is c v : digit c v -> is_digit c = true /\ N_of_ascii c - 48 = v.
Proof.
  intros [L ->]. unfold chr, is_digit. rewrite N_ascii_embedding by lia. split; [|lia].
  apply andb_true_iff. split; apply N.leb_le; lia.
Qed.
Lemma is_digit_iff c : is_digit c = true -> digit c (N_of_ascii c - 48).
Proof.
  unfold is_digit, digit, chr. intros H. apply andb_true_iff in H. destruct H as [A B].
  apply N.leb_le in A, B. split; [lia|]. replace (48 + (N_of_ascii c - 48)) with (N_of_ascii c) by lia.
  now rewrite ascii_N_embedding.
Qed.
Lemma is_digit_not c x : is_digit c = true -> is_digit x = false -> Ascii.eqb c x = false.
Proof. intros A B. destruct (Ascii.eqb_spec c x) as [->|]; congruence. Qed.
Lemma eqb_neq a b : a <> b -> Ascii.eqb a b = false.
Proof. intros. destruct (Ascii.eqb_spec a b); congruence. Qed.

Lemma numeral_digits t n : numeral t n -> Forall (fun c => is_digit c = true) t /\ t <> [].
Proof.
  induction 1 as [c v D|t n c v H [IF NE] D].
  - split; [constructor; [apply (digit_is _ _ D)|constructor]|discriminate].
  - split; [apply Forall_app; split; [exact IF|constructor; [apply (digit_is _ _ D)|constructor]]|].
    intros E. destruct t; discriminate E.
Qed.

Lemma digits_app t r : forall acc, Forall (fun c => is_digit c = true) t -> digits acc (t ++ r) = digits (digits acc t) r.
Proof.
  induction t as [|c t IH]; intros acc F; [reflexivity|]. inversion F; subst. cbn [app digits].
  rewrite H1. apply IH, H2.
Qed.
Lemma numeral_value t n : numeral t n -> digits 0 t = Z.of_N n.
Proof.
  induction 1 as [c v D|t n c v H IH D].
  - destruct (digit_is _ _ D) as [A B]. cbn [digits]. rewrite A, B. lia.
  - rewrite digits_app by apply (numeral_digits _ _ H). rewrite IH. destruct (digit_is _ _ D) as [A B].
    cbn [digits]. rewrite A, B. lia.
Qed.
Lemma digits_stop acc r : match r with c :: _ => is_digit c = false | [] => True end -> digits acc r = acc.
Proof. destruct r; [reflexivity|]. intros H. cbn. now rewrite H. Qed.

Lemma numeral_of t : Forall (fun c => is_digit c = true) t -> t <> [] -> numeral t (Z.to_N (digits 0 t)) /\ (0 <= digits 0 t)%Z.
Proof.
  induction t as [|c t IH] using rev_ind; intros F NE; [congruence|].
  apply Forall_app in F. destruct F as [Ft Fc]. inversion Fc as [|? ? Dc _ ]; subst.
  rewrite digits_app by exact Ft. cbn [digits]. rewrite Dc.
  destruct t as [|x t'].
  - cbn [digits app]. pose proof (is_digit_iff _ Dc) as D. split; [|lia].
    replace (Z.to_N _) with (N_of_ascii c - 48) by lia. now constructor.
  - destruct (IH Ft ltac:(discriminate)) as [HN HP]. set (z := digits 0 (x :: t')) in *. split; [|lia].
    replace (Z.to_N _) with (10 * Z.to_N z + (N_of_ascii c - 48)) by lia.
    constructor; [exact HN|now apply is_digit_iff].
Qed.

Lemma span_digits t : exists m r, t = m ++ r /\ Forall (fun c => is_digit c = true) m /\
  match r with c :: _ => is_digit c = false | [] => True end.
Proof.
  induction t as [|c t (m & r & -> & F & R)]; [exists [], []; repeat split; constructor|].
  destruct (is_digit c) eqn:D.
  - exists (c :: m), r. repeat split; [constructor; assumption|exact R].
  - exists [], (c :: m ++ r). repeat split; [constructor|exact D].
Qed.

(** ** Numbers as the code reads them *)

Lemma to_integer_numeral t n r : numeral t n -> match r with c :: _ => is_digit c = false | [] => True end -> to_integer (t ++ r) = Int (Z.of_N n).
Proof.
  intros H R. destruct (numeral_digits _ _ H) as [F NE]. pose proof (numeral_value _ _ H) as V.
  destruct t as [|c t]; [congruence|]. inversion F as [|? ? Dc Ft]; subst.
  unfold to_integer. cbn [app]. rewrite (is_digit_not c MINUS Dc eq_refl), (is_digit_not c PLUS Dc eq_refl).
  cbn [unsigned]. rewrite Dc. change (c :: t ++ r) with ((c :: t) ++ r).
  rewrite digits_app by exact F. rewrite V, digits_stop by exact R. reflexivity.
Qed.

Lemma unsigned_begins t z : unsigned t = Some z -> exists m r, t = m ++ r /\ numeral m (Z.to_N z) /\ (0 <= z)%Z.
Proof.
  intros U. destruct (span_digits t) as (m & r & E & F & R). exists m, r. split; [exact E|].
  destruct m as [|c m].
  - cbn in E. subst t. destruct r as [|c r]; [discriminate U|]. cbn in U, R. rewrite R in U. discriminate U.
  - subst t. cbn [app unsigned] in U. inversion F as [|? ? Dc Fm]; subst. rewrite Dc in U.
    assert (Z : z = digits 0 ((c :: m) ++ r)) by (change ((c :: m) ++ r) with (c :: m ++ r); congruence). rewrite digits_app in Z by exact F. rewrite Z. rewrite digits_stop by exact R.
    apply numeral_of; [exact F|discriminate].
Qed.

Definition plain (t : list ascii) := ~ In dot t /\ ~ In colon t.

Lemma to_integer_begins t n : plain t -> to_integer t = Int (Z.of_N n) -> begins t n.
Proof.
  intros [P1 P2] H. unfold to_integer in H. destruct t as [|c r]; [discriminate H|].
  destruct (Ascii.eqb_spec c MINUS) as [->|NM].
  - destruct (unsigned r) as [z|] eqn:U; [|discriminate H]. injection H as E.
    destruct (unsigned_begins _ _ U) as (m & k & -> & M & P).
    assert (z = 0%Z) by lia. assert (n = 0) by lia. subst z n.
    exists [chr 45], m, k. repeat split; trivial; [right; right; split; reflexivity].
  - destruct (Ascii.eqb_spec c PLUS) as [->|NP].
    + destruct (unsigned r) as [z|] eqn:U; [|discriminate H]. injection H as E.
      destruct (unsigned_begins _ _ U) as (m & k & -> & M & P).
      replace (Z.to_N z) with n in M by lia.
      exists [chr 43], m, k. repeat split; trivial; [right; left; reflexivity].
    + destruct (unsigned (c :: r)) as [z|] eqn:U; [|discriminate H]. injection H as E.
      destruct (unsigned_begins _ _ U) as (m & k & Q & M & P).
      replace (Z.to_N z) with n in M by lia. rewrite Q in *.
      exists [], m, k. repeat split; trivial; [left; reflexivity].
Qed.

(** ** Splitting *)

Lemma sep_iff c : is_sep c = true <-> c = dot \/ c = colon.
Proof.
  unfold is_sep. rewrite orb_true_iff, !Ascii.eqb_eq. reflexivity.
Qed.
Lemma sep_not c : c <> dot -> c <> colon -> is_sep c = false.
Proof. intros A B. destruct (is_sep c) eqn:E; [|reflexivity]. apply sep_iff in E. destruct E; contradiction. Qed.

Lemma pieces_last t : plain t -> pieces t = [t].
Proof.
  induction t as [|c t IH]; intros [A B]; [reflexivity|]. cbn [pieces].
  rewrite sep_not; [|intros ->; apply A; now left|intros ->; apply B; now left].
  rewrite IH; [reflexivity|]. split; intros I; [apply A|apply B]; now right.
Qed.
Lemma pieces_sep t s r : plain t -> separator s -> pieces (t ++ s :: r) = t :: pieces r.
Proof.
  intros P S. induction t as [|c t IH]; cbn [app pieces].
  - destruct (sep_iff s) as [_ Q]. rewrite (Q S). reflexivity.
  - destruct P as [A B]. rewrite sep_not; [|intros ->; apply A; now left|intros ->; apply B; now left].
    rewrite IH; [reflexivity|]. split; intros I; [apply A|apply B]; now right.
Qed.
(** What the pieces are, for any text. *)
Lemma pieces_head t : exists p ps, pieces t = p :: ps /\ plain p /\
  ((ps = [] /\ t = p) \/ exists s r, separator s /\ t = p ++ s :: r /\ pieces r = ps).
Proof.
  induction t as [|c t (p & ps & E & P & Q)].
  - exists [], []. split; [reflexivity|]. split; [split; intros []|]. left. split; reflexivity.
  - cbn [pieces]. destruct (is_sep c) eqn:S.
    + exists [], (pieces t). split; [reflexivity|]. split; [split; intros []|]. right. exists c, t.
      split; [now apply sep_iff|]. split; reflexivity.
    + rewrite E. exists (c :: p), ps. split; [reflexivity|]. split.
      * assert (c <> dot /\ c <> colon) as [N1 N2].
        { split; intros ->; vm_compute in S; discriminate S. }
        destruct P as [P1 P2]. split; intros [H|H]; auto.
      * destruct Q as [[-> ->]|(s & r & S' & -> & R)]; [left; split; reflexivity|].
        right. exists s, r. repeat split; trivial.
Qed.

Lemma numeral_plain t n : numeral t n -> plain t.
Proof.
  intros H. destruct (numeral_digits _ _ H) as [F _]. rewrite Forall_forall in F.
  split; intros I; specialize (F _ I); discriminate F.
Qed.

(** ** The regular expression *)

Lemma after_digits_in t n r : octet t n -> In r (after_digits (t ++ r)).
Proof.
  intros [H L]. destruct (numeral_digits _ _ H) as [F NE].
  destruct t as [|a [|b [|c [|]]]]; cbn in L; try lia; try congruence;
    repeat match goal with X : Forall _ (_ :: _) |- _ => inversion X; clear X; subst end; cbn [app after_digits];
    repeat match goal with X : is_digit _ = true |- _ => rewrite X; clear X end; cbn; tauto.
Qed.
Lemma after_digits_inv t r : In r (after_digits t) -> exists m n, t = m ++ r /\ octet m n.
Proof.
  assert (O : forall m, Forall (fun c => is_digit c = true) m -> m <> [] -> (List.length m <= 3)%nat -> exists n, octet m n).
  { intros m F NE L. exists (Z.to_N (digits 0 m)). split; [apply numeral_of; assumption|exact L]. }
  destruct t as [|a t]; [intros []|]. cbn [after_digits]. destruct (is_digit a) eqn:A; [|intros []].
  intros [<-|I].
  - destruct (O [a]) as [n H]; [repeat constructor; assumption|discriminate|cbn; lia|]. exists [a], n. split; [reflexivity|exact H].
  - destruct t as [|b t]; [destruct I|]. destruct (is_digit b) eqn:B; [|destruct I]. destruct I as [<-|I].
    + destruct (O [a; b]) as [n H]; [repeat constructor; assumption|discriminate|cbn; lia|]. exists [a; b], n. split; [reflexivity|exact H].
    + destruct t as [|c t]; [destruct I|]. destruct (is_digit c) eqn:C; [|destruct I]. destruct I as [<-|[]].
      destruct (O [a; b; c]) as [n H]; [repeat constructor; assumption|discriminate|cbn; lia|]. exists [a; b; c], n. split; [reflexivity|exact H].
Qed.
Lemma after_any_in c r : c <> LF -> In r (after_any (c :: r)).
Proof. intros H. cbn. rewrite eqb_neq by exact H. now left. Qed.

Lemma four_in ta tb tc td a b c d x y z post : octet ta a -> octet tb b -> octet tc c -> octet td d -> x <> LF -> y <> LF -> z <> LF ->
  In post (four (ta ++ x :: tb ++ y :: tc ++ z :: td ++ post)).
Proof.
  intros A B C D X Y Z. unfold four. cbv zeta.
  apply in_flat_map. exists (td ++ post). split; [|now apply after_digits_in with d].
  apply in_flat_map. exists (z :: td ++ post). split; [|now apply after_any_in].
  apply in_flat_map. exists (tc ++ z :: td ++ post). split; [|now apply after_digits_in with c].
  apply in_flat_map. exists (y :: tc ++ z :: td ++ post). split; [|now apply after_any_in].
  apply in_flat_map. exists (tb ++ y :: tc ++ z :: td ++ post). split; [|now apply after_digits_in with b].
  apply in_flat_map. exists (x :: tb ++ y :: tc ++ z :: td ++ post). split; [|now apply after_any_in].
  now apply after_digits_in with a.
Qed.
Lemma next_inv l r : In r (flat_map after_digits (flat_map after_any l)) -> exists x m n, In (x :: m ++ r) l /\ octet m n.
Proof.
  intros H. apply in_flat_map in H. destruct H as (u & H & R). apply in_flat_map in H. destruct H as (w & W & U).
  destruct w as [|x w]; [destruct U|]. cbn [after_any] in U. destruct (Ascii.eqb x LF); [destruct U|]. destruct U as [<-|[]].
  apply after_digits_inv in R. destruct R as (m & n & -> & O). exists x, m, n. split; [exact W|exact O].
Qed.
Lemma found_inv t : found t = true -> has_address t.
Proof.
  induction t as [|c t IH].
  - intros H. discriminate H.
  - cbn [found]. destruct (four (c :: t)) as [|post l] eqn:E.
    + intros H. destruct (IH H) as (pre & ta & x & tb & y & tc & z & td & post & na & nb & nc & nd & -> & O).
      exists (c :: pre), ta, x, tb, y, tc, z, td, post, na, nb, nc, nd. split; [reflexivity|exact O].
    + intros _. assert (I : In post (four (c :: t))) by (rewrite E; now left). clear E. unfold four in I. cbv zeta in I.
      apply next_inv in I. destruct I as (z & td & nd & I & OD).
      apply next_inv in I. destruct I as (y & tc & nc & I & OC).
      apply next_inv in I. destruct I as (x & tb & nb & I & OB).
      apply after_digits_inv in I. destruct I as (ta & na & E & OA).
      exists [], ta, x, tb, y, tc, z, td, post, na, nb, nc, nd. repeat split; trivial; apply OA || apply OB || apply OC || apply OD.
Qed.
Lemma found_four t p l : four t = p :: l -> found t = true.
Proof. intros E. destruct t; cbn [found]; rewrite E; reflexivity. Qed.

(** ** Stripping *)

Lemma strip_left_repeat c n t : strip_left c (repeat c n ++ t) = strip_left c t.
Proof. induction n as [|n IH]; [reflexivity|]. cbn [repeat app strip_left]. now rewrite Ascii.eqb_refl. Qed.
Lemma rev_repeat (c : ascii) n : rev (repeat c n) = repeat c n.
Proof.
  induction n as [|n IH]; [reflexivity|]. cbn [repeat rev]. rewrite IH.
  clear. induction n as [|n IH]; [reflexivity|]. cbn. now rewrite IH.
Qed.
Definition starts_not (c : ascii) (t : text) := match t with d :: _ => d <> c | [] => True end.
Lemma strip_left_not c t : starts_not c t -> strip_left c t = t.
Proof. destruct t as [|d t]; [reflexivity|]. cbn. intros H. now rewrite eqb_neq. Qed.
(** Stripping what stands between runs of the character. *)
Lemma strip_around c i j t : starts_not c t -> starts_not c (rev t) -> strip c (repeat c i ++ t ++ repeat c j) = t.
Proof.
  intros A B. unfold strip. rewrite strip_left_repeat.
  destruct t as [|d t].
  - cbn [app]. rewrite <- (app_nil_r (repeat c j)), strip_left_repeat. reflexivity.
  - cbn [app]. rewrite (strip_left_not c (d :: t ++ repeat c j)) by exact A. change (d :: t ++ repeat c j) with ((d :: t) ++ repeat c j).
    rewrite rev_app_distr, rev_repeat, strip_left_repeat, strip_left_not by exact B. apply rev_involutive.
Qed.
Lemma strip_left_keep c x t r : x <> c -> exists r', rev (strip_left c (rev (t ++ x :: r))) = t ++ x :: r' /\ (exists j, r = r' ++ repeat c j).
Proof.
  intros NE. assert (G : forall u v, exists u', strip_left c (u ++ x :: v) = u' ++ x :: v /\ exists j, u = repeat c j ++ u').
  { intros u v. induction u as [|d u (u' & E & j & J)].
    - exists []. cbn. rewrite eqb_neq by exact NE. split; [reflexivity|]. now exists 0%nat.
    - cbn [app strip_left]. destruct (Ascii.eqb_spec d c) as [->|ND].
      + exists u'. split; [exact E|]. exists (S j). cbn. now rewrite J.
      + exists (d :: u). split; [reflexivity|]. now exists 0%nat. }
  rewrite rev_app_distr. cbn [rev]. rewrite <- app_assoc. cbn [app].
  destruct (G (rev r) (rev t)) as (u & -> & j & J). exists (rev u). split.
  - rewrite rev_app_distr. cbn [rev]. rewrite rev_involutive, <- app_assoc. reflexivity.
  - exists j. apply (f_equal (@rev ascii)) in J. rewrite rev_involutive, rev_app_distr, rev_repeat in J. exact J.
Qed.

Lemma no_start c t : ~ In c t -> starts_not c t.
Proof. destruct t as [|d t]; [intros _; exact I|]. intros H E. apply H. now left. Qed.
Lemma strip_none c t : ~ In c t -> strip c t = t.
Proof.
  intros H. pose proof (strip_around c 0 0 t) as S. cbn [repeat app] in S. rewrite app_nil_r in S. apply S; [now apply no_start|].
  apply no_start. rewrite <- in_rev. exact H.
Qed.
Lemma strip_end c t : ~ In c t -> strip c (t ++ [c]) = t.
Proof. intros H. apply (strip_around c 0 1 t); [now apply no_start|]. apply no_start. now rewrite <- in_rev. Qed.

(** ** Lines *)

Definition verdict_of (o : option (quad * option N)) : verdict :=
  match o with
  | None => Skip
  | Some ((a, b, c, d), p) =>
      Store (Int (Z.of_N a), Int (Z.of_N b), Int (Z.of_N c), Int (Z.of_N d))
        (match p with None => Any | Some p => Port (Int (Z.of_N p)) end)
  end.

Definition trim2 (t : text) : text := strip SPACE (strip TAB t).

Lemma trim2_core i j t k l : starts_not TAB t -> starts_not SPACE t -> starts_not TAB (rev t) -> starts_not SPACE (rev t) -> t <> [] ->
  trim2 (tabs i ++ spaces j ++ t ++ spaces k ++ tabs l) = t.
Proof.
  intros A B A' B' NE. unfold trim2.
  replace (tabs i ++ spaces j ++ t ++ spaces k ++ tabs l) with (repeat TAB i ++ (spaces j ++ t ++ spaces k) ++ repeat TAB l)
    by (unfold tabs; now rewrite <- !app_assoc).
  rewrite strip_around.
  - apply strip_around; assumption.
  - destruct j; [destruct t; [congruence|exact A]|]. cbn. discriminate.
  - rewrite !rev_app_distr. unfold spaces. rewrite rev_repeat. destruct k; [|cbn; discriminate].
    cbn [repeat app]. destruct (rev t) eqn:E; [|exact A']. apply (f_equal (@rev ascii)) in E. rewrite rev_involutive in E. contradiction.
Qed.

Lemma entry_shape t q p : entry t q p -> exists x r y r', t = x :: r /\ is_digit x = true /\ rev t = y :: r' /\ is_digit y = true /\
  (forall c, In c t -> is_digit c = true \/ c = dot \/ c = colon).
Proof.
  assert (E : forall t n, numeral t n -> exists x r y r', t = x :: r /\ is_digit x = true /\ rev t = y :: r' /\ is_digit y = true /\
    forall c, In c t -> is_digit c = true).
  { clear. intros t n H. destruct (numeral_digits _ _ H) as [F NE]. rewrite Forall_forall in F.
    destruct t as [|x r]; [congruence|]. destruct (rev (x :: r)) as [|y r'] eqn:R.
    - apply (f_equal (@List.length ascii)) in R. rewrite rev_length in R. discriminate R.
    - exists x, r, y, r'. repeat split; [apply F; now left|apply F; apply in_rev; rewrite R; now left|exact F]. }
  intros [ta tb tc td a b c d [A _] [B _] [C _] [D _]|ta tb tc td tp a b c d p' [A _] [B _] [C _] [D _] P];
    pose proof (E _ _ A) as (x & r & _ & _ & -> & X & _ & _ & FA); pose proof (E _ _ B) as (_ & _ & _ & _ & _ & _ & _ & _ & FB);
    pose proof (E _ _ C) as (_ & _ & _ & _ & _ & _ & _ & _ & FC); pose proof (E _ _ D) as (_ & _ & y & r' & _ & _ & RD & Y & FD).
  - exists x, (r ++ dot :: tb ++ dot :: tc ++ dot :: td), y, (r' ++ dot :: rev tc ++ dot :: rev tb ++ dot :: rev (x :: r)).
    split; [reflexivity|]. split; [exact X|]. split.
    + rewrite !rev_app_distr. cbn [rev]. rewrite !rev_app_distr. cbn [rev]. rewrite !rev_app_distr. cbn [rev].
      rewrite RD. rewrite <- !app_assoc. reflexivity.
    + split; [exact Y|]. intros k I. repeat (rewrite ?in_app_iff in I; cbn [In] in I).
      assert (In k (x :: r) \/ k = dot \/ In k tb \/ In k tc \/ In k td) as K.
      { cbn in *. intuition. }
      intuition.
  - pose proof (E _ _ P) as (_ & _ & w & s & _ & _ & RP & W & FP).
    exists x, (r ++ dot :: tb ++ dot :: tc ++ dot :: td ++ colon :: tp), w, (s ++ colon :: rev td ++ dot :: rev tc ++ dot :: rev tb ++ dot :: rev (x :: r)).
    split; [reflexivity|]. split; [exact X|]. split.
    + rewrite !rev_app_distr. cbn [rev]. rewrite !rev_app_distr. cbn [rev]. rewrite !rev_app_distr. cbn [rev]. rewrite !rev_app_distr. cbn [rev].
      rewrite RP. rewrite <- !app_assoc. reflexivity.
    + split; [exact W|]. intros k I. repeat (rewrite ?in_app_iff in I; cbn [In] in I).
      assert (In k (x :: r) \/ k = dot \/ k = colon \/ In k tb \/ In k tc \/ In k td \/ In k tp) as K.
      { cbn in *. intuition. }
      intuition.
Qed.

Lemma read_core t q p : entry t q p -> found t = true /\
  match pieces t with
  | [a; b; c; d] => Store (to_integer a, to_integer b, to_integer c, to_integer d) Any
  | [a; b; c; d; e] => Store (to_integer a, to_integer b, to_integer c, to_integer d) (Port (to_integer e))
  | _ => NoClause
  end = verdict_of (Some (q, p)).
Proof.
  assert (SD : separator dot) by now left. assert (SC : separator colon) by now right.
  assert (ND : dot <> LF) by discriminate.
  assert (TI : forall t n, numeral t n -> to_integer t = Int (Z.of_N n)).
  { intros u n H. rewrite <- (app_nil_r u). now apply to_integer_numeral. }
  intros [ta tb tc td a b c d A B C D|ta tb tc td tp a b c d p' A B C D P].
  - split.
    + pose proof (four_in _ _ _ _ _ _ _ _ dot dot dot [] A B C D ND ND ND) as I. rewrite app_nil_r in I.
      destruct (four _) eqn:E; [destruct I|]. exact (found_four _ _ _ E).
    + rewrite !pieces_sep by (trivial; eapply numeral_plain; first [apply A|apply B|apply C|apply D]).
      rewrite pieces_last by (eapply numeral_plain; apply D).
      rewrite (TI ta a), (TI tb b), (TI tc c), (TI td d) by first [apply A|apply B|apply C|apply D]. reflexivity.
  - split.
    + pose proof (four_in _ _ _ _ _ _ _ _ dot dot dot (colon :: tp) A B C D ND ND ND) as I.
      destruct (four _) eqn:E; [destruct I|]. exact (found_four _ _ _ E).
    + rewrite !pieces_sep by (trivial; eapply numeral_plain; first [apply A|apply B|apply C|apply D]).
      rewrite pieces_last by (eapply numeral_plain; apply P).
      rewrite (TI ta a), (TI tb b), (TI tc c), (TI td d), (TI tp p') by first [apply A|apply B|apply C|apply D|apply P]. reflexivity.
Qed.

Definition of_trimmed (t : text) : verdict :=
  match t with
  | [] => Skip
  | c :: _ =>
      if Ascii.eqb c HASH then Skip
      else if found t then
        match pieces t with
        | [a; b; c; d] => Store (to_integer a, to_integer b, to_integer c, to_integer d) Any
        | [a; b; c; d; e] => Store (to_integer a, to_integer b, to_integer c, to_integer d) (Port (to_integer e))
        | _ => NoClause
        end
      else Refuse
  end.
Lemma read_line_trimmed l : read_line l = of_trimmed (trimmed l).
Proof. reflexivity. Qed.

Lemma says_core t o : says t o -> of_trimmed (trim2 t) = verdict_of o.
Proof.
  intros [i j k|i j rest NR|i j u q p k l E].
  - replace (trim2 (tabs i ++ spaces j ++ tabs k)) with (@nil ascii); [reflexivity|]. unfold trim2.
    destruct j as [|j].
    + cbn [spaces repeat app]. unfold tabs. rewrite <- repeat_app, <- (app_nil_r (repeat _ _)), <- (app_nil_l (repeat _ _ ++ [])).
      change (strip TAB ([] ++ repeat (chr 9) (i + k) ++ [])) with (strip TAB (repeat TAB (i + k) ++ [] ++ repeat TAB 0)).
      rewrite strip_around by exact I. reflexivity.
    + change (tabs i) with (repeat TAB i). change (tabs k) with (repeat TAB k).
      rewrite (strip_around TAB i k (spaces (S j))); [|cbn; discriminate|unfold spaces; rewrite rev_repeat; cbn; discriminate].
      rewrite <- (app_nil_r (spaces (S j))). change (spaces (S j) ++ []) with (repeat SPACE (S j) ++ [] ++ repeat SPACE 0).
      now rewrite strip_around.
  - assert (H : exists r, trim2 (tabs i ++ spaces j ++ chr 35 :: rest) = chr 35 :: r).
    { unfold trim2. unfold strip at 2. unfold tabs. change (repeat (chr 9) i) with (repeat TAB i). rewrite strip_left_repeat.
      rewrite (strip_left_not TAB (spaces j ++ chr 35 :: rest)) by (destruct j; cbn; discriminate).
      destruct (strip_left_keep TAB (chr 35) (spaces j) rest) as (r1 & -> & _); [discriminate|].
      unfold strip. unfold spaces. change (repeat (chr 32) j) with (repeat SPACE j). rewrite strip_left_repeat.
      rewrite (strip_left_not SPACE (chr 35 :: r1)) by (cbn; discriminate).
      destruct (strip_left_keep SPACE (chr 35) [] r1) as (r2 & E2 & _); [discriminate|]. cbn [app] in E2. rewrite E2.
      now exists r2. }
    destruct H as [r ->]. reflexivity.
  - destruct (entry_shape _ _ _ E) as (x & r & y & r' & T & X & R & Y & _).
    rewrite trim2_core.
    + destruct (read_core _ _ _ E) as [F P]. rewrite T in *. cbn [of_trimmed].
      rewrite (is_digit_not x HASH X eq_refl), F. exact P.
    + rewrite T. cbn. intros ->. discriminate X.
    + rewrite T. cbn. intros ->. discriminate X.
    + rewrite R. cbn. intros ->. discriminate Y.
    + rewrite R. cbn. intros ->. discriminate Y.
    + rewrite T. discriminate.
Qed.

Lemma in_repeat (c x : ascii) n : In x (repeat c n) -> x = c.
Proof. apply repeat_spec. Qed.

Lemma says_no_lf t o : says t o -> ~ In LF t.
Proof.
  intros [i j k|i j rest NR|i j u q p k l E] I; unfold tabs, spaces in I; repeat (rewrite ?in_app_iff in I; cbn [In] in I);
    repeat match goal with H : _ \/ _ |- _ => destruct H as [H|H] end;
    try (apply in_repeat in I; discriminate I); try discriminate I; try contradiction.
  destruct (entry_shape _ _ _ E) as (_ & _ & _ & _ & _ & _ & _ & _ & F). destruct (F _ I) as [D|[D|D]]; discriminate D.
Qed.
Lemma says_cr t o : says (t ++ [CR]) o -> says t o.
Proof.
  intros H. inversion H as [i j k E|i j rest NR E|i j u q p k l EN E].
  - exfalso. assert (I : In CR (tabs i ++ spaces j ++ tabs k)) by (rewrite E; apply in_elt).
    unfold tabs, spaces in I. rewrite !in_app_iff in I. destruct I as [I|[I|I]]; apply in_repeat in I; discriminate I.
  - destruct rest as [|x rest] using rev_ind.
    + exfalso. rewrite app_assoc in E. apply app_inj_tail in E. destruct E as [_ E]. discriminate E.
    + clear IHrest. assert (E' : (tabs i ++ spaces j ++ chr 35 :: rest) ++ [x] = t ++ [CR]) by (rewrite <- E, <- !app_assoc; reflexivity).
      apply app_inj_tail in E'. destruct E' as [<- _]. constructor.
      intros I. apply NR. rewrite in_app_iff. now left.
  - exfalso. assert (I : In CR (tabs i ++ spaces j ++ u ++ spaces k ++ tabs l)) by (rewrite E; apply in_elt).
    unfold tabs, spaces in I. rewrite !in_app_iff in I. destruct I as [I|[I|[I|[I|I]]]]; try (apply in_repeat in I; discriminate I).
    destruct (entry_shape _ _ _ EN) as (_ & _ & _ & _ & _ & _ & _ & _ & F). destruct (F _ I) as [D|[D|D]]; discriminate D.
Qed.

Lemma says_read t o : says t o -> read_line t = verdict_of o /\ read_line (t ++ [LF]) = verdict_of o.
Proof.
  intros H. pose proof (says_no_lf _ _ H) as NL. pose proof (says_core _ _ H) as C.
  rewrite !read_line_trimmed. unfold trimmed. rewrite (strip_none LF t), (strip_end LF t) by exact NL. split; exact C.
Qed.

(** ** Files *)

Lemma lines_scan l : forall cur r, ~ In LF l -> lines cur (l ++ r) = lines (rev l ++ cur) r.
Proof.
  induction l as [|c l IH]; intros cur r H; [reflexivity|]. cbn [app lines].
  rewrite eqb_neq by (intros ->; apply H; now left). rewrite IH by (intros I; apply H; now right).
  cbn [rev]. now rewrite <- app_assoc.
Qed.
Lemma lines_line l o e f : says l o -> line_end e -> exists l', lines [] (l ++ e ++ f) = (l' ++ [LF]) :: lines [] f /\ says l' o.
Proof.
  intros H E. pose proof (says_no_lf _ _ H) as NL. rewrite lines_scan by exact NL. rewrite app_nil_r.
  destruct E as [->| ->]; cbn [app lines].
  - change (Ascii.eqb (chr 10) LF) with true. cbv iota.
    destruct (rev l) as [|d k] eqn:R.
    + exists []. split; [reflexivity|]. apply (f_equal (@rev ascii)) in R. rewrite rev_involutive in R. now rewrite R in H.
    + apply (f_equal (@rev ascii)) in R. rewrite rev_involutive in R. cbn [rev] in R.
      destruct (Ascii.eqb_spec d CR) as [->|_].
      * exists (rev k). split; [reflexivity|]. rewrite R in H. now apply says_cr.
      * exists l. split; [|exact H]. cbn [rev]. now rewrite R.
  - change (Ascii.eqb (chr 13) LF) with false. cbv iota. change (Ascii.eqb (chr 10) LF) with true.
    change (Ascii.eqb (chr 13) CR) with true. cbv iota. exists l. rewrite rev_involutive. split; [reflexivity|exact H].
Qed.

Definition key_of (q : quad) : key := match q with (a, b, c, d) => (Int (Z.of_N a), Int (Z.of_N b), Int (Z.of_N c), Int (Z.of_N d)) end.
Lemma same_key_of q r : same_key (key_of q) (key_of r) = true <-> q = r.
Proof.
  destruct q as [[[a b] c] d], r as [[[a' b'] c'] d']. cbn. rewrite !andb_true_iff, !Z.eqb_eq. split.
  - intros (((A & B) & C) & D). apply N2Z.inj in A, B, C, D. now subst.
  - intros E. injection E as <- <- <- <-. repeat split.
Qed.
Lemma tuple_number q : bytes4 q -> tuple (number q) = key_of q.
Proof.
  destruct q as [[[a b] c] d]. cbn [bytes4 number key_of]. intros (A & B & C & D). unfold tuple.
  change (2 ^ 24) with 16777216. change (2 ^ 16) with 65536. change (2 ^ 8) with 256.
  assert (E1 : (a * 16777216 + b * 65536 + c * 256 + d) / 16777216 = a).
  { symmetry. apply (N.div_unique _ _ _ (b * 65536 + c * 256 + d)); lia. }
  assert (E2 : (a * 16777216 + b * 65536 + c * 256 + d) / 65536 = a * 256 + b).
  { symmetry. apply (N.div_unique _ _ _ (c * 256 + d)); lia. }
  assert (E3 : (a * 16777216 + b * 65536 + c * 256 + d) / 256 = a * 65536 + b * 256 + c).
  { symmetry. apply (N.div_unique _ _ _ d); lia. }
  rewrite E1, E2, E3.
  assert (M2 : (a * 256 + b) mod 256 = b) by (symmetry; apply (N.mod_unique _ _ a); lia).
  assert (M3 : (a * 65536 + b * 256 + c) mod 256 = c) by (symmetry; apply (N.mod_unique _ _ (a * 256 + b)); lia).
  assert (M4 : (a * 16777216 + b * 65536 + c * 256 + d) mod 256 = d) by (symmetry; apply (N.mod_unique _ _ (a * 65536 + b * 256 + c)); lia).
  now rewrite M2, M3, M4.
Qed.

Definition port_of (p : option N) : port := match p with None => Any | Some p => Port (Int (Z.of_N p)) end.
Fixpoint stored (es : list (quad * option N)) (d : dict) : dict :=
  match es with
  | [] => d
  | (q, p) :: r => stored r (fun x => if same_key x (key_of q) then Some (port_of p) else d x)
  end.

Lemma parse_file f os : file_says f os -> forall d, parse (lines [] f) d = Ok (stored (entries os) d).
Proof.
  induction 1 as [|t o S NE|t o e f os S E F IH]; intros d.
  - reflexivity.
  - pose proof (says_no_lf _ _ S) as NL. rewrite <- (app_nil_r t), lines_scan by exact NL. rewrite app_nil_r.
    cbn [lines]. destruct (rev t) as [|x k] eqn:R.
    + apply (f_equal (@rev ascii)) in R. rewrite rev_involutive in R. contradiction.
    + rewrite <- R, rev_involutive. cbn [parse]. rewrite (proj1 (says_read _ _ S)).
      destruct o as [[[[[a b] c] e] p]|]; reflexivity.
  - destruct (lines_line _ _ _ f S E) as (l & -> & S'). cbn [parse]. rewrite (proj2 (says_read _ _ S')).
    destruct o as [[[[[a b] c] g] p]|]; cbn [verdict_of entries]; rewrite IH; reflexivity.
Qed.

Lemma stored_end es e d : stored (es ++ [e]) d = (fun x => if same_key x (key_of (fst e)) then Some (port_of (snd e)) else stored es d x).
Proof.
  revert d. induction es as [|[q p] es IH]; intros d; [destruct e; reflexivity|]. cbn [app stored]. apply IH.
Qed.

Lemma stored_grants es q prt :
  match stored es (fun _ => None) (key_of q) with
  | Some Any => True
  | Some (Port n) => same_num n (Int (Z.of_N prt)) = true
  | None => False
  end <-> grants es q prt.
Proof.
  induction es as [|[r x] es IH] using rev_ind.
  - cbn. split; [intros []|]. intros (b & x & a & E & _). destruct b; discriminate E.
  - rewrite stored_end. cbn [fst snd]. destruct (same_key (key_of q) (key_of r)) eqn:K.
    + apply same_key_of in K. subst r. split.
      * intros H. exists es, x, []. split; [reflexivity|]. split; [|intros e []].
        destruct x as [p|]; [right|left; reflexivity]. cbn in H. apply Z.eqb_eq in H. f_equal. lia.
      * intros (b & y & a & E & P & NA). destruct a as [|z a _] using rev_ind.
        -- apply app_inj_tail in E. destruct E as [_ E]. injection E as <-.
           destruct P as [->| ->]; cbn; [exact I|apply Z.eqb_refl].
        -- exfalso. change ((q, y) :: a ++ [z]) with (((q, y) :: a) ++ [z]) in E. rewrite app_assoc in E.
           apply app_inj_tail in E. destruct E as [_ <-]. apply (NA (q, x)); [apply in_elt|reflexivity].
    + rewrite IH. assert (NE : r <> q).
      { intros ->. assert (same_key (key_of q) (key_of q) = true) by now apply same_key_of. congruence. }
      split.
      * intros (b & y & a & -> & P & NA). exists b, y, (a ++ [(r, x)]). split; [now rewrite <- app_assoc|]. split; [exact P|].
        intros e I. apply in_app_or in I. destruct I as [I|[<-|[]]]; [now apply NA|exact NE].
      * intros (b & y & a & E & P & NA). destruct a as [|z a _] using rev_ind.
        -- apply app_inj_tail in E. destruct E as [_ E]. injection E as -> _. contradiction.
        -- change ((q, y) :: a ++ [z]) with (((q, y) :: a) ++ [z]) in E. rewrite app_assoc in E.
           apply app_inj_tail in E. destruct E as [-> _]. exists b, y, a. repeat split; trivial.
           intros e I. apply NA. apply in_or_app. now left.
Qed.

(** ** The theorems *)

(** A file of blank lines, comments and entries is accepted, and the ControlHub then
    grants exactly what the last entry of the address says; otherwise it blocks, or
    in permissive mode grants. *)
Theorem C98_read f os q prt : file_says f os -> bytes4 q ->
  (grants (entries os) q prt -> forall permissive, get_pid (init (Some f)) permissive (number q) prt = Granted) /\
  (~ grants (entries os) q prt -> get_pid (init (Some f)) false (number q) prt = Blocked /\
     get_pid (init (Some f)) true (number q) prt = Granted).
Proof.
  intros F Q. unfold init. rewrite (parse_file _ _ F). cbn [get_pid status]. rewrite (tuple_number _ Q).
  pose proof (stored_grants (entries os) q prt) as G.
  destruct (stored (entries os) (fun _ => None) (key_of q)) as [[|n]|].
  - split; [reflexivity|]. intros H. exfalso. apply H, G. exact I.
  - split.
    + intros H m. apply G in H. rewrite H. reflexivity.
    + intros H. destruct (same_num n _) eqn:E; [exfalso; apply H, G, eq_refl|]. split; reflexivity.
  - split; [intros H; exfalso; apply G, H|]. intros _. split; reflexivity.
Qed.
Print Assumptions C98_read.

Definition txt (s : string) : list ascii := list_ascii_of_string s.
Definition nl : list ascii := [chr 10].
Definition file1 : list ascii :=
  (tabs 1 ++ spaces 0 ++ chr 35 :: txt " crate 3, slot 5") ++ nl ++
  (tabs 0 ++ spaces 2 ++ txt "192.168.0.10" ++ spaces 1 ++ tabs 0) ++ [chr 13; chr 10] ++
  (tabs 0 ++ spaces 0 ++ tabs 0) ++ nl ++
  (tabs 0 ++ spaces 0 ++ txt "10.0.3.7:50001" ++ spaces 0 ++ tabs 0).

Lemma num1 c v : digit c v -> numeral [c] v.  Proof. apply num_one. Qed.
Lemma num2 a b x y : digit a x -> digit b y -> numeral [a; b] (10 * x + y).
Proof. intros A B. apply (num_more [a] x b y); [now constructor|exact B]. Qed.
Lemma num3 a b c x y z : digit a x -> digit b y -> digit c z -> numeral [a; b; c] (10 * (10 * x + y) + z).
Proof. intros A B C. apply (num_more [a; b]); [now apply num2|exact C]. Qed.

Example C98_read_case : file_says file1 [None; Some ((192, 168, 0, 10), None); None; Some ((10, 0, 3, 7), Some 50001)] /\
  get_pid (init (Some file1)) false (number (192, 168, 0, 10)) 4321 = Granted /\
  get_pid (init (Some file1)) false (number (10, 0, 3, 7)) 50001 = Granted /\
  get_pid (init (Some file1)) false (number (10, 0, 3, 7)) 50002 = Blocked.
Proof.
  assert (D : forall v, v <= 9 -> digit (chr (48 + v)) v) by (intros v L; split; [exact L|reflexivity]).
  split; [|vm_compute; repeat split; reflexivity].
  unfold file1, nl. apply file_line; [apply says_comment; vm_compute; intuition discriminate|left; reflexivity|].
  apply file_line; [|right; reflexivity|].
  { apply says_entry. apply (entry_any (txt "192") (txt "168") (txt "0") (txt "10")); (split; [|cbn; lia]).
    - apply (num3 _ _ _ 1 9 2); [apply (D 1)|apply (D 9)|apply (D 2)]; lia.
    - apply (num3 _ _ _ 1 6 8); [apply (D 1)|apply (D 6)|apply (D 8)]; lia.
    - apply (num1 _ 0); apply (D 0); lia.
    - apply (num2 _ _ 1 0); [apply (D 1)|apply (D 0)]; lia. }
  apply file_line; [apply says_blank|left; reflexivity|].
  apply file_last; [|discriminate].
  apply says_entry. apply (entry_port (txt "10") (txt "0") (txt "3") (txt "7") (txt "50001")); try (split; [|cbn; lia]).
  - apply (num2 _ _ 1 0); [apply (D 1)|apply (D 0)]; lia.
  - apply (num1 _ 0); apply (D 0); lia.
  - apply (num1 _ 3); apply (D 3); lia.
  - apply (num1 _ 7); apply (D 7); lia.
  - apply (num_more (txt "5000") 5000 _ 1); [|apply (D 1); lia].
    apply (num_more (txt "500") 500 _ 0); [|apply (D 0); lia].
    apply (num3 _ _ _ 5 0 0); [apply (D 5)|apply (D 0)|apply (D 0)]; lia.
Qed.

(** ** Arbitrary files *)

Lemma strip_left_split c t : exists i, t = repeat c i ++ strip_left c t.
Proof.
  induction t as [|d t [i E]]; [now exists 0%nat|]. cbn [strip_left]. destruct (Ascii.eqb_spec d c) as [->|].
  - exists (S i). cbn. now rewrite <- E.
  - now exists 0%nat.
Qed.
Lemma strip_split c t : exists i j, t = repeat c i ++ strip c t ++ repeat c j.
Proof.
  destruct (strip_left_split c t) as [i E]. destruct (strip_left_split c (rev (strip_left c t))) as [j F].
  exists i, j. rewrite E at 1. f_equal. unfold strip. apply (f_equal (@rev ascii)) in F.
  rewrite rev_involutive, rev_app_distr, rev_repeat in F. exact F.
Qed.
Lemma white_app a b : white a -> white b -> white (a ++ b).
Proof. intros A B c I. apply in_app_or in I. destruct I; auto. Qed.
Lemma trim2_split t : exists w1 w2, t = w1 ++ trim2 t ++ w2 /\ white w1 /\ white w2.
Proof.
  unfold trim2. destruct (strip_split TAB t) as (i & j & E). destruct (strip_split SPACE (strip TAB t)) as (k & l & F).
  exists (repeat TAB i ++ repeat SPACE k), (repeat SPACE l ++ repeat TAB j). split.
  - rewrite E at 1. rewrite F at 1. now rewrite <- !app_assoc.
  - assert (W : forall n, white (repeat TAB n)) by (intros n c I; apply repeat_spec in I; subst; now left).
    assert (V : forall n, white (repeat SPACE n)) by (intros n c I; apply repeat_spec in I; subst; right; now left).
    split; apply white_app; auto.
Qed.

(** The line m of the file, as file:read_line gives it. *)
Definition given (m l : text) : Prop :=
  exists m', (m = m' \/ m = m' ++ [CR]) /\ (l = m' \/ l = m' ++ [LF]).

Lemma is_line_tail a r m : is_line r m -> is_line (a ++ LF :: r) m.
Proof.
  intros (N & pre & post & -> & P & Q). split; [exact N|]. exists (a ++ LF :: pre), post.
  split; [now rewrite <- app_assoc|]. split; [|exact Q]. right. destruct P as [->|[pre' ->]].
  - exists a. reflexivity.
  - exists (a ++ LF :: pre'). now rewrite <- app_assoc.
Qed.
Lemma lines_in l : forall t cur, ~ In LF cur -> In l (lines cur t) -> exists m, is_line (rev cur ++ t) m /\ given m l.
Proof.
  induction t as [|c t IH]; intros cur NL I.
  - cbn in I. destruct cur as [|x k]; [destruct I|]. destruct I as [<-|[]]. exists (rev (x :: k)). split.
    + split; [now rewrite <- in_rev|]. exists [], []. rewrite !app_nil_r. repeat split; now left.
    + exists (rev (x :: k)). split; now left.
  - cbn [lines] in I. destruct (Ascii.eqb_spec c LF) as [->|NC].
    + destruct I as [<-|I].
      * exists (rev cur). split.
        -- split; [now rewrite <- in_rev|]. exists [], (LF :: t). repeat split; [now left|right; now exists t].
        -- destruct cur as [|d k]; [exists []; split; [now left|now right]|].
           destruct (Ascii.eqb_spec d CR) as [->|_].
           ++ exists (rev k). split; [now right|now right].
           ++ exists (rev (d :: k)). split; [now left|now right].
      * destruct (IH [] (fun x => x) I) as (m & L & G). exists m. split; [now apply is_line_tail|exact G].
    + destruct (IH (c :: cur)) as (m & L & G); [intros [H|H]; [congruence|contradiction]|exact I|].
      exists m. split; [|exact G]. cbn [rev] in L. rewrite <- app_assoc in L. exact L.
Qed.

Lemma given_trimmed m l : ~ In LF m -> given m l -> exists w1 w2, m = w1 ++ trimmed l ++ w2 /\ white w1 /\ white w2.
Proof.
  intros N (m' & M & L).
  assert (N' : ~ In LF m').
  { intros I. apply N. destruct M as [->| ->]; [exact I|]. apply in_or_app. now left. }
  assert (T : trimmed l = trim2 m').
  { unfold trimmed. destruct L as [->| ->]; [now rewrite (strip_none LF m')|now rewrite (strip_end LF m')]. }
  rewrite T. destruct (trim2_split m') as (w1 & w2 & E & W1 & W2). destruct M as [->| ->].
  - exists w1, w2. repeat split; trivial.
  - exists w1, (w2 ++ [CR]). split; [rewrite E at 1; now rewrite <- !app_assoc|]. split; [exact W1|].
    apply white_app; [exact W2|]. intros c [<-|[]]. right. now right.
Qed.

Lemma parse_source ls : forall d d' k p, parse ls d = Ok d' -> d' k = Some p ->
  d k = Some p \/ exists l k', In l ls /\ read_line l = Store k' p /\ same_key k k' = true.
Proof.
  induction ls as [|l ls IH]; intros d d' k p P E; cbn [parse] in P.
  - injection P as ->. now left.
  - destruct (read_line l) as [|k1 p1| |] eqn:R; try discriminate P.
    + destruct (IH _ _ _ _ P E) as [H|(l' & k' & I & H)]; [now left|]. right. exists l', k'. split; [now right|exact H].
    + destruct (IH _ _ _ _ P E) as [H|(l' & k' & I & H)].
      * cbv beta in H. destruct (same_key k k1) eqn:K; [|now left]. injection H as ->. right. exists l, k1.
        split; [now left|]. split; [exact R|exact K].
      * right. exists l', k'. split; [now right|exact H].
Qed.

Lemma same_num_int z n : same_num (Int z) n = true -> n = Int z.
Proof. destruct n as [y|]; cbn; [|discriminate]. intros H. apply Z.eqb_eq in H. now subst. Qed.

Lemma pieces_step t p ps : pieces t = p :: ps -> ps <> [] -> plain p /\ exists s r, separator s /\ t = p ++ s :: r /\ pieces r = ps.
Proof.
  intros E NE. destruct (pieces_head t) as (p' & ps' & E' & P & Q). rewrite E in E'. injection E' as <- <-.
  split; [exact P|]. destruct Q as [[-> _]|Q]; [congruence|exact Q].
Qed.
Lemma pieces_one t p : pieces t = [p] -> plain p /\ t = p.
Proof.
  intros E. destruct (pieces_head t) as (p' & ps' & E' & P & Q). rewrite E in E'. injection E' as <- <-.
  split; [exact P|]. destruct Q as [[_ ->]|(s & r & _ & _ & R)]; [reflexivity|].
  destruct (pieces_head r) as (? & ? & R' & _). rewrite R in R'. discriminate R'.
Qed.

Lemma store_roughly l q p k' : read_line l = Store k' p -> same_key (key_of q) k' = true ->
  forall prt, match p with Any => True | Port n => same_num n (Int (Z.of_N prt)) = true end ->
  exists x, roughly (trimmed l) q x /\ (x = None \/ x = Some prt).
Proof.
  rewrite read_line_trimmed. generalize (trimmed l). intros t R K prt P.
  destruct q as [[[a b] c] d]. unfold of_trimmed in R. destruct t as [|h t]; [discriminate R|].
  destruct (Ascii.eqb h HASH); [discriminate R|]. destruct (found (h :: t)); [|discriminate R].
  revert R. generalize (h :: t). clear h t. intros t R.
  destruct (pieces t) as [|p1 [|p2 [|p3 [|p4 [|p5 [|]]]]]] eqn:E; try discriminate R.
  - injection R as <- <-. cbn [key_of same_key] in K. rewrite !andb_true_iff in K. destruct K as [[[K1 K2] K3] K4].
    apply same_num_int in K1, K2, K3, K4.
    destruct (pieces_step _ _ _ E) as (Q1 & s1 & r1 & S1 & -> & E1); [discriminate|].
    destruct (pieces_step _ _ _ E1) as (Q2 & s2 & r2 & S2 & -> & E2); [discriminate|].
    destruct (pieces_step _ _ _ E2) as (Q3 & s3 & r3 & S3 & -> & E3); [discriminate|].
    destruct (pieces_one _ _ E3) as (Q4 & ->).
    exists None. split; [|now left]. constructor; trivial; apply to_integer_begins; trivial.
  - injection R as <- <-. cbn [key_of same_key] in K. rewrite !andb_true_iff in K. destruct K as [[[K1 K2] K3] K4].
    apply same_num_int in K1, K2, K3, K4.
    assert (K5 : to_integer p5 = Int (Z.of_N prt)).
    { destruct (to_integer p5) as [z|]; cbn in P; [|discriminate P]. apply Z.eqb_eq in P. now subst. }
    destruct (pieces_step _ _ _ E) as (Q1 & s1 & r1 & S1 & -> & E1); [discriminate|].
    destruct (pieces_step _ _ _ E1) as (Q2 & s2 & r2 & S2 & -> & E2); [discriminate|].
    destruct (pieces_step _ _ _ E2) as (Q3 & s3 & r3 & S3 & -> & E3); [discriminate|].
    destruct (pieces_step _ _ _ E3) as (Q4 & s4 & r4 & S4 & -> & E4); [discriminate|].
    destruct (pieces_one _ _ E4) as (Q5 & ->).
    exists (Some prt). split; [|now right]. constructor; trivial; apply to_integer_begins; trivial.
Qed.

(** Whatever the file holds, a target is granted in enforcing mode only if a line of
    the file consists, between blanks, of four or five parts between full stops and
    colons that begin with the numbers of the target. *)
Theorem C98_only f q prt : bytes4 q -> get_pid (init (Some f)) false (number q) prt = Granted ->
  exists l w1 t w2 x, is_line f l /\ l = w1 ++ t ++ w2 /\ white w1 /\ white w2 /\ roughly t q x /\ (x = None \/ x = Some prt).
Proof.
  intros Q H. unfold init in H. destruct (parse (lines [] f) (fun _ => None)) as [d| |] eqn:P; cbn in H; try discriminate H.
  rewrite (tuple_number _ Q) in H. destruct (d (key_of q)) as [p|] eqn:D; [|discriminate H].
  destruct (parse_source _ _ _ _ _ P D) as [N|(l & k & I & R & K)]; [discriminate N|].
  destruct (lines_in l f [] (fun x => x) I) as (m & L & G). cbn [rev app] in L.
  destruct (given_trimmed m l (proj1 L) G) as (w1 & w2 & M & W1 & W2).
  destruct (store_roughly l q p k R K prt) as (x & RX & X).
  { destruct p as [|n]; [trivial|]. destruct (same_num n (Int (Z.of_N prt))); [reflexivity|discriminate H]. }
  exists m, w1, (trimmed l), w2, x. split; [exact L|]. split; [exact M|]. repeat split; trivial.
Qed.
Print Assumptions C98_only.

Example C98_only_case : get_pid (init (Some file1)) false (number (192, 168, 0, 10)) 4321 = Granted /\
  is_line file1 (txt "  192.168.0.10 " ++ [chr 13]) /\
  get_pid (init (Some file1)) false (number (192, 168, 0, 11)) 4321 = Blocked.
Proof.
  split; [reflexivity|]. split; [|reflexivity]. split; [vm_compute; intuition discriminate|].
  exists (chr 9 :: txt "# crate 3, slot 5" ++ [chr 10]), ([chr 10; chr 10] ++ txt "10.0.3.7:50001").
  split; [reflexivity|]. split; [right; exists (chr 9 :: txt "# crate 3, slot 5"); reflexivity|right; eexists; reflexivity].
Qed.

Lemma has_address_part a t b : has_address t -> has_address (a ++ t ++ b).
Proof.
  intros (pre & ta & x & tb & y & tc & z & td & post & na & nb & nc & nd & -> & O).
  exists (a ++ pre), ta, x, tb, y, tc, z, td, (post ++ b), na, nb, nc, nd. split; [|exact O].
  repeat (rewrite <- ?app_assoc; cbn [app]). reflexivity.
Qed.

Lemma lines_all m f : is_line f m -> m <> [] -> exists l, In l (lines [] f) /\ given m l.
Proof.
  intros (N & pre & post & -> & P & Q) NE.
  assert (B : exists l, In l (lines [] (m ++ post)) /\ given m l).
  { rewrite lines_scan by exact N. rewrite app_nil_r. destruct Q as [->|[post' ->]].
    - cbn [lines]. destruct (rev m) eqn:R; [apply (f_equal (@rev ascii)) in R; rewrite rev_involutive in R; contradiction|].
      rewrite <- R, rev_involutive. exists m. split; [now left|]. exists m. split; now left.
    - cbn [lines]. change (Ascii.eqb (chr 10) LF) with true. cbv iota. eexists. split; [now left|].
      destruct (rev m) as [|d k] eqn:R; [apply (f_equal (@rev ascii)) in R; rewrite rev_involutive in R; contradiction|].
      assert (M : m = rev k ++ [d]) by (apply (f_equal (@rev ascii)) in R; now rewrite rev_involutive in R).
      destruct (Ascii.eqb_spec d CR) as [->|_].
      + exists (rev k). split; [now right|now right].
      + exists m. split; [now left|]. right. cbn [rev]. now rewrite <- M. }
  destruct P as [->|[pre' ->]]; [exact B|].
  assert (G : forall a cur r, (exists l, In l (lines [] r) /\ given m l) -> exists l, In l (lines cur (a ++ LF :: r)) /\ given m l).
  { clear. induction a as [|c a IH]; intros cur r (l & I & H).
    - exists l. cbn [app lines]. change (Ascii.eqb LF LF) with true. cbv iota. split; [now right|exact H].
    - cbn [app lines]. destruct (Ascii.eqb c LF).
      + destruct (IH [] r) as (l' & I' & H'); [now exists l|]. exists l'. split; [now right|exact H'].
      + apply IH. now exists l. }
  rewrite <- app_assoc. apply (G pre' [] (m ++ post) B).
Qed.

Lemma parse_refuse ls l : In l ls -> read_line l = Refuse -> forall d d', parse ls d <> Ok d'.
Proof.
  induction ls as [|x ls IH]; intros I R d d' P; [destruct I|]. cbn [parse] in P. destruct I as [->|I].
  - rewrite R in P. discriminate P.
  - destruct (read_line x); try discriminate P; exact (IH I R _ _ P).
Qed.

(** A file with a line that is neither blank nor a comment and has nothing like an
    address gives access to no target, in neither mode. *)
Theorem C98_closed f l : is_line f l -> ~ white l -> (forall w r, l = w ++ chr 35 :: r -> ~ white w) -> ~ has_address l ->
  forall permissive ip prt, get_pid (init (Some f)) permissive ip prt = Died.
Proof.
  intros L NW NC NA permissive ip prt.
  assert (NE : l <> []) by (intros ->; apply NW; intros c []).
  destruct (lines_all l f L NE) as (l' & I & G). destruct (given_trimmed l l' (proj1 L) G) as (w1 & w2 & E & W1 & W2).
  assert (R : read_line l' = Refuse).
  { rewrite read_line_trimmed. unfold of_trimmed. destruct (trimmed l') as [|c t] eqn:T.
    - exfalso. apply NW. rewrite E. now apply white_app.
    - destruct (Ascii.eqb_spec c HASH) as [->|_]; [exfalso; apply (NC w1 (t ++ w2)); [exact E|exact W1]|].
      destruct (found (c :: t)) eqn:F; [|reflexivity]. exfalso. apply NA. rewrite E. apply has_address_part, found_inv, F. }
  unfold init. pose proof (parse_refuse _ _ I R (fun _ => None)) as P.
  destruct (parse (lines [] f) (fun _ => None)) as [d| |]; [exfalso; now apply (P d)|reflexivity|reflexivity].
Qed.
Print Assumptions C98_closed.

Example C98_closed_case : let f := txt "10.0.0.1" ++ chr 10 :: txt "localhost" in
  is_line f (txt "localhost") /\ ~ white (txt "localhost") /\ init (Some f) = Running None /\
  get_pid (init (Some f)) false (number (10, 0, 0, 1)) 50001 = Died /\ get_pid (init (Some f)) true (number (10, 0, 0, 1)) 50001 = Died.
Proof.
  cbv zeta. split.
  - split; [vm_compute; intuition discriminate|]. exists (txt "10.0.0.1" ++ [chr 10]), []. split; [reflexivity|].
    split; [right; exists (txt "10.0.0.1"); reflexivity|now left].
  - split; [intros W; specialize (W "l"%char (or_introl eq_refl)); vm_compute in W; intuition discriminate|].
    vm_compute. repeat split; reflexivity.
Qed.

(** ** What is false *)

Lemma says_chars t o : says t o -> (exists i j r, t = tabs i ++ spaces j ++ chr 35 :: r) \/
  forall c, In c t -> is_digit c = true \/ c = dot \/ c = colon \/ c = TAB \/ c = SPACE.
Proof.
  intros [i j k|i j rest NR|i j u q p k l E].
  - right. intros c I. unfold tabs, spaces in I. rewrite !in_app_iff in I. destruct I as [I|[I|I]]; apply repeat_spec in I; subst; tauto.
  - left. now exists i, j, rest.
  - right. intros c I. unfold tabs, spaces in I. rewrite !in_app_iff in I.
    destruct (entry_shape _ _ _ E) as (_ & _ & _ & _ & _ & _ & _ & _ & F).
    destruct I as [I|[I|[I|[I|I]]]]; try (apply repeat_spec in I; subst; tauto). specialize (F c I). tauto.
Qed.
Lemma not_comment x t : is_digit x = true -> ~ exists i j r, x :: t = tabs i ++ spaces j ++ chr 35 :: r.
Proof. intros D (i & j & r & E). destruct i; [destruct j|]; injection E as -> _; discriminate D. Qed.

(** A file with a line of another form should be refused; it is accepted, and the line
    allows the port that happens to follow the last full stop. *)
Theorem C98_cut_refuted : ~ forall f l, is_line f l -> (~ exists o, says l o) ->
  forall ip prt, get_pid (init (Some f)) false ip prt <> Granted.
Proof.
  intros H. apply (H (txt "10.0.0.1 #no.5") (txt "10.0.0.1 #no.5")) with (ip := number (10, 0, 0, 1)) (prt := 5).
  - split; [vm_compute; intuition discriminate|]. exists [], []. repeat split; now left.
  - intros [o S]. destruct (says_chars _ _ S) as [C|C].
    + revert C. apply (not_comment "1"%char). reflexivity.
    + specialize (C "#"%char). destruct C as [C|[C|[C|[C|C]]]]; try discriminate C. cbn. tauto.
  - reflexivity.
Qed.
Print Assumptions C98_cut_refuted.

(** Lines with a slip in them: they are accepted and mean another target, or none. *)
Example C98_slips :
  get_pid (init (Some (txt "10,0.0.0.1"))) false (number (10, 0, 0, 1)) 50001 = Granted /\
  get_pid (init (Some (txt "1O1.0.0.1"))) false (number (1, 0, 0, 1)) 50001 = Granted /\
  get_pid (init (Some (txt "host 10.0.0.1"))) false (number (10, 0, 0, 1)) 50001 = Blocked /\
  get_pid (init (Some (txt "10.0.0.1:"))) false (number (10, 0, 0, 1)) 50001 = Blocked /\
  init (Some (txt "10.0.0.0.1:50001")) = NotStarted.
Proof. vm_compute. repeat split; reflexivity. Qed.

(** The ControlHub should not start with a file it refuses; it does, and then no
    target can be reached. *)
Theorem C98_start_refuted : ~ forall f l, is_line f l -> (~ exists o, says l o) -> init (Some f) = NotStarted.
Proof.
  intros H. assert (E : init (Some (txt "localhost")) = NotStarted).
  { apply H with (l := txt "localhost").
    - split; [vm_compute; intuition discriminate|]. exists [], []. repeat split; now left.
    - intros [o S]. apply says_core in S. destruct o as [[[[[a b] c] d] p]|]; discriminate S. }
  discriminate E.
Qed.
Print Assumptions C98_start_refuted.

(** ** With the lines as the model of the managers has them *)

Lemma number_inj q r : bytes4 q -> bytes4 r -> number q = number r -> q = r.
Proof.
  intros Q R E. apply (f_equal tuple) in E. rewrite (tuple_number _ Q), (tuple_number _ R) in E.
  apply same_key_of. rewrite E. now apply same_key_of.
Qed.
Definition line_of (e : quad * option N) : Manager.line := (number (fst e), snd e).

(** C90 for the text of the file: what a connection may reach. *)
Theorem C98_access f os q prt permissive : file_says f os -> bytes4 q -> Forall (fun e => bytes4 (fst e)) (entries os) ->
  get_pid (init (Some f)) permissive (number q) prt =
  if Manager.get_pid (Some (map line_of (entries os))) permissive (fun _ => false) (number q, prt) then Granted else Blocked.
Proof.
  intros F Q A. assert (G : grants (entries os) q prt <-> Manager.access (Some (map line_of (entries os))) (number q, prt) = true).
  { rewrite Prop_Manager.C90_last. rewrite Forall_forall in A. split.
    - intros (b & x & a & E & P & N). rewrite E in A. exists (map line_of b), (line_of (q, x)), (map line_of a). split; [now rewrite E, map_app|].
      split; [split; [reflexivity|exact P]|]. apply Forall_forall. intros l I. apply in_map_iff in I. destruct I as (e & <- & I).
      cbn. intros H. apply (N e I). apply number_inj; [|exact Q|exact H]. apply A. apply in_or_app. right. now right.
    - intros (b & l & a & E & [N1 N2] & N). apply map_eq_app in E. destruct E as (b' & r & E1 & <- & E2).
      apply map_eq_cons in E2. destruct E2 as ([q' x] & a' & -> & <- & <-). rewrite E1 in A. cbn in N1, N2.
      assert (q' = q) as ->. { apply number_inj; [|exact Q|exact N1]. apply (A (q', x)). apply in_elt. }
      exists b', x, a'. split; [exact E1|]. split; [exact N2|]. intros e I H. rewrite Forall_forall in N.
      apply (N (line_of e)); [now apply in_map|]. cbn. now rewrite H. }
  destruct (C98_read f os q prt F Q) as [C1 C2]. unfold Manager.get_pid.
  destruct (Manager.access (Some (map line_of (entries os))) (number q, prt)).
  - rewrite C1 by now apply G. reflexivity.
  - destruct C2 as [C2 C3]; [intros H; apply G in H; discriminate H|]. destruct permissive; assumption.
Qed.
Print Assumptions C98_access.

Example C98_access_case :
  Forall (fun e => bytes4 (fst e)) (entries [None; Some ((192, 168, 0, 10), None); None; Some ((10, 0, 3, 7), Some 50001)]) /\
  Manager.get_pid (Some (map line_of [((192, 168, 0, 10), None); ((10, 0, 3, 7), Some 50001)])) false (fun _ => false) (number (10, 0, 3, 7), 50001) = true /\
  get_pid (init (Some file1)) false (number (10, 0, 3, 7)) 50001 = Granted.
Proof. split; [repeat constructor|]. split; reflexivity. Qed.
