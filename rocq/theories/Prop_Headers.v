(** C05-C07: transaction headers. *)
From Verif Require Import Word Header WordLemmas HeaderProofs WireSpec.
From Coq Require Import NArith ZArith List Lia Bool ZifyBool ZifyNat ZifyN.
Import ListNotations.
Open Scope N_scope.
Ltac Zify.zify_post_hook ::= Z.div_mod_to_equations.

Lemma type_code_spec v t : type_code v t =
  option_map (fun n => n * match v with V1 => 8 | V2 => 16 end) (spec_type v t).
Proof. destruct v, t; reflexivity. Qed.

(** The word built is the one of the specification. *)
Theorem C05_C06_header_layout : forall v t wc id info,
  calc_header v t wc id info =
  match spec_type v t with
  | Some ty => Some (spec_header v ty (wc mod spec_counts v) (id mod spec_ids v)
                                 (info mod spec_infos v))
  | None => None
  end.
Proof.
  intros v t wc id info. assert (T := type_code_spec v t).
  destruct (spec_type v t) as [ty|]; cbn [option_map] in T.
  - rewrite (calc_header_wire _ _ _ _ _ _ T). f_equal. destruct v; reflexivity.
  - unfold calc_header. rewrite T. reflexivity.
Qed.

Example C05_C06_layout_case :
  calc_header V2 RMW_BITS 1 4099 15 = Some 0x2003014F /\
  calc_header V1 READ 511 2047 0 = Some 0x1FFFFF18.
Proof. split; reflexivity. Qed.

Theorem C05_header_roundtrip_v2 : forall t wc id info,
  spec_type V2 t <> None -> wc <= 255 -> info < 16 ->
  exists h, calc_header V2 t wc id info = Some h /\ h < 2 ^ 32 /\ word_version h = 2 /\
    extract_header V2 h = Some (mkHdr t wc (id mod 4096) info).
Proof.
  intros t wc id info T W I.
  destruct (calc_header V2 t wc id info) as [h|] eqn:E.
  2:{ rewrite C05_C06_header_layout in E. destruct (spec_type V2 t); [discriminate|congruence]. }
  exists h. destruct (extract_calc _ _ _ _ _ _ E) as (X & L). split; [reflexivity|].
  split; [exact L|]. split.
  - apply (proj1 (extract_some_iff V2 h)). eauto.
  - rewrite X. unfold wc_mod, id_mod, info_seen. rewrite (N.mod_small wc), (N.mod_small info) by lia.
    reflexivity.
Qed.

Theorem C06_header_roundtrip_v1 : forall t wc id info,
  spec_type V1 t <> None -> wc <= 511 -> info < 8 ->
  exists h, calc_header V1 t wc id info = Some h /\ h < 2 ^ 32 /\ word_version h = 1 /\
    extract_header V1 h = Some (mkHdr t wc (id mod 2048) (info mod 4)).
Proof.
  intros t wc id info T W I.
  destruct (calc_header V1 t wc id info) as [h|] eqn:E.
  2:{ rewrite C05_C06_header_layout in E. destruct (spec_type V1 t); [discriminate|congruence]. }
  exists h. destruct (extract_calc _ _ _ _ _ _ E) as (X & L). split; [reflexivity|].
  split; [exact L|]. split.
  - apply (proj1 (extract_some_iff V1 h)). eauto.
  - rewrite X. unfold wc_mod, id_mod, info_seen. rewrite (N.mod_small wc) by lia. reflexivity.
Qed.

Example C05_case : spec_type V2 CONFIG_SPACE_READ <> None /\
  extract_header V2 0x2FFF0165 = Some (mkHdr CONFIG_SPACE_READ 1 4095 5).
Proof. split; [discriminate|reflexivity]. Qed.

Example C06_case : spec_type V1 BOT <> None /\
  extract_header V1 0x1FFE01FD = Some (mkHdr BOT 1 2047 1).
Proof. split; [discriminate|reflexivity]. Qed.

Lemma type_field_word v h : type_field v h = word_type v h * match v with V1 => 8 | V2 => 16 end.
Proof. unfold type_field, word_type. destruct v; lia. Qed.

(** C07: acceptance, fields of an accepted word, and injectivity of the types. *)
Theorem C07_decode : forall v h, h < 2 ^ 32 ->
  (forall x, extract_header v h = Some x <->
     word_version h = version_number v /\
     spec_type v (h_type x) = Some (word_type v h) /\
     h_wc x = (h / 2 ^ 8) mod spec_counts v /\
     h_id x = (h / match v with V1 => 2 ^ 17 | V2 => 2 ^ 16 end) mod spec_ids v /\
     h_info x = h mod match v with V1 => 4 | V2 => 16 end) /\
  (forall t u n, spec_type v t = Some n -> spec_type v u = Some n -> t = u).
Proof.
  intros v h _. split.
  - assert (TS : forall t, spec_type v t = Some (word_type v h) <-> type_code v t = Some (type_field v h)).
    { intros t. rewrite type_code_spec, type_field_word. destruct (spec_type v t) as [n|]; cbn [option_map].
      - split; intros E; injection E as E; f_equal; [subst; reflexivity|].
        destruct v; lia.
      - split; discriminate. }
    intros x. split.
    + intros E. assert (X := proj1 (extract_some_iff v h) (ex_intro _ x E)).
      split; [apply X|]. split; [apply TS, extract_type, E|].
      destruct (extract_fields v h x E) as (A & B & C).
      destruct v; repeat split; assumption.
    + intros (A & B & C & E & F). apply TS in B.
      destruct (proj2 (extract_some_iff v h)) as (y & Y).
      { split; [exact A|]. exists (h_type x). exact B. }
      rewrite Y. f_equal.
      assert (TY := extract_type v h y Y). destruct (extract_fields v h y Y) as (Y1 & Y2 & Y3).
      assert (h_type y = h_type x).
      { apply type_code_inv in TY. apply type_code_inv in B. congruence. }
      destruct x, y; cbn in *. subst. destruct v; reflexivity.
  - intros t u n. destruct v, t, u; cbn; congruence.
Qed.

Example C07_case :
  extract_header V2 0x20050310 = Some (mkHdr WRITE 3 5 0) /\ extract_header V2 0x10050310 = None /\
  extract_header V2 0x20050370 = None.
Proof. repeat split; reflexivity. Qed.

Print Assumptions C05_C06_header_layout.
Print Assumptions C05_header_roundtrip_v2.
Print Assumptions C06_header_roundtrip_v1.
Print Assumptions C07_decode.
