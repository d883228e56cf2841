(** The TCP transport keeps the discipline of [StackProofs.v] in executions with
    clean handlers. *)
From Coq Require Import NArith ZArith List Bool Lia PeanoNat ZifyBool ZifyNat ZifyN.
From Verif Require Import Word.
From Verif Require Client Validate System Net Stack StackProofs.
From Verif Require Import Udp Tcp TcpProofs TcpProofs2.
Import Stack StackProofs.
Import ListNotations.
Open Scope N_scope.
Ltac Zify.zify_post_hook ::= Z.div_mod_to_equations.

(** Packets in the transport, oldest first. *)
Definition tcheck_part (s : tcp) : list pkt := match k_io s with TCheck c => c | TEnd => [] | _ => k_reply s end.
Definition tplaces (s : tcp) : list pkt := tcheck_part s ++ concat (k_rqueue s) ++ k_disp s ++ k_queue s.

Definition thandling (u : upc) : bool := match u with UH3 | UH4 => true | _ => false end.

Record trel (s : tcp) (d : dst) : Prop := {
  r_fail : thandling (k_user s) = false -> d_fail d = k_exc s;
  r_pend : thandling (k_user s) = false -> k_exc s = false -> d_pend d = tplaces s;
  r_flush : match k_user s with
            | UIdle => d_flush d = false
            | UWait | UWake => d_flush d = true
            | _ => d_flush d = true -> d_fail d = true
            end
}.

Lemma skipn_fresh {A} (l r : list A) : skipn (List.length l) (l ++ r) = r.
Proof. induction l; cbn; auto. Qed.
Lemma skipn_none {A} (l : list A) : skipn (List.length l) l = [].
Proof. induction l; cbn; auto. Qed.

Ltac tnews := rewrite <- ?app_assoc; cbn [app]; rewrite ?skipn_fresh, ?skipn_none; cbn [flat_map tcp_event app].
Ltac tfin := try solve [auto|discriminate|congruence|intros; congruence].

Section Rel.
Variable bytes : pkt -> list N.
Variable room : pkt -> N.
Variable nr : nat.
Variable max : N.
Variable zero : bool.
Hypothesis nr_pos : (1 <= nr)%nat.
Hypothesis max_pos : 1 <= max.

(** write moves packets from one queue to the next. *)
Lemma twrite_places s : k_disp s = [] -> tplaces (twrite bytes nr zero s) = tplaces s.
Proof using.
  intros D. rewrite twrite_eq. unfold tplaces, tcheck_part. cbn [k_io k_reply k_rqueue k_disp k_queue]. rewrite D. cbn [app].
  rewrite chunk_split. reflexivity.
Qed.

Lemma twrite_other s : k_exc (twrite bytes nr zero s) = k_exc s /\ k_user (twrite bytes nr zero s) = k_user s /\
  exists c b, k_tr (twrite bytes nr zero s) = k_tr s ++ [TSent c b].
Proof using. rewrite twrite_eq. cbn [k_exc k_user k_tr]. eauto. Qed.

Lemma tflush_other s : k_exc (tflush bytes nr zero s) = k_exc s /\ k_user (tflush bytes nr zero s) = k_user s /\
  tplaces (tflush bytes nr zero s) = tplaces s /\
  flat_map tcp_event (skipn (List.length (k_tr s)) (k_tr (tflush bytes nr zero s))) = [].
Proof using.
  unfold tflush. set (s1 := tput_flush s true).
  assert (E : k_exc s1 = k_exc s /\ k_user s1 = k_user s /\ tplaces s1 = tplaces s /\ k_tr s1 = k_tr s) by (repeat split).
  destruct E as (E1 & E2 & E3 & E4). clearbody s1. cbv zeta.
  destruct (k_queue s1) as [|q qs]; [|destruct (k_disp s1) as [|x xs] eqn:DI].
  - rewrite E4. tnews. auto.
  - destruct (twrite_other s1) as (Y1 & Y2 & c & b & Y3). rewrite Y1, Y2, Y3, (twrite_places s1 DI), E4. tnews. auto.
  - rewrite E4. tnews. auto.
Qed.

Lemma trel_step s l s' d : tinv nr max s (tsince (k_tr s)) -> trel s d ->
  kstep bytes room nr max zero s l = Some s' -> (l = KHandler -> k_user s = UH2 -> tclean s) ->
  exists d', drun d (tcp_passes s l s') = Some d' /\ trel s' d'.
Proof using nr_pos max_pos.
  intros W R ST QH.
  destruct (thandling (k_user s)) eqn:IH.
  { assert (U : k_user s = UH3 \/ k_user s = UH4) by (destruct (k_user s); try discriminate; auto).
    assert (Q : tquiet s) by (assert (M := w_mode _ _ _ _ W); unfold tmode in M; destruct U as [U|U]; rewrite U in M; tauto).
    assert (DEC : l = KHandler \/ l <> KHandler) by (destruct l; auto; right; discriminate).
    destruct DEC as [->|NL].
    - cbn [kstep] in ST. destruct R as [RF RP RL]. destruct U as [U|U]; rewrite U in *; injection ST as <-.
      + exists d. unfold tcp_passes, thandler. rewrite U. krecs. tnews. split; [reflexivity|]. constructor; krecs; try discriminate. exact RL.
      + unfold tcp_passes, thandler. rewrite U. krecs. tnews. cbn [drun dstep].
        replace (d_flush d && negb (d_fail d)) with false by (destruct (d_flush d); [rewrite RL by reflexivity|]; reflexivity).
        eexists. split; [reflexivity|]. assert (M := w_mode _ _ _ _ W). unfold tmode in M. rewrite U in M. destruct M as (X & (_ & _ & _ & IO) & _ & Q1 & Q2 & _).
        constructor; krecs; cbn [d_fail d_pend d_flush]; auto. intros _ _. unfold tplaces, tcheck_part. krecs. rewrite Q1, Q2, IO. reflexivity.
    - destruct (tquiet_kept bytes room nr max zero s l s' Q U ST NL) as (-> & ->). exists d. unfold tcp_passes, tcheck_deadline. krecs. tnews.
      split; [reflexivity|]. destruct R as [RF RP RL]. constructor; krecs; rewrite ?IH; try discriminate. exact RL. }
  destruct R as [RF RP RL]. specialize (RF IH). specialize (RP IH).
  assert (M := w_mode _ _ _ _ W). unfold tmode in M.
  assert (LV : k_exc s = false -> tlive nr max s (tsince (k_tr s))) by (intros X; destruct (k_user s); try discriminate; rewrite X in M; exact M).
  assert (FL : k_exc s = true -> k_io s = TIdle) by (intros X; destruct (k_user s); try discriminate; rewrite X in M; tauto).
  clear M W.
  (* a failure is stored *)
  assert (STORE : forall f, k_exc s = false -> tplaces s <> [] ->
    k_user f = k_user s -> k_tr f = k_tr s ->
    exists d', drun d (flat_map tcp_event (skipn (List.length (k_tr s)) (k_tr (tstore f)))) = Some d' /\
      forall i, trel (tput_io (tstore f) i) d').
  { intros f X P U TR. specialize (RP X). rewrite <- RP in P. krecs. rewrite TR. tnews. cbn [drun dstep]. rewrite RF, X.
    destruct (d_pend d) as [|x y] eqn:DP; [exfalso; apply P; auto|]. eexists. split; [reflexivity|]. intros i.
    constructor; krecs; cbn [d_fail d_pend d_flush]; tfin. rewrite U. destruct (k_user s); auto. }
  unfold tcp_passes. destruct l as [p| | | | | |err n|err n cnt| |err n|i| |v|]; cbn [kstep] in ST.
  - (* implementDispatch *)
    destruct (k_user s) eqn:U; try discriminate. injection ST as <-. destruct (k_exc s) eqn:X.
    + exists d. krecs. tnews. split; [reflexivity|]. constructor; krecs; tfin.
    + cbn [app]. unfold timplement_dispatch. set (s1 := if k_open s then s else _).
      assert (E1 : k_disp s1 = k_disp s /\ k_queue s1 = k_queue s /\ k_tr s1 = k_tr s /\ k_user s1 = k_user s /\ k_exc s1 = k_exc s /\
                   tcheck_part s1 = tcheck_part s /\ k_rqueue s1 = k_rqueue s) by (unfold s1; destruct (k_open s); repeat split).
      destruct E1 as (E1 & E2 & E3 & E4 & E5 & E6 & E7). clearbody s1.
      set (s2 := tsee _ _).
      assert (P2 : tplaces s2 = tplaces s ++ [p]).
      { unfold s2, tplaces, tcheck_part in *. krecs. rewrite E1, E2, E6, E7, <- !app_assoc. reflexivity. }
      assert (T2 : k_tr s2 = k_tr s ++ [THanded p] /\ k_user s2 = UIdle /\ k_exc s2 = false) by (unfold s2; krecs; rewrite E3, E4, E5, U, X; auto).
      destruct T2 as (T2 & U2 & X2). clearbody s2.
      set (d2 := mkD (d_pend d ++ [p]) false false).
      assert (D2 : drun d [VHanded p] = Some d2) by (cbn [drun dstep]; rewrite RF, RL; reflexivity).
      assert (RP' : d_pend d = tplaces s) by auto.
      exists d2. destruct (match k_disp s2 with [] => true | _ => false end) eqn:DI; cbn [andb].
      2:{ rewrite T2. tnews. split; [exact D2|]. constructor; cbn [d2 d_fail d_pend d_flush]; rewrite ?U2, ?X2; auto. intros _ _. rewrite P2, RP'. reflexivity. }
      destruct (Nat.leb nr (List.length (k_queue s2)) && (k_infl s2 <? max)).
      * assert (DI' : k_disp s2 = []) by (destruct (k_disp s2); [reflexivity|discriminate]).
        assert (P3 := twrite_places s2 DI'). destruct (twrite_other s2) as (Y1 & Y2 & c & b & Y3). rewrite Y3, T2. tnews. split; [exact D2|].
        constructor; cbn [d2 d_fail d_pend d_flush]; rewrite ?Y1, ?Y2, ?U2, ?X2; auto. intros _ _. rewrite P3, P2, RP'. reflexivity.
      * rewrite T2. tnews. split; [exact D2|]. constructor; cbn [d2 d_fail d_pend d_flush]; rewrite ?U2, ?X2; auto. intros _ _. rewrite P2, RP'. reflexivity.
  - (* connect fails *)
    destruct (k_user s) eqn:U, (k_exc s) eqn:X, (k_open s); try discriminate. injection ST as <-.
    exists d. krecs. tnews. split; [reflexivity|]. constructor; krecs; rewrite ?X; tfin.
  - (* Flush *)
    destruct (k_user s) eqn:U; try discriminate. injection ST as <-.
    exists (mkD (d_pend d) (d_fail d) true).
    assert (DF : forall r, drun d (VFlush :: r) = drun (mkD (d_pend d) (d_fail d) true) r) by (intros r; cbn [drun dstep]; rewrite RL; reflexivity).
    destruct (tflush_other s) as (Y1 & Y2 & Y3 & Y4). set (s2 := tflush bytes nr zero s) in *. clearbody s2.
    cbn [app k_tr tput_user]. rewrite Y4, DF. split; [reflexivity|].
    constructor; cbn [k_exc k_user tput_user d_fail d_pend d_flush]; rewrite ?Y1; tfin.
    intros _ X. rewrite RP by auto. rewrite <- Y3. reflexivity.
  - (* woken *)
    destruct (k_user s) eqn:U; try discriminate. destruct (k_done s); [|discriminate]. injection ST as <-. exists d. krecs. tnews.
    split; [reflexivity|]. constructor; krecs; tfin.
  - (* end of Flush *)
    destruct (k_user s) eqn:U; try discriminate. injection ST as <-. destruct (k_exc s) eqn:X.
    + exists d. krecs. tnews. split; [reflexivity|]. constructor; krecs; rewrite ?X; tfin.
    + krecs. tnews. cbn [drun dstep]. rewrite RF, RL, RP by auto.
      assert (V := LV ltac:(auto)). destruct V as [V0 VB VQ VD VW VF VE]. destruct (proj1 VD (VW U)) as (D1 & D2). destruct V0.
      assert (Q1 : k_rqueue s = []) by auto.
      assert (Q2 : k_queue s = []).
      { destruct (VQ D1) as [Q|[Q|(Q & _)]]; [exact Q| |].
        - rewrite D1, D2, Q1 in v_infl. cbn in v_infl. lia.
        - rewrite U in VF. cbn [flushing] in VF. congruence. }
      assert (P : tplaces s = []).
      { unfold tplaces, tcheck_part. rewrite D1, D2, Q1, Q2. destruct v_old as (old & pre & _ & _ & _ & P). unfold io_part in P.
        destruct (k_io s); try reflexivity. destruct P as (P1 & P2). rewrite D2 in P2. symmetry in P2. apply app_eq_nil in P2. destruct P2 as (_ & ->). reflexivity. }
      rewrite P. eexists. split; [reflexivity|]. constructor; krecs; cbn [d_fail d_pend d_flush]; tfin.
  - (* the handler up to the point where the exception is cleared *)
    destruct (k_user s) eqn:U; try discriminate; injection ST as <-; unfold thandler; rewrite U.
    + exists d. destruct (k_open s); krecs; tnews; (split; [reflexivity|]); constructor; krecs; tfin.
    + exists d. krecs. tnews. split; [reflexivity|]. constructor; krecs; try discriminate. exact RL.
  - (* send completes *)
    destruct (k_acts s); [discriminate|]. injection ST as <-. exists d. krecs. tnews. split; [reflexivity|]. constructor; krecs; tfin.
  - (* header arrives *)
    destruct (k_actr s); [discriminate|]. injection ST as <-. exists d. krecs. tnews. split; [reflexivity|]. constructor; krecs; tfin.
  - (* deadline *)
    destruct (k_io s) eqn:IO; try discriminate. destruct (k_fin s); [|discriminate]. injection ST as <-. unfold tcheck_deadline. exists d. krecs. tnews.
    split; [reflexivity|]. constructor; krecs; tfin.
  - (* the synchronous read *)
    destruct (k_io s) as [| |c| |] eqn:IO; try discriminate. destruct (_ <=? _); [|discriminate]. injection ST as <-.
    destruct (k_exc s) eqn:X; [specialize (FL eq_refl); discriminate|]. assert (V := LV ltac:(auto)). destruct V as [V0 _ _ _ _ _ _]. destruct V0.
    destruct v_old as (old & pre & _ & _ & _ & P). unfold io_part in P. rewrite IO in P. destruct P as (-> & ->).
    assert (NE : k_reply s <> []) by (intros Z; rewrite IO, Z in v_r; cbn in v_r; lia).
    cbn [app]. unfold tread_body. destruct (err || negb (n =? k_rcnt s)).
    + destruct (STORE (tclose s)) as (d' & A & B); auto.
      * unfold tplaces, tcheck_part. rewrite IO. destruct (k_reply s); [congruence|discriminate].
      * exists d'. split; [exact A|]. apply B.
    + exists d. krecs. tnews. split; [reflexivity|]. constructor; krecs; rewrite ?X; tfin. intros _ _. rewrite RP by auto. unfold tplaces, tcheck_part. krecs. rewrite IO.
      destruct (k_reply s); [congruence|reflexivity].
  - (* a callback starts *)
    destruct (k_io s) eqn:IO; try discriminate. destruct (nth_error (k_rdy s) i) as [c|] eqn:NI; [|discriminate]. injection ST as <-.
    destruct (k_exc s) eqn:X.
    { exists d. unfold twrite_callback, tread_callback. destruct c; krecs; rewrite X; krecs; tnews; (split; [reflexivity|]); constructor; krecs; rewrite ?X; tfin. }
    specialize (LV ltac:(auto)). destruct LV as [V0 VB VQ VD VW VF VE]. destruct V0. destruct (tdrop_counts _ _ _ NI) as (K1 & K2).
    cbn [app]. destruct c as [err n|err n].
    + unfold twrite_callback.
      assert (DI : k_disp s <> []) by (intros Z; rewrite Z in v_s; cbn in v_s, K1; lia).
      assert (PN : tplaces s <> []).
      { unfold tplaces. intros Z. apply app_eq_nil in Z. destruct Z as (_ & Z). apply app_eq_nil in Z. destruct Z as (_ & Z). apply app_eq_nil in Z. destruct Z as (Z & _). congruence. }
      set (s1 := tput_cnt _ _ _).
      assert (E1 : k_exc s1 = false /\ k_user s1 = k_user s /\ k_tr s1 = k_tr s /\ k_fin s1 = k_fin s /\ k_reply s1 = k_reply s /\
                   k_rqueue s1 = k_rqueue s /\ k_disp s1 = k_disp s /\ k_queue s1 = k_queue s /\ k_io s1 = k_io s) by (unfold s1; krecs; auto 20).
      destruct E1 as (E1 & E2 & E3 & E4 & E5 & E6 & E7 & E8 & E9). rewrite E1. destruct (k_fin s1); cbn [negb].
      2:{ destruct (STORE s1) as (d' & A & B); auto. exists d'. split; [exact A|]. specialize (B (k_io s1)). destruct B as [B1 B2 B3]. constructor; krecs; auto. }
      destruct (err || _).
      { destruct (STORE (tclose s1)) as (d' & A & B); auto. exists d'. split; [exact A|]. specialize (B (k_io s1)). destruct B as [B1 B2 B3]. constructor; krecs; auto. }
      set (s2 := tput_disp _ _ _).
      assert (F : k_exc s2 = false /\ k_user s2 = k_user s /\ k_tr s2 = k_tr s /\ k_disp s2 = [] /\ tplaces s2 = tplaces s).
      { unfold s2, tplaces, tcheck_part. destruct (k_reply s1) as [|r rs] eqn:RE; krecs; rewrite ?E1, ?E2, ?E3, ?E6, ?E7, ?E8, ?E9, IO;
          (repeat split; auto); rewrite <- E5; rewrite ?RE.
        - rewrite v_rq by congruence. cbn [concat app]. reflexivity.
        - cbn [app]. rewrite concat_app. cbn [concat]. rewrite app_nil_r, <- !app_assoc. reflexivity. }
      destruct F as (F1 & F2 & F3 & F4 & F5). clearbody s2.
      exists d. destruct (want_write nr max s2).
      * assert (P3 := twrite_places s2 F4). destruct (twrite_other s2) as (Y1 & Y2 & c & b & Y3). rewrite Y3, F3. tnews. split; [reflexivity|].
        constructor; rewrite ?Y1, ?Y2, ?F1, ?F2; tfin. intros _ _. rewrite P3, F5. auto.
      * rewrite F3. tnews. split; [reflexivity|]. constructor; rewrite ?F1, ?F2; tfin. intros _ _. rewrite F5. auto.
    + unfold tread_callback. krecs. rewrite X.
      assert (RE : k_reply s <> []) by (intros Z; rewrite Z in v_r; cbn in v_r, K2; lia).
      assert (PN : tplaces s <> []) by (unfold tplaces, tcheck_part; rewrite IO; destruct (k_reply s); [congruence|discriminate]).
      destruct (k_fin s) eqn:FI; krecs.
      * exists d. tnews. split; [reflexivity|]. constructor; krecs; rewrite ?X; tfin. intros _ _. rewrite RP by auto. unfold tplaces, tcheck_part. krecs. rewrite IO. reflexivity.
      * destruct (STORE (tput_ops s (k_acts s) (k_actr s) (drop_nth (k_rdy s) i))) as (d' & A & B); auto. exists d'. split; [exact A|].
        specialize (B (k_io s)). destruct B as [B1 B2 B3]. constructor; krecs; auto.
  - (* the header of the reply *)
    destruct (k_io s) as [|err n| | |] eqn:IO; try discriminate. injection ST as <-.
    destruct (k_exc s) eqn:X; [specialize (FL eq_refl); discriminate|]. assert (V := LV ltac:(auto)). destruct V as [V0 _ _ _ _ _ _]. destruct V0.
    assert (NE : k_reply s <> []) by (intros Z; rewrite IO, Z in v_r; cbn in v_r; lia).
    cbn [app]. unfold tread_header. destruct (err || negb (n =? 4)).
    + destruct (STORE (tclose s)) as (d' & A & B); auto.
      * unfold tplaces, tcheck_part. rewrite IO. destruct (k_reply s); [congruence|discriminate].
      * exists d'. split; [exact A|]. apply B.
    + exists d. krecs. tnews. split; [reflexivity|]. constructor; krecs; rewrite ?X; tfin. intros _ _. rewrite RP by auto. unfold tplaces, tcheck_part. krecs. rewrite IO. reflexivity.
  - (* the check *)
    destruct (k_io s) as [| | |[|p c]|] eqn:IO; try discriminate. injection ST as <-.
    destruct (k_exc s) eqn:X; [specialize (FL eq_refl); discriminate|].
    assert (PD : d_pend d = p :: c ++ concat (k_rqueue s) ++ k_disp s ++ k_queue s) by (rewrite RP by auto; unfold tplaces, tcheck_part; rewrite IO; reflexivity).
    cbn [app]. unfold tcheck. destruct v; krecs; tnews; cbn [drun dstep]; rewrite RF, PD, Nat.eqb_refl.
    + eexists. split; [reflexivity|]. constructor; krecs; cbn [d_fail d_pend d_flush]; tfin.
      * intros _ _. unfold tplaces, tcheck_part. krecs. destruct c; reflexivity.
      * rewrite RF in RL. exact RL.
    + cbn [drun dstep d_fail]. eexists. split; [reflexivity|].
      constructor; krecs; cbn [d_fail d_pend d_flush]; tfin. destruct (k_user s); auto.
  - (* end of the callback *)
    destruct (k_io s) eqn:IO; try discriminate. injection ST as <-.
    destruct (k_exc s) eqn:X; [specialize (FL eq_refl); discriminate|]. exists d. specialize (RP ltac:(auto)).
    cbn [app]. unfold tread_end. set (s1 := match k_rqueue _ with [] => _ | _ => _ end).
    assert (E : k_exc s1 = false /\ k_user s1 = k_user s /\ k_tr s1 = k_tr s /\ tplaces s1 = tplaces s).
    { unfold s1, tplaces, tcheck_part. krecs. destruct (k_rqueue s) as [|r rq]; krecs; rewrite IO, X; repeat split; auto. cbn [concat app]. rewrite <- app_assoc. reflexivity. }
    destruct E as (E1 & E2 & E3 & E4). clearbody s1.
    set (s2 := match k_disp s1 with [] => _ | _ => _ end).
    assert (F : k_exc s2 = false /\ k_user s2 = k_user s /\ flat_map tcp_event (skipn (List.length (k_tr s)) (k_tr s2)) = [] /\ tplaces s2 = tplaces s).
    { unfold s2. destruct (k_disp s1) eqn:DI.
      2:{ rewrite E3. tnews. auto. }
      destruct (want_write nr max s1).
      2:{ rewrite E3. tnews. auto. }
      assert (P3 := twrite_places s1 DI). destruct (twrite_other s1) as (Y1 & Y2 & c & b & Y3). rewrite Y1, Y2, Y3, E3. tnews. repeat split; auto. rewrite P3. exact E4. }
    destruct F as (F1 & F2 & F3 & F4). clearbody s2.
    assert (G : forall z, k_exc z = k_exc s2 -> k_user z = k_user s2 -> k_tr z = k_tr s2 -> tplaces z = tplaces s2 ->
      drun d (flat_map tcp_event (skipn (List.length (k_tr s)) (k_tr z))) = Some d /\ trel z d).
    { intros z Z1 Z2 Z3 Z4. rewrite Z3, F3. split; [reflexivity|]. constructor; rewrite ?Z1, ?Z2, ?F1, ?F2; tfin. }
    destruct (k_disp s2), (k_reply s2); apply G; reflexivity.
Qed.

Lemma trel_init : trel init_tcp init_d.
Proof using. constructor; reflexivity. Qed.
End Rel.
