(** The UDP transport keeps the discipline of [StackProofs.v] in executions with
    quiet handlers. *)
From Coq Require Import NArith ZArith List Bool Lia PeanoNat ZifyBool ZifyNat ZifyN.
From Verif Require Import Word.
From Verif Require Client Validate System Net Stack StackProofs.
From Verif Require Import Udp UdpProofs.
Import Stack StackProofs.
Import ListNotations.
Open Scope N_scope.
Ltac Zify.zify_post_hook ::= Z.div_mod_to_equations.

(** Packets in the transport, oldest first. *)
Definition places (s : ust) : list pkt := unread s ++ u_rqueue s ++ olist (u_disp s) ++ u_queue s.

Definition in_handler (u : upc) : bool := match u with UH3 | UH4 => true | _ => false end.

Record urel (s : ust) (d : dst) : Prop := {
  r_fail : in_handler (u_user s) = false -> d_fail d = u_exc s;
  r_pend : in_handler (u_user s) = false -> u_exc s = false -> d_pend d = places s;
  r_flush : match u_user s with
            | UIdle => d_flush d = false
            | UWait | UWake => d_flush d = true
            | _ => d_flush d = true -> d_fail d = true
            end
}.

Lemma skipn_new {A} (l r : list A) : skipn (List.length l) (l ++ r) = r.
Proof. induction l; cbn; auto. Qed.
Lemma skipn_same {A} (l : list A) : skipn (List.length l) l = [].
Proof. induction l; cbn; auto. Qed.

Ltac news := rewrite <- ?app_assoc; cbn [app]; rewrite ?skipn_new, ?skipn_same; cbn [flat_map udp_event app].

(** Closing the simple goals. *)
Ltac fin := try solve [auto|discriminate|congruence|intros; congruence].

Lemma urel_step max zero s l s' d : 1 <= max -> uinv max s (since_throw (u_tr s)) -> urel s d ->
  ustep max zero s l = Some s' -> (l = LHandler -> u_user s = UH2 -> quiet s) ->
  exists d', drun d (udp_passes s l s') = Some d' /\ urel s' d'.
Proof.
  intros MX W R ST QH.
  destruct (in_handler (u_user s)) eqn:IH.
  { (* the handler has cleared the exception *)
    assert (U : u_user s = UH3 \/ u_user s = UH4) by (destruct (u_user s); try discriminate; auto).
    assert (Q : quiet s) by (assert (M := w_mode _ _ _ W); unfold mode in M; destruct U as [U|U]; rewrite U in M; tauto).
    assert (DEC : l = LHandler \/ l <> LHandler) by (destruct l; auto; right; discriminate).
    destruct DEC as [->|NL].
    - unfold ustep in ST. rewrite (w_ub _ _ _ W) in ST. destruct R as [RF RP RL]. destruct U as [U|U]; rewrite U in *; injection ST as <-.
      + exists d. unfold udp_passes, handler. rewrite U. recs. news. split; [reflexivity|]. constructor; recs; try discriminate. exact RL.
      + unfold udp_passes, handler. rewrite U. recs. news. cbn [drun dstep].
        replace (d_flush d && negb (d_fail d)) with false by (destruct (d_flush d); [rewrite RL by reflexivity|]; reflexivity).
        eexists. split; [reflexivity|]. assert (M := w_mode _ _ _ W). unfold mode in M. rewrite U in M. destruct M as (X & (_ & _ & _ & IO) & _ & Q1 & Q2 & _).
        constructor; recs; cbn [d_fail d_pend d_flush]; auto. intros _ _. unfold places, unread. recs. rewrite Q1, Q2, IO. reflexivity.
    - destruct (quiet_kept max s l s' zero Q U ST NL) as (-> & ->). exists d. unfold udp_passes, check_deadline. recs. news.
      split; [reflexivity|]. destruct R as [RF RP RL]. constructor; recs; rewrite ?IH; try discriminate. exact RL. }
  destruct R as [RF RP RL]. specialize (RF IH). specialize (RP IH).
  assert (M := w_mode _ _ _ W). unfold mode in M.
  assert (LV : u_exc s = false -> live max s (since_throw (u_tr s))) by (intros X; destruct (u_user s); try discriminate; rewrite X in M; exact M).
  assert (FL : u_exc s = true -> u_io s = IOIdle \/ u_io s = IOChecked) by (intros X; destruct (u_user s); try discriminate; rewrite X in M; tauto).
  clear M.
  unfold ustep in ST. rewrite (w_ub _ _ _ W) in ST. unfold udp_passes. destruct l as [p| | | | | |ok|dg| | |i|v|].
  - (* implementDispatch *)
    destruct (u_user s) eqn:U; try discriminate. injection ST as <-. destruct (u_exc s) eqn:X.
    + exists d. recs. news. split; [reflexivity|]. constructor; recs; fin.
    + unfold implement_dispatch. recs. destruct (u_disp s) as [q|] eqn:DI; [|destruct (u_infl s =? max) eqn:IM]; recs; news; cbn [drun dstep]; rewrite RF, ?X, RL; cbn [orb];
        (eexists; split; [reflexivity|]); (constructor; recs; cbn [d_fail d_pend d_flush]; rewrite ?X, ?U; auto; try discriminate; intros _ _; rewrite RP by auto; unfold places, unread; recs; rewrite ?DI; cbn [olist]; rewrite <- ?app_assoc; cbn [app]; try reflexivity).
      assert (Q : u_queue s = []).
      { destruct (v_q _ _ _ (LV ltac:(auto)) DI) as [Q|Q]; [exact Q|]. lia. }
      rewrite Q. reflexivity.
  - (* connect fails *)
    destruct (u_user s) eqn:U, (u_exc s) eqn:X, (u_open s); try discriminate. injection ST as <-.
    exists d. recs. news. split; [reflexivity|]. constructor; recs; rewrite ?X; fin.
  - (* Flush *)
    destruct (u_user s) eqn:U; try discriminate. injection ST as <-. recs. news. cbn [drun dstep]. rewrite RL.
    eexists. split; [reflexivity|]. constructor; recs; cbn [d_fail d_pend d_flush]; fin.
  - (* woken *)
    destruct (u_user s) eqn:U; try discriminate. destruct (u_done s); [|discriminate]. injection ST as <-. exists d. recs. news.
    split; [reflexivity|]. constructor; recs; fin.
  - (* end of Flush *)
    destruct (u_user s) eqn:U; try discriminate. injection ST as <-. destruct (u_exc s) eqn:X.
    + exists d. recs. news. split; [reflexivity|]. constructor; recs; rewrite ?X; fin.
    + recs. news. cbn [drun dstep]. rewrite RF, RL, ?X, RP by auto.
      assert (V := LV ltac:(auto)). destruct V as [V0 VQ VD VW]. destruct (proj1 VD (VW U)) as (D1 & D2). destruct V0.
      assert (Q1 : u_rqueue s = []) by auto.
      assert (Q2 : u_queue s = []) by (destruct (VQ D1) as [Q|Q]; [exact Q|]; rewrite D1, D2, Q1 in v_infl; cbn in v_infl; lia).
      assert (P : places s = []) by (unfold places, unread; rewrite D1, D2, Q1, Q2; destruct (u_io s); reflexivity).
      rewrite P. eexists. split; [reflexivity|]. constructor; recs; cbn [d_fail d_pend d_flush]; fin.
  - (* the handler up to the point where the exception is cleared *)
    destruct (u_user s) eqn:U; try discriminate; injection ST as <-; unfold handler; rewrite U.
    + exists d. destruct (u_open s); recs; news; (split; [reflexivity|]); constructor; recs; fin.
    + exists d. recs. news. split; [reflexivity|]. constructor; recs; try discriminate. exact RL.
  - (* send completes *)
    destruct (u_acts s); [discriminate|]. injection ST as <-. exists d. recs. news. split; [reflexivity|]. constructor; recs; fin.
  - (* datagram *)
    destruct (u_actr s); [discriminate|]. destruct (u_open s); [|discriminate]. injection ST as <-. exists d. recs. news. split; [reflexivity|]. constructor; recs; fin.
  - (* receive fails *)
    destruct (u_actr s); [discriminate|]. injection ST as <-. exists d. recs. news. split; [reflexivity|]. constructor; recs; fin.
  - (* deadline *)
    destruct (u_io s) eqn:IO; try discriminate. destruct (u_fin s); [|discriminate]. injection ST as <-. unfold check_deadline. exists d. recs. news.
    split; [reflexivity|]. constructor; recs; fin.
  - (* a callback starts *)
    destruct (u_io s) eqn:IO; try discriminate. destruct (nth_error (u_rdy s) i) as [c|] eqn:NI; [|discriminate]. injection ST as <-.
    destruct (u_exc s) eqn:X.
    { exists d. unfold write_callback, read_callback. destruct c; recs; rewrite X; recs; news; (split; [reflexivity|]); constructor; recs; rewrite ?X; fin. }
    specialize (LV ltac:(auto)). destruct LV as [V0 VQ VD VW]. destruct V0. destruct (drop_counts _ _ _ NI) as (K1 & K2 & _).
    destruct c as [ok|err].
    + unfold write_callback. recs. rewrite X.
      assert (DI : exists p, u_disp s = Some p) by (destruct (u_disp s); [eauto|]; cbn in v_s, K1; lia). destruct DI as (p & DI).
      assert (PN : d_pend d <> []) by (rewrite RP by auto; unfold places; rewrite DI; cbn [olist]; intros Z; apply app_eq_nil in Z; destruct Z as (_ & Z); apply app_eq_nil in Z; destruct Z as (_ & Z); discriminate).
      destruct (u_fin s) eqn:FI; recs.
      2:{ news. cbn [drun dstep]. rewrite RF, ?X. destruct (d_pend d) as [|x y] eqn:DP; [congruence|]. eexists. split; [reflexivity|].
          constructor; recs; cbn [d_fail d_pend d_flush]; fin. destruct (u_user s); auto. }
      rewrite DI. destruct ok; recs.
      2:{ news. cbn [drun dstep]. rewrite RF, ?X. destruct (d_pend d) as [|x y] eqn:DP; [congruence|]. eexists. split; [reflexivity|].
          constructor; recs; cbn [d_fail d_pend d_flush]; fin. destruct (u_user s); auto. }
      exists d. destruct (u_reply s) as [r|] eqn:RE; recs; destruct (u_queue s) as [|p' q] eqn:QU; recs;
        try destruct (u_infl s =? max); recs; news; (split; [reflexivity|]);
        (constructor; recs; rewrite ?X; auto; intros _ _; rewrite RP by auto; unfold places, unread; recs; rewrite ?IO, ?RE, ?DI, ?QU; cbn [olist]; rewrite <- ?app_assoc; cbn [app]; try reflexivity; rewrite v_rq by reflexivity; reflexivity).
    + unfold read_callback. recs. rewrite X.
      assert (RE : exists p, u_reply s = Some p) by (destruct (u_reply s); [eauto|]; rewrite IO in v_r; cbn in v_r, K2; lia). destruct RE as (p & RE).
      assert (PN : d_pend d <> []) by (rewrite RP by auto; unfold places, unread; rewrite IO, RE; discriminate).
      destruct (u_fin s) eqn:FI; recs.
      * exists d. news. split; [reflexivity|]. constructor; recs; rewrite ?X; fin. intros _ _. rewrite RP by auto. unfold places, unread. recs. rewrite IO. reflexivity.
      * news. cbn [drun dstep]. rewrite RF, ?X. destruct (d_pend d) as [|x y] eqn:DP; [congruence|]. eexists. split; [reflexivity|].
          constructor; recs; cbn [d_fail d_pend d_flush]; fin. destruct (u_user s); auto.
  - (* the check *)
    destruct (u_io s) eqn:IO; try discriminate. injection ST as <-. destruct (u_exc s) eqn:X; [destruct (FL ltac:(auto)); congruence|].
    specialize (LV ltac:(auto)). destruct LV as [V0 VQ VD VW]. destruct V0.
    assert (RE : exists p, u_reply s = Some p) by (destruct (u_reply s); [eauto|]; rewrite IO in v_r; cbn in v_r; lia). destruct RE as (p & RE).
    assert (PD : d_pend d = p :: u_rqueue s ++ olist (u_disp s) ++ u_queue s) by (rewrite RP by auto; unfold places, unread; rewrite IO, RE; reflexivity).
    unfold read_middle. rewrite RE. destruct err; recs.
    + news. cbn [drun dstep]. rewrite RF, ?X, PD. eexists. split; [reflexivity|].
      constructor; recs; cbn [d_fail d_pend d_flush]; fin. destruct (u_user s); auto.
    + destruct v; recs; news; cbn [drun dstep]; rewrite RF, ?X, PD, Nat.eqb_refl.
      * eexists. split; [reflexivity|]. constructor; recs; cbn [d_fail d_pend d_flush]; fin.
        rewrite RF in RL. exact RL.
      * cbn [drun dstep d_fail]. eexists. split; [reflexivity|].
        constructor; recs; cbn [d_fail d_pend d_flush]; fin. destruct (u_user s); auto.
  - (* end of the callback *)
    destruct (u_io s) eqn:IO; try discriminate. injection ST as <-. unfold read_end. recs. destruct (u_exc s) eqn:X.
    { exists d. recs. news. split; [reflexivity|]. constructor; recs; rewrite ?X; fin. }
    exists d. specialize (RP ltac:(auto)). unfold places, unread in RP. rewrite IO in RP. cbn [app] in RP.
    destruct (u_rqueue s) as [|r rq] eqn:RQ; recs; (destruct (u_disp s) as [p|] eqn:DI; [|destruct (u_queue s) as [|q qs] eqn:QU; [|destruct (sub32 (u_infl s) 1 =? max)]]); recs; rewrite ?DI; recs; news;
      (split; [reflexivity|]); (constructor; recs; rewrite ?X; auto; intros _ _; rewrite RP; unfold places, unread; recs; rewrite ?DI, ?QU; reflexivity).
Qed.

Lemma urel_init : urel init_udp init_d.
Proof. constructor; reflexivity. Qed.
