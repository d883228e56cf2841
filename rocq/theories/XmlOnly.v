(** The converse of XmlRound3: what the parser of Xml.v accepts is a file of
    the coarse grammar of XmlSpec, with the names it has reported. *)
From Coq Require Import NArith ZArith List Bool Arith Lia ZifyBool ZifyNat ZifyN.
From Verif Require Import Xml XmlSpec XmlProofs XmlRound XmlRound2 XmlRound3.
Import ListNotations.
Open Scope N_scope.

(** ** If there is a result *)

Definition ret {A} (P : A -> Prop) (m : res A) : Prop := match m with Val a => P a | _ => True end.

Lemma ret_bind {A B} (P : A -> Prop) (Q : B -> Prop) m f :
  ret P m -> (forall a, P a -> ret Q (f a)) -> ret Q (bind m f).
Proof. destruct m; cbn; auto. Qed.

Lemma ret_imp {A} (P Q : A -> Prop) m : ret P m -> (forall a, P a -> Q a) -> ret Q m.
Proof. destruct m; cbn; auto. Qed.

Lemma ret_and {A} (P Q : A -> Prop) m : ret P m -> ret Q m -> ret (fun a => P a /\ Q a) m.
Proof. destruct m; cbn; auto. Qed.

Lemma ret_safe {A} L (P : A -> Prop) m : safe L P m -> ret P m.
Proof. destruct m; cbn; auto. Qed.

Lemma ret_rd b s : ret (fun c => nth_error b s = Some c) (rd b s).
Proof. unfold rd. destruct (nth_error b s); cbn; auto. Qed.

Lemma ret_wr b s v : ret (fun b' => b' = upd b s v /\ (s < length b)%nat) (wr b s v).
Proof. unfold wr. destruct (Nat.ltb_spec s (length b)); cbn; auto. Qed.

(** ** Stretches of a buffer *)

Definition run (b : bytes) (P : N -> Prop) (i j : nat) : Prop :=
  forall k c, (i <= k < j)%nat -> nth_error b k = Some c -> P c.

Lemma run_nil b P i j : (j <= i)%nat -> run b P i j.
Proof. intros H k c K. lia. Qed.

Lemma run_app b P i j k : run b P i j -> run b P j k -> run b P i k.
Proof. intros A B m c M E. destruct (Nat.lt_ge_cases m j); [apply (A m c)|apply (B m c)]; auto; lia. Qed.

Lemma run_one b (P : N -> Prop) i c : nth_error b i = Some c -> P c -> run b P i (S i).
Proof. intros E H k d K D. assert (k = i) as -> by lia. congruence. Qed.

Lemma run_imp b (P Q : N -> Prop) i j : run b P i j -> (forall c, P c -> Q c) -> run b Q i j.
Proof. intros A H k c K E. eapply H, A; eauto. Qed.

Lemma run_slice b P i j : run b P i j -> Forall P (slice b i j).
Proof.
  intros H. apply Forall_forall. intros c I. apply In_nth_error in I. destruct I as (k & E).
  rewrite slice_nth in E. destruct (Nat.ltb_spec k (j - i)); [|discriminate].
  apply (H (i + k)%nat c); [lia|exact E].
Qed.

Lemma scan_ret p b : forall n s,
  ret (fun s' => (s <= s')%nat /\ run b (fun c => p c = true) s s' /\
                 exists c, nth_error b s' = Some c /\ p c = false) (scan_while n p b s).
Proof.
  induction n as [|n IH]; intros s; cbn [scan_while]; [exact I|].
  eapply ret_bind; [apply ret_rd|]. intros c E. cbn beta. destruct (p c) eqn:PC.
  - eapply ret_imp; [apply IH|]. intros s' (A & B & C). split; [lia|]. split; [|exact C].
    eapply run_app; [eapply run_one; [exact E|exact PC]|exact B].
  - cbn. split; [lia|]. split; [apply run_nil; lia|]. exists c. split; [exact E|exact PC].
Qed.

Lemma skip_ret b s : ret (fun s' => (s <= s')%nat /\ run b (fun c => is_type ct_space c = true) s s' /\
                 exists c, nth_error b s' = Some c /\ is_type ct_space c = false) (skip_ws b s).
Proof. apply scan_ret. Qed.

(** ** References *)

Definition good (c : N) : Prop := c <> 34 /\ c <> 39 /\ c <> 60.

Lemma good_list l : forallb (fun c => negb ((c =? 34) || (c =? 39) || (c =? 60))) l = true -> Forall good l.
Proof. intros H. apply Forall_forall. intros x X. rewrite forallb_forall in H. specialize (H x X). unfold good. lia. Qed.

Lemma chain_ret b : forall l i, Forall good l ->
  ret (fun '(m, i') => (i <= i')%nat /\ run b good (S i) (if (m : bool) then S i' else i')) (chain b i l).
Proof.
  induction l as [|c l IH]; intros i G; cbn [chain].
  - cbn. split; [lia|apply run_nil; lia].
  - inversion G as [|? ? G1 G2]; subst. eapply ret_bind; [apply ret_rd|]. intros x E. cbn beta.
    destruct (N.eqb_spec x c) as [->|D].
    + eapply ret_imp; [apply IH; exact G2|]. intros [m i'] (A & B). split; [lia|].
      eapply run_app; [eapply run_one; [exact E|exact G1]|exact B].
    + cbn. split; [lia|apply run_nil; lia].
Qed.

Lemma hexes_ret b : forall n i u, ret (fun '(_, i') => (i <= i')%nat /\ run b good i i') (hexes n b i u).
Proof.
  induction n as [|n IH]; intros i u; cbn [hexes]; [exact I|].
  eapply ret_bind; [apply ret_rd|]. intros ch E. cbn beta.
  assert (forall u', good ch -> ret (fun '(_, i') => (i <= i')%nat /\ run b good i i') (hexes n b (S i) u')) as STEP.
  { intros u' G. eapply ret_imp; [apply IH|]. intros [o i'] (A & B). split; [lia|].
    eapply run_app; [eapply run_one; [exact E|exact G]|exact B]. }
  destruct ((48 <=? ch) && (ch <=? 57)) eqn:D; [apply STEP; unfold good; lia|].
  destruct ((97 <=? N.lor ch 32) && (N.lor ch 32 <=? 102)) eqn:X.
  { apply STEP. unfold good. repeat split; intros ->; vm_compute in X; discriminate. }
  destruct (N.eqb_spec ch 59) as [->|N].
  - cbn. split; [lia|]. eapply run_one; [exact E|]. unfold good. lia.
  - cbn. split; [lia|apply run_nil; lia].
Qed.

Lemma decs_ret b : forall n i u, ret (fun '(_, i') => (i <= i')%nat /\ run b good i i') (decs n b i u).
Proof.
  induction n as [|n IH]; intros i u; cbn [decs]; [exact I|].
  eapply ret_bind; [apply ret_rd|]. intros ch E. cbn beta.
  destruct ((48 <=? ch) && (ch <=? 57)) eqn:D.
  { eapply ret_imp; [apply IH|]. intros [o i'] (A & B). split; [lia|].
    eapply run_app; [eapply run_one; [exact E|unfold good; lia]|exact B]. }
  destruct (N.eqb_spec ch 59) as [->|N].
  - cbn. split; [lia|]. eapply run_one; [exact E|]. unfold good. lia.
  - cbn. split; [lia|apply run_nil; lia].
Qed.

Lemma replaced_ret b g s stre l : ret (fun '(_, _, s') => s' = stre) (replaced b g s stre l).
Proof.
  unfold replaced. eapply ret_bind with (P := fun _ => True); [destruct (wrs b s l); exact I|].
  intros [b1 s1] _. cbn beta iota. destruct (s1 <=? stre)%nat; [|exact I].
  eapply ret_bind with (P := fun _ => True); [destruct (push b1 g s1 (stre - s1)); exact I|].
  intros [[b2 g2] s2] _. cbn. reflexivity.
Qed.

Lemma named_ret b g s i l c : Forall good l -> (s <= i)%nat -> run b good s (S i) ->
  ret (fun '(_, _, s') => (s <= s')%nat /\ run b good s s') (named b g s i l c).
Proof.
  intros G H R. unfold named. eapply ret_bind; [apply chain_ret; exact G|].
  intros [m i'] (A & B). cbn beta iota. destruct m.
  - eapply ret_imp; [apply replaced_ret|]. intros [[b' g'] s'] ->. split; [lia|].
    eapply run_app; [exact R|exact B].
  - cbn. split; [lia|]. destruct (Nat.eq_dec i i') as [->|NE]; [eapply run_app; [|apply (run_nil b good i' i'); lia]; intros k x K; apply R; lia|].
    eapply run_app; [exact R|exact B].
Qed.

Lemma escape_ret b g s : nth_error b s = Some 38 ->
  ret (fun '(_, _, s') => (s <= s')%nat /\ run b good s s') (escape b g s).
Proof.
  intros E. unfold escape. eapply ret_bind; [apply ret_rd|]. intros c Ec. cbn beta.
  assert (run b good s (S s)) as R1 by (eapply run_one; [exact E|unfold good; lia]).
  assert (good c -> run b good s (S (S s))) as R2
    by (intros G; eapply run_app; [exact R1|]; eapply run_one; [exact Ec|exact G]).
  destruct (N.eqb_spec c 35) as [->|_].
  { specialize (R2 ltac:(unfold good; lia)). eapply ret_bind; [apply ret_rd|]. intros x Ex. cbn beta.
    destruct (N.eqb_spec x 120) as [->|_].
    - assert (run b good s (S (S (S s)))) as R3
        by (eapply run_app; [exact R2|]; eapply run_one; [exact Ex|unfold good; lia]).
      eapply ret_bind; [apply ret_rd|]. intros ch Eh. cbn beta.
      destruct (ch =? 59); [cbn; split; [lia|exact R3]|].
      eapply ret_bind; [apply hexes_ret|]. intros [[u|] i] (A & B); cbn beta iota.
      + eapply ret_imp; [apply replaced_ret|]. intros [[b' g'] s'] ->. split; [lia|eapply run_app; eassumption].
      + cbn. split; [lia|eapply run_app; eassumption].
    - destruct (x =? 59); [cbn; split; [lia|exact R2]|].
      eapply ret_bind; [apply decs_ret|]. intros [[u|] i] (A & B); cbn beta iota.
      + eapply ret_imp; [apply replaced_ret|]. intros [[b' g'] s'] ->. split; [lia|eapply run_app; eassumption].
      + cbn. split; [lia|eapply run_app; eassumption]. }
  destruct (N.eqb_spec c 97) as [->|_].
  { specialize (R2 ltac:(unfold good; lia)). eapply ret_bind; [apply ret_rd|]. intros x Ex. cbn beta.
    assert (good x -> run b good s (S (S (S s)))) as R3
      by (intros G; eapply run_app; [exact R2|]; eapply run_one; [exact Ex|exact G]).
    destruct (N.eqb_spec x 109) as [->|_]; [apply named_ret; [now apply good_list|lia|apply R3; unfold good; lia]|].
    destruct (N.eqb_spec x 112) as [->|_]; [apply named_ret; [now apply good_list|lia|apply R3; unfold good; lia]|].
    cbn. split; [lia|exact R2]. }
  destruct (N.eqb_spec c 103) as [->|_]; [apply named_ret; [now apply good_list|lia|apply R2; unfold good; lia]|].
  destruct (N.eqb_spec c 108) as [->|_]; [apply named_ret; [now apply good_list|lia|apply R2; unfold good; lia]|].
  destruct (N.eqb_spec c 113) as [->|_]; [apply named_ret; [now apply good_list|lia|apply R2; unfold good; lia]|].
  cbn. split; [lia|exact R1].
Qed.

(** ** The file and the buffer *)

Section Only.
Variable F : bytes.
Variable endch : N.
Let L := length F.
Hypothesis NZF : forall k c, (k < L - 1)%nat -> nth_error F k = Some c -> c <> 0.
Hypothesis LASTF : nth_error F (L - 1) = Some endch.

(** from [s] on, the buffer is as the file, but the last byte is zero *)
Definition orig (b : bytes) (s : nat) : Prop :=
  okb L b /\ forall i, (s <= i < L - 1)%nat -> nth_error b i = nth_error F i.

Lemma orig_nz b s i c : orig b s -> (s <= i)%nat -> nth_error b i = Some c -> c <> 0 ->
  nth_error F i = Some c /\ (i < L - 1)%nat.
Proof.
  intros (O & H) S E N. pose proof (okb_next L b i c O E N). split; [|lia]. rewrite <- H by lia. exact E.
Qed.

Lemma orig_z b s i : orig b s -> (s <= i)%nat -> nth_error b i = Some 0 -> i = (L - 1)%nat.
Proof.
  intros (O & H) S E. assert (i < L)%nat by (destruct O as (<- & _); apply nth_error_Some; congruence).
  destruct (Nat.eq_dec i (L - 1)) as [|N]; [assumption|]. rewrite H in E by lia. apply NZF in E; [congruence|lia].
Qed.

Lemma orig_more b s s' : orig b s -> (s <= s')%nat -> orig b s'.
Proof. intros (O & H) S. split; [exact O|]. intros i I. apply H. lia. Qed.

Lemma orig_chg b b' s s' lo hi : orig b s -> okb L b' -> chg lo hi b b' -> (s <= s')%nat -> (hi <= s')%nat -> orig b' s'.
Proof.
  intros (O & H) O' (_ & C) S K. split; [exact O'|]. intros i I. rewrite C by lia. apply H. lia.
Qed.

Lemma orig_run b P s i j : orig b s -> run b P i j -> (s <= i)%nat -> (j < L)%nat -> run F P i j.
Proof. intros (O & H) R S J k c K E. apply (R k c K). rewrite H by lia. exact E. Qed.

Lemma below b s c : okb L b -> nth_error b s = Some c -> (s < L)%nat.
Proof. intros (<- & _) E. apply nth_error_Some. congruence. Qed.

(** *** Values of attributes *)
Lemma attr_ret q v : q = 34 \/ q = 39 -> forall n b g s, orig b s -> gapok v s g ->
  ret (fun '(o, b') =>
         match o with
         | Some s' => (s < s')%nat /\ orig b' s' /\ chg v s' b b' /\ (s' < L)%nat /\
                      run F (fun c => c <> q) s (s' - 1) /\ nth_error F (s' - 1) = Some q /\
                      exists e, (v <= e < s')%nat /\ nth_error b' e = Some 0
         | None => True
         end) (attr_conv n b g s q).
Proof.
  intros Q. induction n as [|n IH]; intros b g s O G; cbn [attr_conv]; [exact I|].
  eapply ret_bind; [apply scan_ret|]. intros s1 (A & R & c1 & E & _). cbn beta.
  rewrite (rd_ok b s1 c1 E). cbn [bind].
  pose proof (proj1 O) as OB. pose proof (below _ _ _ OB E) as S1L.
  assert (length b = L) as LB by apply OB.
  assert (gapok v s1 g) as G1 by (now apply (gapok_more v s); [|lia]).
  assert (v <= s1)%nat as V1 by apply G1.
  assert (run F (fun c => c <> q) s s1) as RF.
  { eapply orig_run; [exact O| |lia|lia]. eapply run_imp; [exact R|]. intros c H. cbn beta in H.
    rewrite type_attr in H. unfold attrb in H. lia. }
  assert (forall b' g' s', okb L b' -> gapok v s' g' -> (s1 < s' < L)%nat -> chg v s' b b' ->
            run F (fun c => c <> q) s1 s' ->
            ret (fun '(o, b'') =>
              match o with
              | Some s'' => (s < s'')%nat /\ orig b'' s'' /\ chg v s'' b b'' /\ (s'' < L)%nat /\
                      run F (fun c => c <> q) s (s'' - 1) /\ nth_error F (s'' - 1) = Some q /\
                      exists e, (v <= e < s'')%nat /\ nth_error b'' e = Some 0
              | None => True
              end) (attr_conv n b' g' s' q)) as STEP.
  { intros b' g' s' O' G' H' C' R'. eapply ret_imp; [apply (IH b' g' s'); [eapply orig_chg; [exact O|exact O'|exact C'|lia|lia]|exact G']|].
    intros [[s''|] b'']; [|auto]. intros (A1 & A2 & A3 & A4 & A5 & A6 & A7).
    split; [lia|]. split; [exact A2|]. split; [eapply chg_trans; [eapply chg_weaken; [exact C'|lia|lia]|exact A3]|].
    split; [exact A4|]. split; [|auto]. eapply run_app; [exact RF|]. eapply run_app; [exact R'|exact A5]. }
  destruct (N.eqb_spec c1 q) as [->|NQ].
  { pose proof (okb_next L b s1 q OB E ltac:(lia)) as N1.
    destruct (flush_end L b g v s1 OB G1 N1) as (b1 & e & EF & V & W & O1 & C1). rewrite EF.
    cbn [bind]. rewrite W. cbn [bind ret]. split; [lia|]. split; [eapply orig_chg; [exact O|exact O1|exact C1|lia|lia]|].
    split; [exact C1|]. split; [lia|]. replace (S s1 - 1)%nat with s1 by lia. split; [exact RF|].
    split; [eapply orig_nz; [exact O| |exact E|]; lia|]. exists e. split; [lia|]. apply upd_eq.
    destruct (flush_ok b g v s1 G1 ltac:(lia)) as (b2 & e2 & EF2 & (LC & _) & V2 & _). rewrite EF in EF2. injection EF2 as <- <-. lia. }
  assert (c1 <> 0 -> run F (fun c => c <> q) s1 (S s1)) as R1.
  { intros N0. eapply run_one; [eapply orig_nz; [exact O| |exact E|exact N0]; lia|exact NQ]. }
  destruct (is_type ct_space c1) eqn:SP.
  { assert (c1 <> 0) as N0 by (intros ->; discriminate).
    pose proof (okb_next L b s1 c1 OB E N0) as N1.
    pose proof (okb_upd L b s1 32 OB N1) as O2.
    pose proof (chg_upd b s1 32 ltac:(lia)) as C2.
    destruct (c1 =? 13).
    - rewrite (wr_ok b s1 32) by lia. cbn [bind].
      eapply ret_bind; [apply ret_rd|]. intros d Ed. cbn beta.
      destruct (N.eqb_spec d 10) as [->|ND].
      + pose proof (okb_next L _ _ _ O2 Ed ltac:(lia)) as N2.
        assert (nth_error b (S s1) = Some 10) as Ed' by (rewrite upd_neq in Ed by lia; exact Ed).
        destruct (push_ok (upd b s1 32) g v (S s1) 1) as (b3 & g3 & -> & C3 & G3 & _).
        * now apply (gapok_more v s1); [|lia].
        * destruct O2 as (-> & _). lia.
        * cbn [bind]. apply STEP; [|exact G3|lia| |].
          -- eapply okb_chg; [exact O2|exact C3|lia].
          -- eapply chg_trans; [eapply chg_weaken; [exact C2|lia|lia]|].
             eapply chg_weaken; [exact C3|lia|lia].
          -- eapply run_app; [apply R1; exact N0|]. replace (S s1 + 1)%nat with (S (S s1)) by lia.
             eapply run_one; [eapply orig_nz; [exact O| |exact Ed'|]; lia|lia].
      + apply STEP; [exact O2| |lia| |apply R1; exact N0].
        * now apply (gapok_more v s1); [|lia].
        * eapply chg_weaken; [exact C2|lia|lia].
    - rewrite (wr_ok b s1 32) by lia. cbn [bind].
      apply STEP; [exact O2| |lia| |apply R1; exact N0].
      + now apply (gapok_more v s1); [|lia].
      + eapply chg_weaken; [exact C2|lia|lia]. }
  destruct (N.eqb_spec c1 38) as [->|NA].
  { eapply ret_bind; [apply ret_and; [apply (escape_ret b g s1 E)|apply (ret_safe L), (escape_safe L b g v s1 OB G1 E)]|].
    intros [[b3 g3] s3] ((A3 & R3) & O3 & G3 & H3 & C3). cbn beta iota. apply STEP; auto.
    eapply orig_run; [exact O| |lia|lia]. eapply run_imp; [exact R3|]. unfold good. intros c H. lia. }
  destruct (N.eqb_spec c1 0) as [->|NZ].
  { cbn. exact I. }
  pose proof (okb_next L b s1 c1 OB E NZ) as N1.
  apply STEP; [exact OB| |lia|apply chg_refl|auto]. now apply (gapok_more v s1); [|lia].
Qed.

(** *** Texts *)
Lemma pcdata_ret v : forall n b g s, orig b s -> gapok v s g ->
  ret (fun '(b', s') => orig b' s' /\ (s <= s' < L)%nat /\ chg v s' b b' /\
         (exists e, (v <= e)%nat /\ nth_error b' e = Some 0 /\ (e < s' \/ e = s')%nat) /\
         ((s < s')%nat /\ run F (fun c => c <> 60) s (s' - 1) /\ nth_error F (s' - 1) = Some 60 /\ (exists e, (v <= e < s')%nat /\ nth_error b' e = Some 0) \/
          nth_error b' s' = Some 0 /\ run F (fun c => c <> 60) s s'))
      (pcdata_conv n b g s).
Proof.
  induction n as [|n IH]; intros b g s O G; cbn [pcdata_conv]; [exact I|].
  eapply ret_bind; [apply scan_ret|]. intros s1 (A & R & c1 & E & _). cbn beta.
  rewrite (rd_ok b s1 c1 E). cbn [bind].
  pose proof (proj1 O) as OB. pose proof (below _ _ _ OB E) as S1L.
  assert (length b = L) as LB by apply OB.
  assert (gapok v s1 g) as G1 by (now apply (gapok_more v s); [|lia]).
  assert (v <= s1)%nat as V1 by apply G1.
  assert (run F (fun c => c <> 60) s s1) as RF.
  { eapply orig_run; [exact O| |lia|lia]. eapply run_imp; [exact R|]. intros c H. cbn beta in H.
    rewrite type_pcdata in H. unfold pcdatab in H. lia. }
  assert (forall b' g' s', okb L b' -> gapok v s' g' -> (s1 < s' < L)%nat -> chg v s' b b' ->
            run F (fun c => c <> 60) s1 s' ->
            ret (fun '(b'', s'') => orig b'' s'' /\ (s <= s'' < L)%nat /\ chg v s'' b b'' /\
         (exists e, (v <= e)%nat /\ nth_error b'' e = Some 0 /\ (e < s'' \/ e = s'')%nat) /\
         ((s < s'')%nat /\ run F (fun c => c <> 60) s (s'' - 1) /\ nth_error F (s'' - 1) = Some 60 /\ (exists e, (v <= e < s'')%nat /\ nth_error b'' e = Some 0) \/
          nth_error b'' s'' = Some 0 /\ run F (fun c => c <> 60) s s''))
              (pcdata_conv n b' g' s')) as STEP.
  { intros b' g' s' O' G' H' C' R'. eapply ret_imp; [apply (IH b' g' s'); [eapply orig_chg; [exact O|exact O'|exact C'|lia|lia]|exact G']|].
    intros [b'' s''] (A1 & A2 & A3 & A4 & A5).
    split; [exact A1|]. split; [lia|]. split; [eapply chg_trans; [eapply chg_weaken; [exact C'|lia|lia]|exact A3]|].
    split; [exact A4|]. destruct A5 as [(B0 & B1 & B2 & B3)|(B1 & B2)]; [left|right].
    - split; [lia|]. split; [|split; [exact B2|exact B3]]. eapply run_app; [exact RF|]. eapply run_app; [exact R'|exact B1].
    - split; [exact B1|]. eapply run_app; [exact RF|]. eapply run_app; [exact R'|exact B2]. }
  destruct (N.eqb_spec c1 60) as [->|NQ].
  { pose proof (okb_next L b s1 60 OB E ltac:(lia)) as N1.
    destruct (flush_end L b g v s1 OB G1 N1) as (b1 & e & EF & V & W & O1 & C1). rewrite EF.
    assert (length b1 = L) as L1.
    { destruct (flush_ok b g v s1 G1 ltac:(lia)) as (b2 & e2 & EF2 & (LC & _) & V2 & _). rewrite EF in EF2. injection EF2 as <- <-. lia. }
    cbn [bind]. rewrite W. cbn [bind ret]. split; [eapply orig_chg; [exact O|exact O1|exact C1|lia|lia]|].
    split; [lia|]. split; [exact C1|].
    assert (nth_error (upd b1 e 0) e = Some 0) as EZ by (apply upd_eq; lia).
    split; [exists e; split; [lia|]; split; [exact EZ|lia]|]. left. split; [lia|].
    replace (S s1 - 1)%nat with s1 by lia. split; [exact RF|].
    split; [eapply orig_nz; [exact O| |exact E|]; lia|]. exists e. split; [lia|exact EZ]. }
  assert (c1 <> 0 -> run F (fun c => c <> 60) s1 (S s1)) as R1.
  { intros N0. eapply run_one; [eapply orig_nz; [exact O| |exact E|exact N0]; lia|exact NQ]. }
  destruct (N.eqb_spec c1 13) as [->|NR].
  { pose proof (okb_next L b s1 13 OB E ltac:(lia)) as N1.
    pose proof (okb_upd L b s1 10 OB N1) as O2.
    pose proof (chg_upd b s1 10 ltac:(lia)) as C2.
    rewrite (wr_ok b s1 10) by lia. cbn [bind].
    eapply ret_bind; [apply ret_rd|]. intros d Ed. cbn beta.
    destruct (N.eqb_spec d 10) as [->|ND].
    - pose proof (okb_next L _ _ _ O2 Ed ltac:(lia)) as N2.
      assert (nth_error b (S s1) = Some 10) as Ed' by (rewrite upd_neq in Ed by lia; exact Ed).
      destruct (push_ok (upd b s1 10) g v (S s1) 1) as (b3 & g3 & -> & C3 & G3 & _).
      + now apply (gapok_more v s1); [|lia].
      + destruct O2 as (-> & _). lia.
      + cbn [bind]. apply STEP; [|exact G3|lia| |].
        * eapply okb_chg; [exact O2|exact C3|lia].
        * eapply chg_trans; [eapply chg_weaken; [exact C2|lia|lia]|].
          eapply chg_weaken; [exact C3|lia|lia].
        * eapply run_app; [apply R1; lia|]. replace (S s1 + 1)%nat with (S (S s1)) by lia.
          eapply run_one; [eapply orig_nz; [exact O| |exact Ed'|]; lia|lia].
    - apply STEP; [exact O2| |lia| |apply R1; lia].
      + now apply (gapok_more v s1); [|lia].
      + eapply chg_weaken; [exact C2|lia|lia]. }
  destruct (N.eqb_spec c1 38) as [->|NA].
  { eapply ret_bind; [apply ret_and; [apply (escape_ret b g s1 E)|apply (ret_safe L), (escape_safe L b g v s1 OB G1 E)]|].
    intros [[b3 g3] s3] ((A3 & R3) & O3 & G3 & H3 & C3). cbn beta iota. apply STEP; auto.
    eapply orig_run; [exact O| |lia|lia]. eapply run_imp; [exact R3|]. unfold good. intros c H. lia. }
  destruct (N.eqb_spec c1 0) as [->|NZ].
  { destruct (flush_ok b g v s1 G1) as (b1 & e & -> & C & V & _); [lia|]. cbn [bind].
    assert (okb L b1) as O1 by (eapply okb_chg; [exact OB|exact C|lia]).
    assert (e < length b1)%nat as LE by (destruct O1 as (-> & _); lia).
    rewrite (wr_ok b1 e 0 LE). cbn [bind ret].
    assert (chg v s1 b (upd b1 e 0)) as C3.
    { eapply chg_trans; [exact C|]. destruct (Nat.eq_dec e s1) as [->|NE].
      - apply chg_upd_same. destruct C as [_ C]. rewrite C by lia. exact E.
      - eapply chg_weaken; [apply chg_upd; exact LE|lia|lia]. }
    assert (okb L (upd b1 e 0)) as O3 by (apply okb_upd0; [exact O1|lia]).
    split; [eapply orig_chg; [exact O|exact O3|exact C3|lia|lia]|]. split; [lia|]. split; [exact C3|].
    split; [exists e; split; [lia|]; split; [now apply upd_eq|lia]|]. right. split; [|exact RF].
    destruct C3 as [_ C3]. rewrite C3 by lia. exact E. }
  pose proof (okb_next L b s1 c1 OB E NZ) as N1.
  apply STEP; [exact OB| |lia|apply chg_refl|auto]. now apply (gapok_more v s1); [|lia].
Qed.

(** *** Looking for the end of something *)

Lemma ends_F e b s0 : e <> 0 -> orig b s0 -> forall l i, Forall (fun c => c <> 0) l -> (s0 <= i)%nat ->
  ret (fun x => x = true <-> at_ F i (l ++ [e])) (starts_end endch l e b i).
Proof.
  intros NE O. induction l as [|c l IH]; intros i NL S; cbn [starts_end app].
  - eapply ret_bind; [apply ret_rd|]. intros y E. cbn [ret]. rewrite at_cons. unfold endswith.
    destruct (N.eq_dec y 0) as [->|NY].
    + rewrite (orig_z _ _ _ O S E). rewrite LASTF. split.
      * intros H. split; [f_equal; lia|apply at_nil].
      * intros [H _]. injection H as ->. lia.
    + destruct (orig_nz _ _ _ _ O S E NY) as [EF _]. rewrite EF. split.
      * intros H. split; [f_equal; lia|apply at_nil].
      * intros [H _]. injection H as ->. lia.
  - inversion NL as [|? ? N1 N2]; subst. eapply ret_bind; [apply ret_rd|]. intros x E. cbn beta.
    destruct (N.eqb_spec x c) as [->|D].
    + eapply ret_imp; [apply IH; [exact N2|lia]|]. intros y Y. rewrite at_cons.
      destruct (orig_nz _ _ _ _ O S E N1) as [EF _].
      split; [intros H; split; [exact EF|now apply Y]|intros [_ H]; now apply Y].
    + cbn [ret]. split; [discriminate|]. rewrite at_cons. intros [EF A]. exfalso.
      destruct (N.eq_dec x 0) as [->|NX].
      * pose proof (orig_z _ _ _ O S E) as ->. apply at_bound in A; [|destruct l; discriminate].
        fold L in A. rewrite app_length in A. cbn [length] in A. pose proof (below _ _ _ (proj1 O) E). lia.
      * destruct (orig_nz _ _ _ _ O S E NX) as [EF' _]. congruence.
Qed.

Lemma scan_for_F e l b s0 : e <> 0 -> Forall (fun c => c <> 0) l -> orig b s0 -> forall n s, (s0 <= s)%nat ->
  ret (fun s' => (s <= s')%nat /\ (s' < L)%nat /\ (forall i, (s <= i < s')%nat -> ~ at_ F i (l ++ [e])) /\
                 (nth_error b s' = Some 0 \/ (exists c, nth_error b s' = Some c /\ c <> 0) /\ at_ F s' (l ++ [e])))
      (scan_for n (starts_end endch l e) b s).
Proof.
  intros NE NL O. induction n as [|n IH]; intros s S; cbn [scan_for]; [exact I|].
  eapply ret_bind; [apply ret_rd|]. intros c E. cbn beta.
  pose proof (below _ _ _ (proj1 O) E) as SL.
  destruct (N.eqb_spec c 0) as [->|N]; [cbn [ret]; split; [lia|]; split; [exact SL|]; split; [intros; lia|left; exact E]|].
  eapply ret_bind; [apply (ends_F e b s0 NE O l s NL S)|]. intros [|] X; cbn beta iota.
  - cbn [ret]. split; [lia|]. split; [exact SL|]. split; [intros; lia|]. right. split; [exists c; split; [exact E|exact N]|]. now apply X.
  - eapply ret_imp; [apply IH; lia|]. intros s' (A & A1 & B & C). split; [lia|]. split; [exact A1|]. split; [|exact C].
    intros i I. destruct (Nat.eq_dec i s) as [->|NI]; [|apply B; lia]. intros Y. apply X in Y. discriminate.
Qed.

Lemma without_F x i j : x <> [] -> (j < L)%nat -> (forall k, (i <= k < j)%nat -> ~ at_ F k x) -> without x (slice F i j).
Proof.
  intros NX J H. split.
  - apply (run_slice F (fun c => c <> 0)). intros k c K E. apply NZF in E; [exact E|lia].
  - intros a r E. destruct (Nat.lt_ge_cases i j) as [IJ|IJ].
    2: { rewrite slice_nil in E by lia. destruct a; [destruct x; [congruence|discriminate]|discriminate]. }
    assert (at_ F i (slice F i j)) as A by (apply (slice_at F i j); [reflexivity|fold L; lia]).
    assert (length (slice F i j) = (j - i)%nat) as LE by (apply slice_length; fold L; lia).
    rewrite E in A, LE. rewrite !app_length in LE. apply at_app2 in A. apply at_app1 in A.
    apply (H (i + length a)%nat); [|exact A]. destruct x as [|x0 x]; [congruence|]. cbn [length] in LE. lia.
Qed.

Lemma at_F_slice i w : at_ F i w -> slice F i (i + length w) = w.
Proof. apply at_slice. Qed.

(** after a '>', which may be the last byte *)
Definition upto (s e : nat) : Prop := e = s \/ (s = L - 1 /\ e = L)%nat.

Lemma upto_gt b s p y : orig b s -> (s <= p)%nat -> nth_error F p = Some 62 -> nth_error b p = Some y ->
  upto (p + (if (y =? 62)%N then 1 else 0))%nat (S p) /\ (p + (if (y =? 62)%N then 1 else 0) < L)%nat.
Proof.
  intros O S E Ey. destruct (N.eq_dec y 0) as [->|NY].
  - pose proof (orig_z _ _ _ O S Ey). pose proof (below _ _ _ (proj1 O) Ey). change (0 =? 62) with false. cbn iota.
    split; [right; lia|lia].
  - destruct (orig_nz _ _ _ _ O S Ey NY) as [EF Q]. assert (y = 62) as -> by congruence.
    change (62 =? 62) with true. cbn iota. split; [left; lia|lia].
Qed.

(** *** CDATA *)
Lemma cdata_ret v : forall n b g s, orig b s -> gapok v s g ->
  ret (fun '(o, b') =>
         match o with
         | Some s' => (s < s')%nat /\ orig b' s' /\ chg v s' b b' /\ (s' < L)%nat /\
                      (forall i, (s <= i < s' - 1)%nat -> ~ at_ F i [93; 93; 62]) /\
                      at_ F (s' - 1) [93; 93; 62] /\ exists e, (v <= e < s')%nat /\ nth_error b' e = Some 0
         | None => True
         end) (cdata_conv n endch b g s).
Proof.
  induction n as [|n IH]; intros b g s O G; cbn [cdata_conv]; [exact I|].
  eapply ret_bind; [apply scan_ret|]. intros s1 (A & R & c1 & E & _). cbn beta.
  rewrite (rd_ok b s1 c1 E). cbn [bind].
  pose proof (proj1 O) as OB. pose proof (below _ _ _ OB E) as S1L.
  assert (length b = L) as LB by apply OB.
  assert (gapok v s1 g) as G1 by (now apply (gapok_more v s); [|lia]).
  assert (v <= s1)%nat as V1 by apply G1.
  assert (forall i, (s <= i < s1)%nat -> ~ at_ F i [93; 93; 62]) as RF.
  { intros i I. rewrite at_cons. intros [EI _]. assert (run F (fun c => cdatab c = false) s s1) as RF.
    { eapply orig_run; [exact O| |lia|lia]. eapply run_imp; [exact R|]. intros c H. cbn beta in H. rewrite type_cdata in H. lia. }
    specialize (RF i _ I EI). discriminate. }
  assert (forall b' g' s', okb L b' -> gapok v s' g' -> (s1 < s' < L)%nat -> chg v s' b b' ->
            (forall i, (s1 <= i < s')%nat -> ~ at_ F i [93; 93; 62]) ->
            ret (fun '(o, b'') =>
              match o with
              | Some s'' => (s < s'')%nat /\ orig b'' s'' /\ chg v s'' b b'' /\ (s'' < L)%nat /\
                      (forall i, (s <= i < s'' - 1)%nat -> ~ at_ F i [93; 93; 62]) /\
                      at_ F (s'' - 1) [93; 93; 62] /\ exists e, (v <= e < s'')%nat /\ nth_error b'' e = Some 0
              | None => True
              end) (cdata_conv n endch b' g' s')) as STEP.
  { intros b' g' s' O' G' H' C' R'. eapply ret_imp; [apply (IH b' g' s'); [eapply orig_chg; [exact O|exact O'|exact C'|lia|lia]|exact G']|].
    intros [[s''|] b'']; [|auto]. intros (A1 & A2 & A3 & A4 & A5 & A6 & A7).
    split; [lia|]. split; [exact A2|]. split; [eapply chg_trans; [eapply chg_weaken; [exact C'|lia|lia]|exact A3]|].
    split; [exact A4|]. split; [|auto]. intros i I. destruct (Nat.lt_ge_cases i s1); [apply RF; lia|].
    destruct (Nat.lt_ge_cases i s'); [apply R'; lia|apply A5; lia]. }
  assert (forall c, nth_error b s1 = Some c -> c <> 93 -> c <> 0 -> forall i, (s1 <= i < S s1)%nat -> ~ at_ F i [93; 93; 62]) as R1.
  { intros c EC N93 N0 i I. assert (i = s1) as -> by lia. rewrite at_cons. intros [EI _].
    destruct (orig_nz b s s1 c O ltac:(lia) EC N0). congruence. }
  destruct (N.eqb_spec c1 13) as [->|NR].
  { pose proof (okb_next L b s1 13 OB E ltac:(lia)) as N1.
    pose proof (okb_upd L b s1 10 OB N1) as O2.
    pose proof (chg_upd b s1 10 ltac:(lia)) as C2.
    specialize (R1 13 E ltac:(lia) ltac:(lia)).
    rewrite (wr_ok b s1 10) by lia. cbn [bind].
    eapply ret_bind; [apply ret_rd|]. intros d Ed. cbn beta.
    destruct (N.eqb_spec d 10) as [->|ND].
    - pose proof (okb_next L _ _ _ O2 Ed ltac:(lia)) as N2.
      assert (nth_error b (S s1) = Some 10) as Ed' by (rewrite upd_neq in Ed by lia; exact Ed).
      destruct (push_ok (upd b s1 10) g v (S s1) 1) as (b3 & g3 & -> & C3 & G3 & _).
      + now apply (gapok_more v s1); [|lia].
      + destruct O2 as (-> & _). lia.
      + cbn [bind]. apply STEP; [|exact G3|lia| |].
        * eapply okb_chg; [exact O2|exact C3|lia].
        * eapply chg_trans; [eapply chg_weaken; [exact C2|lia|lia]|].
          eapply chg_weaken; [exact C3|lia|lia].
        * intros i I. destruct (Nat.lt_ge_cases i (S s1)); [apply R1; lia|]. assert (i = S s1) as -> by lia.
          rewrite at_cons. intros [EI _]. destruct (orig_nz b s (S s1) 10 O ltac:(lia) Ed' ltac:(lia)). congruence.
    - apply STEP; [exact O2| |lia| |exact R1].
      + now apply (gapok_more v s1); [|lia].
      + eapply chg_weaken; [exact C2|lia|lia]. }
  eapply ret_bind; [apply (ends_F 62 b s ltac:(lia) O [93; 93] s1); [now apply nz|lia]|].
  intros x X. cbn beta. cbn [app] in X. destruct x.
  { assert (at_ F s1 [93; 93; 62]) as AF by now apply X.
    assert (S (S s1) < L)%nat as N2.
    { apply at_bound in AF; [|discriminate]. fold L in AF. cbn [length] in AF. lia. }
    destruct (flush_end L b g v s1 OB G1 ltac:(lia)) as (b1 & e & EF & V & W & O1 & C1). rewrite EF.
    assert (length b1 = L) as L1.
    { destruct (flush_ok b g v s1 G1 ltac:(lia)) as (b2 & e2 & EF2 & (LC & _) & V2 & _). rewrite EF in EF2. injection EF2 as <- <-. lia. }
    cbn [bind]. rewrite W. cbn [bind ret]. split; [lia|]. split; [eapply orig_chg; [exact O|exact O1|exact C1|lia|lia]|].
    split; [exact C1|]. split; [lia|]. replace (S s1 - 1)%nat with s1 by lia. split; [exact RF|]. split; [exact AF|].
    exists e. split; [lia|]. apply upd_eq. lia. }
  destruct (N.eqb_spec c1 0) as [->|NZ]; [exact I|].
  pose proof (okb_next L b s1 c1 OB E NZ) as N1.
  apply STEP; [exact OB| |lia|apply chg_refl|]; [now apply (gapok_more v s1); [|lia]|].
  intros i I. assert (i = s1) as -> by lia. intros Y. apply X in Y. discriminate.
Qed.

(** *** What has been read so far *)

Lemma upto0_same : forall m l l', nth_error l m = Some 0 -> (forall i, (i <= m)%nat -> nth_error l' i = nth_error l i) ->
  upto0 l' = upto0 l.
Proof.
  induction m as [|m IH]; intros l l' E H; destruct l as [|c l]; try discriminate;
    pose proof (H 0%nat ltac:(lia)) as H0; destruct l' as [|c' l']; try discriminate; cbn in H0; injection H0 as ->; cbn [upto0].
  - cbn in E. injection E as ->. reflexivity.
  - destruct (c =? 0); [reflexivity|]. f_equal. apply IH; [exact E|]. intros i I. apply (H (S i)). lia.
Qed.

Lemma cstr_keeps P b b' v e : (v <= e < P)%nat -> nth_error b e = Some 0 -> keeps P b b' -> cstr b' v = cstr b v.
Proof.
  intros V E K. unfold cstr. apply (upto0_same (e - v)).
  - rewrite nth_error_skipn_add. rewrite <- E. f_equal. lia.
  - intros i I. rewrite !nth_error_skipn_add. apply K. lia.
Qed.

Lemma shows_snoc P k l b x y : shows P k l b -> shows P [x] [y] b -> shows P (k ++ [x]) (l ++ [y]) b.
Proof. intros H1 H2 b' K. rewrite map_app, (H1 b' K), (H2 b' K). reflexivity. Qed.

Lemma shows_later P P' k l b b' : shows P k l b -> keeps P b b' -> (P <= P')%nat -> shows P' k l b'.
Proof. intros H K LE b'' K'. apply H. eapply keeps_trans; [exact K|]. eapply keeps_less; [exact K'|exact LE]. Qed.

Inductive pre (P : nat) (b : bytes) : list frame -> bytes -> Prop :=
| pre_root l k w : rough_top k w -> shows P k l b ->
    pre P b [{| f_name := None; f_attrs := []; f_kids := l |}] w
| pre_open st w np pl l nm a wa sp k wk :
    pre P b st w -> is_name nm -> rough_attrs a wa -> spaces sp -> rough_content k wk -> shows P k l b ->
    (forall b', keeps P b b' -> at_ b' np (nm ++ [0]) /\ strings b' pl = a) ->
    pre P b ({| f_name := Some np; f_attrs := pl; f_kids := l |} :: st) (w ++ [60] ++ nm ++ wa ++ sp ++ [62] ++ wk).

Lemma pre_later P P' b b' st w : pre P b st w -> keeps P b b' -> (P <= P')%nat -> pre P' b' st w.
Proof.
  intros H K LE. induction H as [l k w T S|st w np pl l nm a wa sp k wk H IH NM RA SP RC S HS].
  - apply (pre_root _ _ _ k); [exact T|eapply shows_later; eassumption].
  - apply (pre_open _ _ _ _ _ _ _ nm a wa sp k wk); auto; [eapply shows_later; eassumption|].
    intros b'' K'. apply HS. eapply keeps_trans; [exact K|]. eapply keeps_less; [exact K'|exact LE].
Qed.

Ltac assoc_in := repeat (rewrite <- app_assoc; cbn [app]).

Lemma pre_aside P b st w wa : pre P b st w -> aside wa -> pre P b st (w ++ wa).
Proof.
  intros H A. destruct H as [l k w T S|st w np pl l nm a wb sp k wk H NM RA SP RC S HS].
  - apply (pre_root _ _ _ k); [now apply top_aside|exact S].
  - replace ((w ++ [60] ++ nm ++ wb ++ sp ++ [62] ++ wk) ++ wa) with (w ++ [60] ++ nm ++ wb ++ sp ++ [62] ++ (wk ++ wa)) by now rewrite <- !app_assoc.
    eapply pre_open; eauto. now apply rough_aside.
Qed.

Lemma pre_sub P b st w e we y : pre P b st w -> rough_element e we -> shows P [e] [y] b -> pre P b (add_kid y st) (w ++ we).
Proof.
  intros H A Y. destruct H as [l k w T S|st w np pl l nm a wb sp k wk H NM RA SP RC S HS]; cbn [add_kid f_name f_attrs f_kids].
  - apply (pre_root _ _ _ (k ++ [e])); [now apply top_element|now apply shows_snoc].
  - replace ((w ++ [60] ++ nm ++ wb ++ sp ++ [62] ++ wk) ++ we) with (w ++ [60] ++ nm ++ wb ++ sp ++ [62] ++ (wk ++ we)) by now rewrite <- !app_assoc.
    apply (pre_open _ _ _ _ _ _ _ nm a wb sp (k ++ [e]) (wk ++ we)); auto; [now apply rough_sub|now apply shows_snoc].
Qed.

Lemma pre_cdata P b st w t wc v : pre P b st w -> cdata_section wc -> shows P [Cd t] [Cdata v] b -> pre P b (add_kid (Cdata v) st) (w ++ wc).
Proof.
  intros H A Y. destruct H as [l k w T S|st w np pl l nm a wb sp k wk H NM RA SP RC S HS]; cbn [add_kid f_name f_attrs f_kids].
  - apply (pre_root _ _ _ (k ++ [Cd t])); [now apply top_cdata|now apply shows_snoc].
  - replace ((w ++ [60] ++ nm ++ wb ++ sp ++ [62] ++ wk) ++ wc) with (w ++ [60] ++ nm ++ wb ++ sp ++ [62] ++ (wk ++ wc)) by now rewrite <- !app_assoc.
    apply (pre_open _ _ _ _ _ _ _ nm a wb sp (k ++ [Cd t]) (wk ++ wc)); auto; [now apply rough_cdata|now apply shows_snoc].
Qed.

Lemma pre_space P b st w sp0 : pre P b st w -> spaces sp0 -> pre P b st (w ++ sp0).
Proof.
  intros H A. destruct H as [l k w T S|st w np pl l nm a wb sp k wk H NM RA SP RC S HS].
  - apply (pre_root _ _ _ k); [|exact S]. apply top_text; [exact T|]. intros I. unfold spaces in A. rewrite Forall_forall in A.
    specialize (A _ I). unfold space in A. lia.
  - replace ((w ++ [60] ++ nm ++ wb ++ sp ++ [62] ++ wk) ++ sp0) with (w ++ [60] ++ nm ++ wb ++ sp ++ [62] ++ (wk ++ sp0)) by now rewrite <- !app_assoc.
    eapply pre_open; eauto. now apply rough_space.
Qed.

Lemma pre_text P b st w t wt v : nested st = true -> pre P b st w -> ~ In 60 wt -> shows P [Tx t] [Text v] b ->
  pre P b (add_kid (Text v) st) (w ++ wt).
Proof.
  intros N H A Y. destruct H as [l k w T S|st w np pl l nm a wb sp k wk H NM RA SP RC S HS]; cbn [add_kid f_name f_attrs f_kids].
  - discriminate.
  - replace ((w ++ [60] ++ nm ++ wb ++ sp ++ [62] ++ wk) ++ wt) with (w ++ [60] ++ nm ++ wb ++ sp ++ [62] ++ (wk ++ wt)) by now rewrite <- !app_assoc.
    apply (pre_open _ _ _ _ _ _ _ nm a wb sp (k ++ [Tx t]) (wk ++ wt)); auto; [now apply rough_text|now apply shows_snoc].
Qed.

Lemma pre_junk P b st w wt : nested st = false -> pre P b st w -> ~ In 60 wt -> pre P b st (w ++ wt).
Proof.
  intros N H A. destruct H as [l k w T S|st w np pl l nm a wb sp k wk H NM RA SP RC S HS].
  - apply (pre_root _ _ _ k); [now apply top_text|exact S].
  - destruct H; discriminate.
Qed.

Lemma pre_doctype P b st w r : nested st = false -> pre P b st w ->
  pre P b st (w ++ [60; 33; 68; 79; 67; 84; 89; 80; 69] ++ r ++ [62]).
Proof.
  intros N H. destruct H as [l k w T S|st w np pl l nm a wb sp k wk H NM RA SP RC S HS].
  - apply (pre_root _ _ _ k); [now apply top_doctype|exact S].
  - destruct H; discriminate.
Qed.

Lemma slice_cons i j c : nth_error F i = Some c -> (i < j)%nat -> slice F i j = c :: slice F (S i) j.
Proof. intros E H. rewrite (slice_app F i (S i) j) by lia. rewrite (slice_one F i c E). reflexivity. Qed.

(** *** Tags *)

(** a tag has been read: [w] is what was there before its '<' *)
Definition next (w : bytes) (b : bytes) (s : nat) : bytes * nat * list frame -> Prop :=
  fun '(b', s', st') =>
    orig b' s' /\ (s < s' < L)%nat /\ exists e, upto s' e /\ pre s' b' st' (w ++ [60] ++ slice F s e).

Lemma fuel_L b : okb L b -> fuel b = S L.
Proof. intros (E & _). unfold fuel. now rewrite E. Qed.

Lemma group_last b : forall n s d, ret (fun s' => nth_error b s' = Some 0 -> endch = 62) (group_loop n endch b s d).
Proof.
  induction n as [|n IH]; intros s d; cbn [group_loop]; [exact I|].
  eapply ret_bind; [apply ret_rd|]. intros c Ec. cbn beta.
  destruct (N.eqb_spec c 0) as [->|NC].
  { destruct (negb (d =? 0)%nat || negb (endch =? 62)) eqn:T; cbn [ret]; [exact I|]. intros _. lia. }
  eapply ret_bind with (P := fun _ => True); [destruct (starts [60; 33] b s); exact I|]. intros o _. cbn beta.
  eapply ret_bind with (P := fun _ => True); [destruct o; [destruct (rd b (s + 2)); exact I|exact I]|]. intros x _. cbn beta.
  destruct (o && negb (x =? 45)).
  { destruct (x =? 91); [|apply IH]. eapply ret_bind with (P := fun _ => True); [destruct (doctype_ignore b s); exact I|]. intros s1 _. apply IH. }
  destruct ((c =? 60) || (c =? 34) || (c =? 39)).
  { eapply ret_bind with (P := fun _ => True); [destruct (doctype_primitive b s); exact I|]. intros s1 _. apply IH. }
  destruct (N.eqb_spec c 62) as [->|_]; [|apply IH]. destruct d as [|d]; [|apply IH]. cbn [ret]. intros H. congruence.
Qed.

Lemma exclamation_ret w b s st : orig b s -> pre s b st w -> nth_error b s = Some 33 -> (0 < s)%nat ->
  ret (next w b s) (exclamation endch b s st).
Proof.
  intros O P E33 SP. pose proof (proj1 O) as OB.
  destruct (orig_nz _ _ _ _ O (le_n s) E33 ltac:(lia)) as [F33 _].
  unfold exclamation. eapply ret_bind; [apply ret_rd|]. intros c Ec. cbn beta.
  destruct (N.eqb_spec c 45) as [->|N45].
  { destruct (orig_nz _ _ _ _ O (le_S _ _ (le_n s)) Ec ltac:(lia)) as [F1 _].
    eapply ret_bind; [apply ret_rd|]. intros d Ed. cbn beta.
    destruct (N.eqb_spec d 45) as [->|ND]; [|exact I].
    assert (nth_error F (S (S s)) = Some 45) as F2 by (eapply orig_nz; [exact O| |exact Ed|]; lia).
    eapply ret_bind; [apply (scan_for_F 62 [45; 45] b s ltac:(lia)); [now apply nz|exact O|lia]|].
    cbn [app]. intros s1 (A & A1 & NO & [Z|((c & Ex & NX) & AF)]); cbn beta.
    { rewrite (rd_ok _ _ _ Z). cbn [bind]. exact I. }
    rewrite (rd_ok _ _ _ Ex). cbn [bind]. replace (c =? 0) with false by lia.
    eapply ret_bind; [apply ret_rd|]. intros y Ey. cbn beta. cbn [ret].
    assert (nth_error F (s1 + 2) = Some 62) as F3.
    { apply (at_app2 F s1 [45; 45] [62]) in AF. apply at_cons in AF. apply AF. }
    destruct (upto_gt b s (s1 + 2) y O ltac:(lia) F3 Ey) as [U UL].
    replace (s1 + (if (y =? 62)%N then 3 else 2))%nat with (s1 + 2 + (if (y =? 62)%N then 1 else 0))%nat by (destruct (y =? 62); lia).
    set (s' := (s1 + 2 + (if (y =? 62)%N then 1 else 0))%nat) in *. assert (s1 + 2 <= s')%nat by (subst s'; lia). clearbody s'.
    split; [eapply orig_more; [exact O|lia]|]. split; [lia|]. exists (S (s1 + 2)). split; [exact U|].
    apply pre_aside; [eapply pre_later; [exact P|intros k K; reflexivity|lia]|].
    rewrite (slice_cons s _ 33 F33) by lia. rewrite (slice_cons (S s) _ 45 F1) by lia. rewrite (slice_cons (S (S s)) _ 45 F2) by lia.
    rewrite (slice_app F (S (S (S s))) s1) by lia. apply at_F_slice in AF. cbn [length] in AF.
    replace (s1 + 3)%nat with (S (s1 + 2)) in AF by lia. rewrite AF. cbn [app].
    apply (comment (slice F (S (S (S s))) s1)). apply without_F; [discriminate|lia|]. intros k K. apply NO. lia. }
  destruct (N.eqb_spec c 91) as [->|N91].
  { destruct (orig_nz _ _ _ _ O (le_S _ _ (le_n s)) Ec ltac:(lia)) as [F1 Q1].
    destruct (chain b (S s) [67; 68; 65; 84; 65; 91]) as [[m i]| | |] eqn:CH; cbn [bind ret]; try exact I.
    destruct m; cbn [ret]; [|exact I].
    assert (at_ F (S (S s)) [67; 68; 65; 84; 65; 91] /\ i = (S s + 6)%nat /\ (S i < L)%nat) as (AF & EI & IL).
    { assert (forall l i0 r, chain b i0 l = Val (true, r) -> (s <= i0)%nat -> (S i0 < L)%nat -> Forall (fun c => c <> 0) l ->
                at_ F (S i0) l /\ r = (i0 + length l)%nat /\ (S r < L)%nat) as CL.
      { clear - O OB NZF LASTF. induction l as [|x l IH]; intros i0 r; cbn [chain].
        - intros H _ Q _. injection H as <-. split; [apply at_nil|]. cbn [length]. lia.
        - intros H SI Q NL. destruct (rd b (S i0)) as [y| | |] eqn:R; cbn [bind] in H; try discriminate.
          pose proof (ret_rd b (S i0)) as RR. rewrite R in RR. cbn [ret] in RR.
          destruct (N.eqb_spec y x) as [->|D]; [|discriminate]. inversion NL as [|? ? N1 N2]; subst.
          destruct (orig_nz _ _ _ _ O (le_S _ _ SI) RR N1) as [EF Q2].
          destruct (IH (S i0) r H ltac:(lia) ltac:(lia) N2) as (B1 & B2 & B3).
          split; [apply at_cons; auto|]. cbn [length]. split; [lia|exact B3]. }
      apply (CL _ _ _ CH); [lia| |now apply nz]. pose proof (okb_next L b _ _ OB Ec ltac:(lia)). lia. }
    eapply ret_bind.
    { apply (cdata_ret (S i) (fuel b) b no_gap (S i)); [eapply orig_more; [exact O|lia]|now apply gapok_no]. }
    intros [[s1|] b1] R; cbn beta iota; [|exact I].
    destruct R as (A & O1 & C1 & S1L & NO & AT & e0 & HE & EZ).
    eapply ret_bind; [apply ret_rd|]. intros y Ey. cbn beta. cbn [ret].
    assert (nth_error F (S s1) = Some 62) as F3.
    { apply (at_app2 F (s1 - 1) [93; 93] [62]) in AT. apply at_cons in AT. replace (S s1) with (s1 - 1 + length [93; 93]%N)%nat by (cbn [length]; lia). apply AT. }
    destruct (upto_gt b1 s1 (S s1) y O1 ltac:(lia) F3 Ey) as [U UL].
    replace (s1 + (if (y =? 62)%N then 2 else 1))%nat with (S s1 + (if (y =? 62)%N then 1 else 0))%nat by (destruct (y =? 62); lia).
    set (s' := (S s1 + (if (y =? 62)%N then 1 else 0))%nat) in *. assert (S s1 <= s')%nat by (subst s'; lia). clearbody s'.
    split; [eapply orig_more; [exact O1|lia]|]. split; [lia|]. exists (S (S s1)). split; [exact U|].
    apply (pre_cdata _ _ _ _ (cstr b1 (S i))).
    - eapply pre_later; [exact P|eapply keeps_chg; [exact C1|lia]|lia].
    - exists (slice F (S i) (s1 - 1)). split; [|apply without_F; [discriminate|lia|exact NO]].
      rewrite (slice_cons s _ 33 F33) by lia. rewrite (slice_cons (S s) _ 91 F1) by lia.
      rewrite (slice_app F (S (S s)) (S i)) by lia. apply at_F_slice in AF. cbn [length] in AF.
      replace (S (S s) + 6)%nat with (S i) in AF by lia. rewrite AF.
      rewrite (slice_app F (S i) (s1 - 1)) by lia. apply at_F_slice in AT. cbn [length] in AT.
      replace (s1 - 1 + 3)%nat with (S (S s1)) in AT by lia. rewrite AT. reflexivity.
    - intros b2 K. cbn [map shown]. do 2 f_equal. eapply cstr_keeps; [|exact EZ|exact K]. lia. }
  eapply ret_bind; [apply (ends_F 69 b s ltac:(lia) O [68; 79; 67; 84; 89; 80] (S s)); [now apply nz|lia]|].
  cbn [app]. intros [|] X; cbn beta iota.
  { assert (at_ F (S s) [68; 79; 67; 84; 89; 80; 69]) as AF by now apply X.
    destruct (nested st) eqn:NE; [exact I|].
    assert (S s + 7 <= L)%nat as BL.
    { pose proof AF as AF'. apply at_bound in AF'; [|discriminate]. exact AF'. }
    eapply ret_bind.
    { apply ret_and; [apply (ret_safe L); unfold doctype_group; apply (group_loop_safe L b endch OB); [lia|rewrite fuel_L by exact OB; lia]|].
      apply group_last. }
    intros s1 ((A & x & Ex & HX) & LAST). cbn beta. rewrite (rd_ok _ _ _ Ex). cbn [bind].
    assert (s <= s1)%nat as SS by lia.
    assert (forall e, (S s + 7 <= e - 1)%nat -> (S s + 7 <= e)%nat -> nth_error F (e - 1) = Some 62 -> 
              [60] ++ slice F s e = [60; 33; 68; 79; 67; 84; 89; 80; 69] ++ slice F (S s + 7) (e - 1) ++ [62]) as ES.
    { intros e E0 E1 E2. rewrite (slice_cons s e 33 F33) by lia. rewrite (slice_app F (S s) (S s + 7)) by lia.
      apply at_F_slice in AF. cbn [length] in AF. rewrite AF. rewrite (slice_app F (S s + 7) (e - 1)) by lia.
      pose proof (slice_one F _ 62 E2) as E3. replace (S (e - 1)) with e in E3 by lia. rewrite E3. reflexivity. }
    assert (S s + 7 <= s1)%nat as S7.
    { destruct (Nat.lt_ge_cases s1 (S s + 7)) as [B|B]; [exfalso|exact B].
      assert (exists c, nth_error [68; 79; 67; 84; 89; 80; 69] (s1 - S s) = Some c) as (c0 & E0).
      { destruct (nth_error [68; 79; 67; 84; 89; 80; 69] (s1 - S s)) eqn:EN; [eauto|]. apply nth_error_None in EN. cbn [length] in EN. lia. }
      pose proof (nth_error_In _ _ E0) as IN. apply AF in E0. replace (S s + (s1 - S s))%nat with s1 in E0 by lia.
      assert (c0 <> 62) as N62 by (cbn in IN; intuition lia).
      destruct HX as [-> | ->].
      - specialize (LAST Ex). pose proof (orig_z _ _ _ O SS Ex). assert (c0 = endch) by congruence. congruence.
      - destruct (orig_nz _ _ _ _ O SS Ex ltac:(lia)). congruence. }
    destruct (N.eqb_spec x 0) as [->|NX].
    - cbn [ret]. pose proof (orig_z _ _ _ O SS Ex) as E1. specialize (LAST Ex).
      split; [eapply orig_more; [exact O|lia]|]. split; [lia|]. exists L. split; [right; lia|].
      rewrite ES; [|lia|lia|rewrite LASTF; congruence]. apply pre_doctype; [exact NE|]. eapply pre_later; [exact P|intros k K; reflexivity|lia].
    - assert (x = 62) as -> by (destruct HX; congruence).
      destruct (orig_nz _ _ _ _ O SS Ex ltac:(lia)) as [F1 Q1].
      rewrite wr_ok by (rewrite (proj1 OB); lia). cbn [bind ret].
      assert (chg s1 (S s1) b (upd b s1 0)) as C1 by (apply chg_upd; rewrite (proj1 OB); lia).
      split; [eapply (orig_chg b _ s); [exact O|apply okb_upd; [exact OB|lia]|exact C1|lia|lia]|].
      split; [lia|]. exists (S s1). split; [left; reflexivity|]. replace (S s1 - 1)%nat with s1 in * by lia.
      rewrite (ES (S s1)); [|lia|lia|replace (S s1 - 1)%nat with s1 by lia; exact F1].
      apply pre_doctype; [exact NE|]. eapply pre_later; [exact P|eapply keeps_chg; [exact C1|lia]|lia]. }
  destruct ((c =? 0) && (endch =? 45)); [exact I|]. destruct ((c =? 0) && (endch =? 91)); exact I.
Qed.

Lemma name_F b s0 s c s' : orig b s0 -> (s0 <= s)%nat -> nth_error b s = Some c -> is_type ct_start_symbol c = true ->
  (s' < L)%nat -> run b (fun c => is_type ct_symbol c = true) s s' -> (s < s')%nat -> is_name (slice F s s').
Proof.
  intros O S E T SL R H.
  assert (c <> 0) as NC by (intros ->; discriminate).
  destruct (orig_nz _ _ _ _ O S E NC) as [EF _].
  exists c, (slice F (Datatypes.S s) s'). split; [apply slice_cons; [exact EF|lia]|]. split.
  - rewrite type_start in T. unfold startb in T. unfold name_start. lia.
  - eapply Forall_impl; [|apply (run_slice F (fun c => is_type ct_symbol c = true))].
    + intros a A. now apply name_char_type.
    + eapply orig_run; [exact O| |lia|lia]. intros k d K. apply R. lia.
Qed.

Lemma spaces_F b s0 s s' : orig b s0 -> (s0 <= s)%nat -> (s' < L)%nat ->
  run b (fun c => is_type ct_space c = true) s s' -> spaces (slice F s s').
Proof.
  intros O S SL R. unfold spaces. eapply Forall_impl; [|apply (run_slice F (fun c => is_type ct_space c = true))].
  - intros a A. cbn beta in A. rewrite type_space in A. unfold spaceb in A. unfold space. lia.
  - eapply orig_run; [exact O|exact R|lia|lia].
Qed.

Lemma question_ret w b s st : orig b s -> pre s b st w -> nth_error b s = Some 63 ->
  ret (fun s' => next w b s (b, s', st)) (question endch b s).
Proof.
  intros O P E63. pose proof (proj1 O) as OB.
  destruct (orig_nz _ _ _ _ O (le_n s) E63 ltac:(lia)) as [F63 _].
  unfold question. eapply ret_bind; [apply ret_rd|]. intros c Ec. cbn beta.
  destruct (is_type ct_start_symbol c) eqn:TC; cbn [negb]; [|exact I].
  eapply ret_bind; [apply scan_ret|]. intros s1 (A & R & c1 & E1 & T1). cbn beta.
  rewrite (rd_ok _ _ _ E1). cbn [bind]. destruct (N.eqb_spec c1 0) as [->|N1]; [exact I|].
  pose proof (below _ _ _ OB E1) as S1L.
  assert (S s < s1)%nat as A1.
  { destruct (Nat.eq_dec (S s) s1) as [<-|]; [|lia]. rewrite Ec in E1. injection E1 as <-. apply start_is_symbol in TC. congruence. }
  pose proof (name_F b s (S s) c s1 O ltac:(lia) Ec TC S1L R A1) as NM.
  eapply ret_bind; [apply (scan_for_F 62 [63] b s ltac:(lia)); [now apply nz|exact O|lia]|].
  cbn [app]. intros s2 (A2 & S2L & NO & [Z|((x & Ex & NX) & AF)]); cbn beta.
  { rewrite (rd_ok _ _ _ Z). cbn [bind]. exact I. }
  rewrite (rd_ok _ _ _ Ex). cbn [bind]. replace (x =? 0) with false by lia.
  eapply ret_bind; [apply ret_rd|]. intros y Ey. cbn beta. cbn [ret].
  assert (nth_error F (S s2) = Some 62) as F3 by (apply at_cons in AF; destruct AF as [_ AF]; apply at_cons in AF; apply AF).
  destruct (upto_gt b s (S s2) y O ltac:(lia) F3 Ey) as [U UL].
  replace (s2 + (if (y =? 62)%N then 2 else 1))%nat with (S s2 + (if (y =? 62)%N then 1 else 0))%nat by (destruct (y =? 62); lia).
  set (s' := (S s2 + (if (y =? 62)%N then 1 else 0))%nat) in *. assert (S s2 <= s')%nat by (subst s'; lia). clearbody s'.
  split; [eapply orig_more; [exact O|lia]|]. split; [lia|]. exists (S (S s2)). split; [exact U|].
  apply pre_aside; [eapply pre_later; [exact P|intros k K; reflexivity|lia]|].
  rewrite (slice_cons s _ 63 F63) by lia. rewrite (slice_app F (S s) s1) by lia. rewrite (slice_app F s1 s2) by lia.
  apply at_F_slice in AF. cbn [length] in AF. replace (s2 + 2)%nat with (S (S s2)) in AF by lia. rewrite AF.
  apply (instruction (slice F (S s) s1) (slice F s1 s2) NM).
  - apply without_F; [discriminate|lia|exact NO].
  - intros d r ED. destruct (Nat.eq_dec s1 s2) as [<-|NE]; [rewrite slice_nil in ED by lia; discriminate|].
    destruct (orig_nz b s s1 c1 O ltac:(lia) E1 N1) as [EF1 _].
    rewrite (slice_cons s1 s2 c1 EF1) in ED by lia. injection ED as <- _. intros NCH. apply name_char_type in NCH. congruence.
Qed.

Lemma strings_snoc b pl a x : strings b (pl ++ [(a, x)]) = strings b pl ++ [(cstr b a, cstr b x)].
Proof. unfold strings. now rewrite map_app. Qed.

(** the attributes of an element whose name ends at [B] *)
Lemma attributes_ret B np st0 : st0 <> [] -> forall n b s pl a wa sp,
  orig b s -> (B <= s < L)%nat -> slice F B s = wa ++ sp -> rough_attrs a wa -> spaces sp ->
  (sp <> [] \/ exists x, nth_error b s = Some x /\ is_type ct_start_symbol x = false) ->
  (forall b', keeps s b b' -> strings b' pl = a) ->
  ret (fun '(b', s', st') => exists pl' a' wa' sp' e,
         orig b' s' /\ (s <= s' < L)%nat /\ chg s s' b b' /\ upto s' e /\ rough_attrs a' wa' /\ spaces sp' /\
         (forall b'', keeps s' b' b'' -> strings b'' pl' = a') /\ (B < e)%nat /\
         (st' = open_frame np pl' :: st0 /\ slice F B e = wa' ++ sp' ++ [62] \/
          st' = add_kid (Elem np pl' []) st0 /\ slice F B e = wa' ++ sp' ++ [47; 62]))
      (attributes n endch b s (open_frame np pl :: st0)).
Proof.
  intros NS0. induction n as [|n IH]; intros b s pl a wa sp O BS SL RA SP SEP STR; cbn [attributes]; [exact I|].
  pose proof (proj1 O) as OB. assert (length b = L) as LB by apply OB.
  eapply ret_bind; [apply skip_ret|]. intros s1 (A1 & R1 & c & E & TC). cbn beta. rewrite (rd_ok _ _ _ E). cbn [bind].
  pose proof (below _ _ _ OB E) as S1L.
  pose proof (spaces_F b s s s1 O (le_n s) S1L R1) as SP1.
  assert (slice F B s1 = wa ++ (sp ++ slice F s s1)) as SL1 by (rewrite (slice_app F B s s1) by lia; rewrite SL; now rewrite <- app_assoc).
  assert (spaces (sp ++ slice F s s1)) as SPP by (apply Forall_app; auto).
  set (sp1 := sp ++ slice F s s1) in *.
  destruct (is_type ct_start_symbol c) eqn:SS.
  { assert (sp1 <> []) as NSP.
    { intros X. apply app_eq_nil in X. destruct X as [X1 X2]. destruct SEP as [SEP|(x & Ex & TX)]; [congruence|].
      destruct (Nat.eq_dec s s1) as [<-|NE]; [congruence|].
      assert (length (slice F s s1) = (s1 - s)%nat) as LE by (apply slice_length; fold L; lia). rewrite X2 in LE. cbn [length] in LE. lia. }
    clearbody sp1.
    eapply ret_bind; [apply scan_ret|]. intros s2 (A2 & R2 & ch & Eh & Th). cbn beta. rewrite (rd_ok _ _ _ Eh). cbn [bind].
    pose proof (below _ _ _ OB Eh) as S2L.
    assert (s1 < s2)%nat as A2'.
    { destruct (Nat.eq_dec s1 s2) as [<-|]; [|lia]. rewrite E in Eh. injection Eh as <-. apply start_is_symbol in SS. congruence. }
    pose proof (name_F b s s1 c s2 O ltac:(lia) E SS S2L R2 A2') as NM. set (nm := slice F s1 s2) in *.
    assert (at_ b s1 nm) as AN.
    { intros i x H. subst nm. rewrite slice_nth in H. destruct (Nat.ltb_spec i (s2 - s1)); [|discriminate].
      rewrite (proj2 O) by lia. exact H. }
    assert (s1 + length nm = s2)%nat as LN by (subst nm; rewrite slice_length by (fold L; lia); lia).
    assert (slice F B s2 = wa ++ sp1 ++ nm) as SL2 by (rewrite (slice_app F B s1 s2) by lia; rewrite SL1; subst nm; now rewrite <- app_assoc).
    clearbody nm.
    rewrite wr_ok by lia. cbn [bind]. set (b2 := upd b s2 0).
    assert (chg s2 (S s2) b b2) as C2 by (apply chg_upd; lia).
    assert (okb L b2) as O2 by (apply okb_upd0; [exact OB|lia]).
    assert (at_ b2 s1 (nm ++ [0])) as AN2.
    { apply at_app. split; [eapply at_chg_before; [exact AN|exact C2|lia]|]. rewrite LN. apply at_cons. split; [apply upd_eq; lia|apply at_nil]. }
    assert (orig b2 (S s2)) as OR2 by (eapply (orig_chg b b2 s); [exact O|exact O2|exact C2|lia|lia]).
    clearbody b2.
    eapply ret_bind with (P := fun '(ch', s3) => ch' = 61 -> (S s2 <= s3 <= L)%nat /\ nth_error F (s3 - 1) = Some 61 /\ spaces (slice F s2 (s3 - 1))).
    { destruct (is_type ct_space ch) eqn:SPC.
      - assert (ch <> 0) as NCH by (intros ->; discriminate).
        destruct (orig_nz b s s2 ch O ltac:(lia) Eh NCH) as [EF2 _].
        eapply ret_bind; [apply skip_ret|]. intros s3 (A3 & R3 & d & Ed & _). cbn beta. rewrite (rd_ok _ _ _ Ed). cbn [bind ret].
        intros ->. replace (S s3 - 1)%nat with s3 by lia.
        destruct (orig_nz b2 (S s2) s3 61 OR2 A3 Ed ltac:(lia)) as [EF3 Q3].
        split; [lia|]. split; [exact EF3|]. rewrite (slice_cons s2 s3 ch EF2) by lia. constructor.
        + rewrite type_space in SPC. unfold spaceb in SPC. unfold space. lia.
        + apply (spaces_F b2 (S s2) (S s2) s3 OR2); auto. lia.
      - cbn [ret]. intros ->. replace (S s2 - 1)%nat with s2 by lia.
        destruct (orig_nz b s s2 61 O ltac:(lia) Eh ltac:(lia)) as [EF2 Q2].
        split; [lia|]. split; [exact EF2|]. rewrite slice_nil by lia. constructor. }
    intros [ch' s3] H3. cbn beta iota. destruct (N.eqb_spec ch' 61) as [->|_]; [|exact I].
    destruct (H3 eq_refl) as (A3 & E61 & SPS). clear H3.
    eapply ret_bind; [apply skip_ret|]. intros s4 (A4 & R4 & q & Eq & _). cbn beta. rewrite (rd_ok _ _ _ Eq). cbn [bind].
    destruct ((q =? 34) || (q =? 39)) eqn:Q; [|exact I].
    destruct (orig_nz b2 (S s2) s4 q OR2 ltac:(lia) Eq ltac:(lia)) as [EF4 Q4].
    pose proof (spaces_F b2 (S s2) s3 s4 OR2 ltac:(lia) ltac:(lia) R4) as SP4.
    eapply ret_bind.
    { apply (attr_ret q (S s4) ltac:(lia) (fuel b2) b2 no_gap (S s4)); [eapply orig_more; [exact OR2|lia]|now apply gapok_no]. }
    intros [[s5|] b5] R; cbn beta iota; [|exact I].
    destruct R as (A5 & O5 & C5 & S5L & R5 & EF5 & e5 & HE5 & EZ5).
    eapply ret_bind; [apply ret_rd|]. intros x Ex. cbn beta.
    destruct (is_type ct_start_symbol x) eqn:TX; [exact I|].
    change (add_attr (s1, S s4) (open_frame np pl :: st0)) with (open_frame np (pl ++ [(s1, S s4)]) :: st0).
    assert (keeps (S s4) b2 b5) as K5 by (eapply keeps_chg; [exact C5|lia]).
    assert (keeps s b b2) as K2 by (eapply keeps_chg; [exact C2|lia]).
    eapply ret_imp.
    { apply (IH b5 s5 (pl ++ [(s1, S s4)]) (a ++ [(nm, cstr b5 (S s4))])
               (wa ++ sp1 ++ nm ++ slice F s2 (s3 - 1) ++ [61] ++ slice F s3 s4 ++ [q] ++ slice F (S s4) (s5 - 1) ++ [q]) []).
      - exact O5.
      - lia.
      - rewrite app_nil_r. rewrite (slice_app F B s2 s5) by lia. rewrite SL2. rewrite <- !app_assoc. do 3 f_equal.
        rewrite (slice_app F s2 (s3 - 1) s5) by lia. f_equal.
        rewrite (slice_cons (s3 - 1) s5 61 E61) by lia. replace (S (s3 - 1)) with s3 by lia. cbn [app]. f_equal.
        rewrite (slice_app F s3 s4 s5) by lia. f_equal. rewrite (slice_cons s4 s5 q EF4) by lia. f_equal.
        rewrite (slice_app F (S s4) (s5 - 1) s5) by lia. f_equal. pose proof (slice_one F _ q EF5) as E7.
        now replace (S (s5 - 1)) with s5 in E7 by lia.
      - apply rough_attrs_more; auto; [lia|]. pose proof (run_slice F _ _ _ R5) as FA. rewrite Forall_forall in FA.
        intros I. now apply FA in I.
      - constructor.
      - right. exists x. auto.
      - intros b' K. rewrite strings_snoc. f_equal.
        + apply STR. eapply keeps_trans; [exact K2|]. eapply keeps_trans; [eapply keeps_less; [exact K5|lia]|eapply keeps_less; [exact K|lia]].
        + do 2 f_equal.
          * apply cstr_at; [|now apply name_nz]. eapply at_keeps; [eapply at_keeps; [exact AN2|exact K5|]|exact K|];
              rewrite app_length; cbn [length]; lia.
          * eapply cstr_keeps; [|exact EZ5|exact K]. lia. }
    intros [[b' s'] st'] (pl' & a' & wa' & sp' & e & B1 & B2 & B3 & B4).
    exists pl', a', wa', sp', e. split; [exact B1|]. split; [lia|]. split; [|exact B4].
    eapply chg_trans; [eapply chg_weaken; [exact C2|lia|lia]|].
    eapply chg_trans; [eapply chg_weaken; [exact C5|lia|lia]|].
    eapply chg_weaken; [exact B3|lia|lia]. }
  clearbody sp1.
  assert (forall p y, nth_error F p = Some 62 -> nth_error b p = Some y -> (s1 <= p)%nat ->
            upto (p + (if (y =? 62)%N then 1 else 0))%nat (S p) /\ (p + (if (y =? 62)%N then 1 else 0) < L)%nat) as GT.
  { intros p y F62 Ey PP. eapply upto_gt; [exact O|lia|exact F62|exact Ey]. }
  assert (forall b' , keeps s1 b b' -> strings b' pl = a) as STR1 by (intros b' K; apply STR; eapply keeps_less; [exact K|lia]).
  destruct (N.eqb_spec c 47) as [->|N47].
  { destruct (orig_nz b s s1 47 O A1 E ltac:(lia)) as [F47 Q47].
    eapply ret_bind; [apply ret_rd|]. intros x Ex. cbn beta.
    assert (forall s', nth_error F (S s1) = Some 62 -> s' = (S s1 + (if (x =? 62)%N then 1 else 0))%nat ->
              ret (fun '(b', s', st') => exists pl' a' wa' sp' e,
                 orig b' s' /\ (s <= s' < L)%nat /\ chg s s' b b' /\ upto s' e /\ rough_attrs a' wa' /\ spaces sp' /\
                 (forall b'', keeps s' b' b'' -> strings b'' pl' = a') /\ (B < e)%nat /\
                 (st' = open_frame np pl' :: st0 /\ slice F B e = wa' ++ sp' ++ [62] \/
                  st' = add_kid (Elem np pl' []) st0 /\ slice F B e = wa' ++ sp' ++ [47; 62]))
               (do st <- pop_node (open_frame np pl :: st0); Val (b, s', st))) as FIN.
    { intros s' F62 ES. destruct (GT (S s1) x F62 Ex ltac:(lia)) as [U UL]. rewrite <- ES in U, UL.
      assert (S s1 <= s')%nat as SS' by (rewrite ES; lia). clear ES. destruct st0 as [|f r]; [congruence|].
      cbn [pop_node open_frame f_name f_attrs f_kids bind ret]. exists pl, a, wa, sp1, (S (S s1)).
      split; [eapply orig_more; [exact O|lia]|]. split; [lia|]. split; [apply chg_refl|]. split; [exact U|]. split; [exact RA|].
      split; [exact SPP|]. split; [intros b'' K; apply STR; eapply keeps_less; [exact K|lia]|]. split; [lia|]. right.
      split; [reflexivity|]. rewrite (slice_app F B s1) by lia. rewrite SL1, <- app_assoc. do 2 f_equal.
      rewrite (slice_cons s1 _ 47 F47) by lia. f_equal. now apply slice_one. }
    destruct (N.eqb_spec x 62) as [->|N62].
    - apply FIN; [|cbn; lia]. eapply orig_nz; [exact O| |exact Ex|]; lia.
    - destruct ((x =? 0) && (endch =? 62)) eqn:T; [|exact I]. assert (x = 0) as -> by lia.
      apply FIN; [|cbn; lia]. rewrite (orig_z b s (S s1) O ltac:(lia) Ex). rewrite LASTF. f_equal. lia. }
  assert (forall s', nth_error F s1 = Some 62 -> s' = (s1 + (if (c =? 62)%N then 1 else 0))%nat ->
            ret (fun '(b', s', st') => exists pl' a' wa' sp' e,
               orig b' s' /\ (s <= s' < L)%nat /\ chg s s' b b' /\ upto s' e /\ rough_attrs a' wa' /\ spaces sp' /\
               (forall b'', keeps s' b' b'' -> strings b'' pl' = a') /\ (B < e)%nat /\
               (st' = open_frame np pl' :: st0 /\ slice F B e = wa' ++ sp' ++ [62] \/
                st' = add_kid (Elem np pl' []) st0 /\ slice F B e = wa' ++ sp' ++ [47; 62]))
             (Val (b, s', open_frame np pl :: st0))) as FIN.
  { intros s' F62 ES. destruct (GT s1 c F62 E ltac:(lia)) as [U UL]. rewrite <- ES in U, UL.
    assert (s1 <= s')%nat as SS' by (rewrite ES; lia). clear ES. cbn [ret]. exists pl, a, wa, sp1, (S s1).
    split; [eapply orig_more; [exact O|lia]|]. split; [lia|]. split; [apply chg_refl|]. split; [exact U|]. split; [exact RA|].
    split; [exact SPP|]. split; [intros b'' K; apply STR; eapply keeps_less; [exact K|lia]|]. split; [lia|]. left.
    split; [reflexivity|]. rewrite (slice_app F B s1) by lia. rewrite SL1, <- app_assoc. do 2 f_equal. now apply slice_one. }
  destruct (N.eqb_spec c 62) as [->|N62].
  - apply FIN; [|cbn; lia]. eapply orig_nz; [exact O| |exact E|]; lia.
  - destruct ((c =? 0) && (endch =? 62)) eqn:T; [|exact I]. assert (c = 0) as -> by lia.
    apply FIN; [|cbn; lia]. rewrite (orig_z b s s1 O ltac:(lia) E). rewrite LASTF. f_equal. lia.
Qed.

Lemma match_ret b : forall nm n s np, Forall (fun c => c <> 0) nm -> at_ b np (nm ++ [0]) ->
  ret (fun o => match o with
                | Some (s', p) => nth_error b p = Some 0 -> at_ b s nm /\ s' = (s + length nm)%nat
                | None => True
                end) (match_name n b s np).
Proof.
  induction nm as [|x nm IH]; intros n s np NZ A; (destruct n as [|n]; cbn [match_name]; [exact I|]);
    (eapply ret_bind; [apply ret_rd|]); intros c E; cbn beta.
  - destruct (is_type ct_symbol c) eqn:T.
    + cbn [app] in A. apply at_cons in A. rewrite (rd_ok _ _ _ (proj1 A)). cbn [bind].
      apply symbol_nz in T. replace (c =? 0) with false by lia. exact I.
    + cbn [ret]. intros _. split; [apply at_nil|]. cbn [length]. lia.
  - cbn [app] in A. apply at_cons in A. destruct A as [A1 A]. inversion NZ as [|? ? NX NZ']; subst.
    destruct (is_type ct_symbol c) eqn:T.
    + rewrite (rd_ok _ _ _ A1). cbn [bind]. destruct (N.eqb_spec c x) as [->|_]; [|exact I].
      eapply ret_imp; [apply (IH n (S s) (S np) NZ' A)|]. intros [[s' p]|]; [|auto]. intros H Z.
      destruct (H Z) as [H1 H2]. split; [apply at_cons; auto|]. cbn [length]. lia.
    + cbn [ret]. intros Z. congruence.
Qed.

Lemma pre_some P b st w : pre P b st w -> exists f r, st = f :: r.
Proof. intros []; eauto. Qed.

Lemma end_tag_ret w b s st : orig b s -> pre s b st w -> nth_error b s = Some 47 ->
  ret (next w b s) (end_tag endch b (S s) st).
Proof.
  intros O P E47. pose proof (proj1 O) as OB.
  destruct (orig_nz _ _ _ _ O (le_n s) E47 ltac:(lia)) as [F47 _].
  unfold end_tag. destruct P as [l k w T S|st w np pl l nm a wb sp k wk H NM RA SP RC S HS]; cbn [f_name]; [exact I|].
  destruct (HS b ltac:(intros i I; reflexivity)) as [AN _].
  eapply ret_bind; [apply (match_ret b nm _ _ _ (name_nz _ NM) AN)|].
  intros [[s1 p]|] M; cbn beta iota; [|exact I].
  eapply ret_bind; [apply ret_rd|]. intros x Ex. cbn beta.
  destruct (N.eqb_spec x 0) as [->|NX]; cbn [negb].
  2:{ eapply ret_bind; [apply ret_rd|]. intros c Ec. cbn beta.
      eapply ret_bind with (P := fun _ => True).
      - destruct ((c =? 0) && (x =? endch)); [|exact I]. eapply ret_imp; [apply ret_rd|auto].
      - intros y _. cbn beta. destruct ((c =? 0) && (x =? endch) && (y =? 0)); exact I. }
  destruct (M Ex) as [AM ES]. clear M.
  destruct (pre_some _ _ _ _ H) as (f & r & EST). rewrite EST. cbn [pop_node f_name f_attrs f_kids bind]. rewrite <- EST.
  eapply ret_bind; [apply skip_ret|]. intros s2 (A2 & R2 & c & Ec & _). cbn beta. rewrite (rd_ok _ _ _ Ec). cbn [bind].
  pose proof (below _ _ _ OB Ec) as S2L.
  pose proof (spaces_F b s s1 s2 O ltac:(lia) S2L R2) as SP2.
  assert (nth_error F s2 = Some 62 -> forall s', s' = (s2 + (if (c =? 62)%N then 1 else 0))%nat ->
          next (w ++ [60] ++ nm ++ wb ++ sp ++ [62] ++ wk) b s (b, s', add_kid (Elem np pl l) st)) as FIN.
  { intros F62 s' E. destruct (upto_gt b s s2 c O ltac:(lia) F62 Ec) as [U UL]. rewrite <- E in U, UL.
    assert (s2 <= s')%nat as SS' by (rewrite E; lia). clear E. cbn [next].
    split; [eapply orig_more; [exact O|lia]|]. split; [lia|]. exists (Datatypes.S s2). split; [exact U|].
    replace ((w ++ [60] ++ nm ++ wb ++ sp ++ [62] ++ wk) ++ [60] ++ slice F s (Datatypes.S s2))
      with (w ++ ([60] ++ nm ++ wb ++ sp ++ [62] ++ wk ++ [60; 47] ++ nm ++ slice F s1 s2 ++ [62])).
    - apply (pre_sub _ _ _ _ (El nm a k)).
      + eapply pre_later; [exact H|intros i I; reflexivity|lia].
      + now apply rough_full.
      + intros b' K. assert (keeps s b b') as K' by (eapply keeps_less; [exact K|lia]).
        cbn [map shown]. destruct (HS b' K') as [H1 H2]. rewrite (cstr_at _ _ _ H1 (name_nz _ NM)).
        change (map (fun a => (cstr b' (fst a), cstr b' (snd a))) pl) with (strings b' pl). rewrite H2, (S b' K'). reflexivity.
    - assert (slice F s (Datatypes.S s2) = [47] ++ nm ++ slice F s1 s2 ++ [62]) as ->.
      + rewrite (slice_cons s _ 47 F47) by lia. cbn [app]. f_equal.
        rewrite (slice_app F (Datatypes.S s) s1) by lia. f_equal.
        * rewrite <- (at_slice _ _ _ AM). rewrite <- ES. apply list_ext. intros i. rewrite !slice_nth.
          destruct (Nat.ltb_spec i (s1 - Datatypes.S s)); [|reflexivity]. symmetry. apply (proj2 O). lia.
        * rewrite (slice_app F s1 s2) by lia. f_equal. now apply slice_one.
      + repeat (rewrite <- app_assoc; cbn [app]). reflexivity. }
  destruct (N.eqb_spec c 0) as [->|NC].
  - destruct (N.eqb_spec endch 62) as [E62|]; cbn [negb]; [|exact I]. cbn [ret]. apply FIN; [|cbn; lia].
    rewrite (orig_z b s s2 O ltac:(lia) Ec). now rewrite LASTF, E62.
  - destruct (N.eqb_spec c 62) as [->|]; cbn [negb]; [|exact I]. cbn [ret]. apply FIN; [|cbn; lia].
    eapply orig_nz; [exact O| |exact Ec|]; lia.
Qed.

Lemma shows_elem P np pl nm a b : Forall (fun c => c <> 0) nm ->
  (forall b', keeps P b b' -> at_ b' np (nm ++ [0]) /\ strings b' pl = a) -> shows P [El nm a []] [Elem np pl []] b.
Proof.
  intros NZ H b' K. destruct (H b' K) as [H1 H2]. cbn [map shown]. rewrite (cstr_at _ _ _ H1 NZ).
  change (map (fun a => (cstr b' (fst a), cstr b' (snd a))) pl) with (strings b' pl). now rewrite H2.
Qed.

(** a start tag that ends with the file leaves its element open *)
Definition next_or_open (w b : bytes) (s : nat) (r : bytes * nat * list frame) : Prop :=
  next w b s r \/ (let '(b', s', st') := r in okb L b' /\ s' = (L - 1)%nat /\ nested st' = true).

Lemma tag_ret w b s st : orig b s -> pre s b st w -> (0 < s)%nat -> ret (next_or_open w b s) (tag endch b s st).
Proof.
  intros O P SP. pose proof (proj1 O) as OB. assert (length b = L) as LB by apply OB.
  unfold tag. eapply ret_bind; [apply ret_rd|]. intros c E. cbn beta.
  destruct (is_type ct_start_symbol c) eqn:TS.
  2:{ destruct (N.eqb_spec c 47) as [->|_]; [eapply ret_imp; [now apply (end_tag_ret w)|intros r H; left; exact H]|].
      destruct (N.eqb_spec c 63) as [->|_].
      { eapply ret_bind; [now apply (question_ret w b s st)|]. intros s' H. left. exact H. }
      destruct (N.eqb_spec c 33) as [->|_]; [eapply ret_imp; [now apply (exclamation_ret w)|intros r H; left; exact H]|].
      destruct ((c =? 0) && (endch =? 63)); exact I. }
  eapply ret_bind; [apply scan_ret|]. intros s1 (A1 & R1 & ch & Eh & Th). cbn beta. rewrite (rd_ok _ _ _ Eh). cbn [bind].
  pose proof (below _ _ _ OB Eh) as S1L.
  assert (s < s1)%nat as A1'.
  { destruct (Nat.eq_dec s s1) as [<-|]; [|lia]. rewrite E in Eh. injection Eh as <-. apply start_is_symbol in TS. congruence. }
  pose proof (name_F b s s c s1 O ltac:(lia) E TS S1L R1 A1') as NM. set (nm := slice F s s1) in *.
  assert (at_ b s nm) as AN.
  { intros i x H. subst nm. rewrite slice_nth in H. destruct (Nat.ltb_spec i (s1 - s)); [|discriminate].
    rewrite (proj2 O) by lia. exact H. }
  assert (s + length nm = s1)%nat as LN by (subst nm; rewrite slice_length by (fold L; lia); lia).
  assert (forall e, (s1 <= e)%nat -> slice F s e = nm ++ slice F s1 e) as SLN by (intros e He; now rewrite (slice_app F s s1) by lia).
  clearbody nm.
  rewrite wr_ok by lia. cbn [bind]. set (b1 := upd b s1 0).
  assert (chg s1 (S s1) b b1) as C1 by (apply chg_upd; lia).
  assert (okb L b1) as O1 by (apply okb_upd0; [exact OB|lia]).
  assert (at_ b1 s (nm ++ [0])) as AN1.
  { apply at_app. split; [eapply at_chg_before; [exact AN|exact C1|lia]|]. rewrite LN. apply at_cons. split; [apply upd_eq; lia|apply at_nil]. }
  assert (orig b1 (S s1)) as OR1 by (eapply (orig_chg b b1 s); [exact O|exact O1|exact C1|lia|lia]).
  clearbody b1.
  assert (forall P' b', (S s1 <= P')%nat -> keeps P' b1 b' -> at_ b' s (nm ++ [0])) as ANK.
  { intros P' b' HP K. eapply at_keeps; [exact AN1|exact K|]. rewrite app_length. cbn [length]. lia. }
  destruct (pre_some _ _ _ _ P) as (f & r & EST).
  assert (nested (open_frame s [] :: st) = true) as NEST by (rewrite EST; reflexivity).
  change (push_node s st) with (open_frame s [] :: st).
  destruct (N.eqb_spec ch 62) as [->|N62].
  { assert (nth_error F s1 = Some 62 /\ (s1 < L - 1)%nat) as [F62 Q] by (eapply orig_nz; [exact O| |exact Eh|]; lia).
    cbn [ret]. left. cbn [next]. split; [exact OR1|]. split; [lia|]. exists (S s1). split; [left; lia|].
    rewrite SLN by lia. rewrite (slice_one F s1 62 F62).
    replace (w ++ [60] ++ nm ++ [62]) with (w ++ [60] ++ nm ++ [] ++ [] ++ [62] ++ []) by reflexivity.
    apply (pre_open _ _ _ _ _ _ _ nm [] [] [] [] []).
    - eapply pre_later; [exact P|eapply keeps_chg; [exact C1|lia]|lia].
    - exact NM.
    - constructor.
    - constructor.
    - constructor.
    - intros b' K. reflexivity.
    - intros b' K. split; [eapply ANK; [apply le_n|exact K]|reflexivity]. }
  destruct (is_type ct_space ch) eqn:TSP.
  { assert (ch <> 0) as NCH by (intros ->; discriminate).
    assert (nth_error F s1 = Some ch /\ (s1 < L - 1)%nat) as [FCH Q] by (eapply orig_nz; [exact O| |exact Eh|]; try lia; exact NCH).
    eapply ret_imp.
    { apply (attributes_ret s1 s st ltac:(rewrite EST; discriminate) (fuel b1) b1 (S s1) [] [] [] [ch] OR1); [lia| | | | |].
      - now apply slice_one.
      - constructor.
      - constructor; [|constructor]. rewrite type_space in TSP. unfold spaceb in TSP. unfold space. lia.
      - left. discriminate.
      - reflexivity. }
    intros [[b' s'] st'] (pl' & a' & wa' & sp' & e & B1 & B2 & B3 & B4 & B5 & B6 & B7 & B8 & B9). left. cbn [next].
    split; [exact B1|]. split; [lia|]. exists e. split; [exact B4|]. rewrite SLN by lia.
    assert (keeps (S s1) b1 b') as K1 by (eapply keeps_chg; [exact B3|lia]).
    assert (pre s' b' st w) as P'.
    { eapply pre_later; [exact P| |lia]. eapply keeps_trans; [eapply keeps_chg; [exact C1|lia]|eapply keeps_less; [exact K1|lia]]. }
    assert (forall b'', keeps s' b' b'' -> at_ b'' s (nm ++ [0]) /\ strings b'' pl' = a') as STR.
    { intros b'' K. split; [|now apply B7]. eapply ANK; [apply le_n|]. eapply keeps_trans; [exact K1|eapply keeps_less; [exact K|lia]]. }
    destruct B9 as [[-> E9]|[-> E9]]; rewrite E9.
    - replace (w ++ [60] ++ nm ++ wa' ++ sp' ++ [62]) with (w ++ [60] ++ nm ++ wa' ++ sp' ++ [62] ++ []) by reflexivity.
      apply (pre_open _ _ _ _ _ _ _ nm a' wa' sp' [] []); auto; [constructor|]. intros b'' K. reflexivity.
    - apply (pre_sub _ _ _ _ (El nm a' [])); [exact P'|now apply rough_empty|]. apply shows_elem; [now apply name_nz|exact STR]. }
  destruct (N.eqb_spec ch 47) as [->|N47].
  { assert (nth_error F s1 = Some 47 /\ (s1 < L - 1)%nat) as [F47 Q] by (eapply orig_nz; [exact O| |exact Eh|]; lia).
    eapply ret_bind; [apply ret_rd|]. intros x Ex. cbn beta.
    unfold endswith. destruct ((x =? 62) || (x =? 0) && (endch =? 62)) eqn:T; cbn [negb]; [|exact I].
    rewrite EST. cbn [pop_node open_frame f_name f_attrs f_kids bind ret]. rewrite <- EST. left.
    assert (nth_error F (S s1) = Some 62) as F62.
    { destruct (N.eqb_spec x 62) as [->|]; [eapply orig_nz; [exact OR1| |exact Ex|]; lia|].
      assert (x = 0) as -> by lia. rewrite (orig_z b1 (S s1) (S s1) OR1 ltac:(lia) Ex). rewrite LASTF. f_equal. lia. }
    destruct (upto_gt b1 (S s1) (S s1) x OR1 ltac:(lia) F62 Ex) as [U UL].
    set (s' := (S s1 + (if (x =? 62)%N then 1 else 0))%nat) in *. assert (S s1 <= s')%nat as SS' by (subst s'; lia). clearbody s'.
    cbn [next]. split; [eapply orig_more; [exact OR1|lia]|]. split; [lia|]. exists (S (S s1)). split; [exact U|].
    rewrite SLN by lia. rewrite (slice_cons s1 _ 47 F47) by lia. rewrite (slice_one F _ 62 F62).
    apply (pre_sub _ _ _ _ (El nm [] [])).
    - eapply pre_later; [exact P|eapply keeps_chg; [exact C1|lia]|lia].
    - apply (rough_empty nm [] [] []); auto; constructor.
    - apply shows_elem; [now apply name_nz|]. intros b' K. split; [|reflexivity]. eapply ANK; [|exact K]. lia. }
  destruct (N.eqb_spec ch 0) as [->|N0]; [|exact I].
  destruct (endch =? 62); cbn [negb]; [|exact I]. cbn [ret]. right. split; [exact O1|]. split; [|exact NEST].
  eapply orig_z; [exact O| |exact Eh]. lia.
Qed.

Lemma scan_lt b s0 : orig b s0 -> forall n s, (s0 <= s)%nat ->
  ret (fun s' => (s <= s' < L)%nat /\ run F (fun c => c <> 60) s s' /\ (nth_error b s' = Some 0 \/ nth_error b s' = Some 60))
      (scan_for n (starts [60]) b s).
Proof.
  intros O. induction n as [|n IH]; intros s S; cbn [scan_for]; [exact I|].
  eapply ret_bind; [apply ret_rd|]. intros c E. cbn beta.
  pose proof (below _ _ _ (proj1 O) E) as SL.
  destruct (N.eqb_spec c 0) as [->|NC]; [cbn [ret]; split; [lia|]; split; [apply run_nil; lia|left; exact E]|].
  cbn [starts]. rewrite (rd_ok _ _ _ E). cbn [bind].
  destruct (N.eqb_spec c 60) as [->|N60]; cbn [bind].
  - cbn [ret]. split; [lia|]. split; [apply run_nil; lia|right; exact E].
  - eapply ret_imp; [apply IH; lia|]. intros s' (A & R & C). split; [lia|]. split; [|exact C].
    eapply run_app; [|exact R]. eapply run_one; [|exact N60]. eapply orig_nz; [exact O| |exact E|exact NC]. exact S.
Qed.

Lemma no_lt i j : run F (fun c => c <> 60) i j -> ~ In 60 (slice F i j).
Proof. intros R I. apply run_slice in R. rewrite Forall_forall in R. now apply R in I. Qed.

Lemma nested_add y st : nested (add_kid y st) = nested st.
Proof. destruct st as [|f [|g r]]; reflexivity. Qed.

Lemma tree_ret B : forall n b s st (t : bool),
  orig b s -> (B <= s < L)%nat ->
  (if t then (B < s)%nat /\ nth_error F (s - 1) = Some 60 /\ pre s b st (slice F B (s - 1))
   else (s = (L - 1)%nat /\ nested st = true) \/ exists e, upto s e /\ pre s b st (slice F B e)) ->
  ret (fun '(b', s', st') => nested st' = true \/
         exists e, s' = (L - 1)%nat /\ upto s' e /\ pre s' b' st' (slice F B e)) (tree n endch b s st t).
Proof.
  induction n as [|n IH]; intros b s st t O BS H; cbn [tree]; [exact I|].
  pose proof (proj1 O) as OB.
  destruct t.
  { destruct H as (BS' & F60 & P).
    eapply ret_bind; [apply (tag_ret _ _ _ _ O P); lia|]. intros [[b' s'] st'] T. cbn beta iota.
    assert (w60 : forall e, (s <= e)%nat -> slice F B (s - 1) ++ [60] ++ slice F s e = slice F B e).
    { intros e He. rewrite (slice_app F B (s - 1) e) by lia. f_equal. rewrite (slice_cons (s - 1) e 60 F60) by lia.
      now replace (S (s - 1)) with s by lia. }
    destruct T as [(O' & S' & e & U & P')|(OK' & ES & NE)].
    - apply IH; [exact O'|lia|]. right. exists e. split; [exact U|]. rewrite w60 in P' by (unfold upto in U; lia). exact P'.
    - apply IH; [split; [exact OK'|intros i I; lia]|lia|]. left. auto. }
  eapply ret_bind; [apply ret_rd|]. intros c E. cbn beta.
  destruct (N.eqb_spec c 0) as [->|NC].
  { cbn [ret]. destruct H as [[_ H]|(e & U & P)]; [left; exact H|]. right. exists e. split; [|auto].
    eapply orig_z; [exact O| |exact E]. lia. }
  assert (nth_error F s = Some c /\ (s < L - 1)%nat) as [FC Q] by (eapply orig_nz; [exact O| |exact E|]; [lia|exact NC]).
  assert (pre s b st (slice F B s)) as P by (destruct H as [[H _]|(e & [->|[U _]] & P)]; [lia|exact P|lia]). clear H.
  destruct (N.eqb_spec c 60) as [->|N60].
  { apply IH; [eapply orig_more; [exact O|lia]|lia|]. replace (S s - 1)%nat with s by lia.
    split; [lia|]. split; [exact FC|]. eapply pre_later; [exact P|intros i I; reflexivity|lia]. }
  eapply ret_bind; [apply skip_ret|]. intros s1 (A1 & R1 & c1 & E1 & T1). cbn beta. rewrite (rd_ok _ _ _ E1). cbn [bind].
  pose proof (below _ _ _ OB E1) as S1L.
  destruct ((c1 =? 60) || (c1 =? 0)).
  { apply IH; [eapply orig_more; [exact O|lia]|lia|]. right. exists s1. split; [left; reflexivity|].
    rewrite (slice_app F B s s1) by lia. apply pre_space; [eapply pre_later; [exact P|intros i I; reflexivity|lia]|].
    eapply spaces_F; [exact O| |exact S1L|exact R1]. lia. }
  destruct (nested st) eqn:NE.
  - eapply ret_bind; [apply (pcdata_ret s (fuel b) b no_gap s O); apply gapok_none|].
    intros [b' s'] (O' & S' & C' & _ & D). cbn beta iota.
    eapply ret_bind; [apply ret_rd|]. intros x Ex. cbn beta.
    destruct (N.eqb_spec x 0) as [->|NX]; [cbn [ret]; left; now rewrite nested_add|].
    destruct D as [(SS' & R & F60 & e & He & Ze)|[Z _]]; [|congruence].
    apply IH; [exact O'|lia|]. split; [lia|]. split; [exact F60|].
    rewrite (slice_app F B s (s' - 1)) by lia. apply (pre_text _ _ _ _ (cstr b' s)); [exact NE| |now apply no_lt|].
    + eapply pre_later; [exact P|eapply keeps_chg; [exact C'|lia]|lia].
    + intros b'' K. cbn [map shown]. do 2 f_equal. eapply cstr_keeps; [|exact Ze|exact K]. exact He.
  - eapply ret_bind; [apply (scan_lt b s O); lia|]. intros s' (S' & R & D). cbn beta.
    eapply ret_bind; [apply ret_rd|]. intros x Ex. cbn beta.
    assert (pre s' b st (slice F B s')) as P'.
    { rewrite (slice_app F B s s') by lia. apply pre_junk; [exact NE| |now apply no_lt].
      eapply pre_later; [exact P|intros i I; reflexivity|lia]. }
    destruct (N.eqb_spec x 0) as [->|NX].
    + cbn [ret]. right. exists s'. split; [eapply orig_z; [exact O| |exact Ex]; lia|]. split; [left; reflexivity|exact P'].
    + assert (nth_error F s' = Some 60 /\ (s' < L - 1)%nat) as [F60 Q'].
      { destruct D as [D|D]; [congruence|]. eapply orig_nz; [exact O| |exact D|]; lia. }
      apply IH; [eapply orig_more; [exact O|lia]|lia|]. replace (S s' - 1)%nat with s' by lia. split; [lia|]. split; [exact F60|].
      eapply pre_later; [exact P'|intros i I; reflexivity|lia].
Qed.

Lemma parse_tree_ret B b : orig b B -> (B < L)%nat -> endch <> 60 ->
  ret (fun '(b', kids) => exists k, rough_top k (slice F B L) /\ map (shown b') kids = k) (parse_tree endch b B).
Proof.
  intros O BL N60. unfold parse_tree.
  eapply ret_bind; [apply (tree_ret B (fuel b) b B [root] false O); [lia|]|].
  { right. exists B. split; [left; reflexivity|]. rewrite slice_nil by lia. apply (pre_root _ _ [] []); [constructor|]. intros b' K. reflexivity. }
  intros [[b' s'] st'] H. cbn beta iota. destruct st' as [|f [|g r]]; try exact I. cbn [ret].
  destruct H as [H|(e & -> & U & P)]; [discriminate|]. inversion P as [l k w T SH EF EW|? ? ? ? ? ? ? ? ? ? ? P1 _ _ _ _ _ _ EF EW]; subst.
  - cbn [f_kids]. exists k. split; [|apply SH; intros i I; reflexivity].
    destruct U as [->|[_ ->]]; [|exact T].
    rewrite (slice_app F B (L - 1) L) by lia. apply top_text; [exact T|].
    pose proof (slice_one F _ _ LASTF) as E1. replace (S (L - 1)) with L in E1 by lia. rewrite E1. cbn. intros [X|[]]. congruence.
  - destruct (pre_some _ _ _ _ P1) as (? & ? & ?). discriminate.
Qed.

End Only.

Lemma slice_all b : slice b 0 (length b) = b.
Proof. unfold slice. rewrite Nat.sub_0_r. cbn [skipn]. apply firstn_all. Qed.

Lemma parse_only file : (forall k c, (k < length file - 1)%nat -> nth_error file k = Some c -> c <> 0) ->
  ret (fun '(b, kids) => rough_file (map (shown b) kids) file) (parse file).
Proof.
  intros NZF. unfold parse. destruct (length file) as [|last] eqn:EL; [exact I|]. rewrite <- EL in NZF.
  eapply ret_bind; [apply ret_rd|]. intros endch E. cbn beta.
  assert (nth_error file (length file - 1) = Some endch) as LASTF by (rewrite EL; replace (S last - 1)%nat with last by lia; exact E).
  rewrite wr_ok by lia. cbn [bind]. set (b := upd file last 0).
  assert (okb (length file) b) as OB.
  { subst b. split; [apply upd_length; lia|]. split; [lia|]. rewrite EL. replace (S last - 1)%nat with last by lia. apply upd_eq. lia. }
  assert (orig file b 0) as O.
  { split; [exact OB|]. intros i I. subst b. apply upd_neq; lia. }
  clearbody b.
  eapply ret_bind with (P := fun s => (s < length file)%nat /\ exists bom, file = bom ++ slice file s (length file) /\ (bom = [] \/ bom = [239; 187; 191])).
  { unfold skip_bom. eapply ret_bind with (P := fun x : bool => x = true -> at_ b 0 [239; 187; 191]).
    { cbn [starts]. eapply ret_bind; [apply ret_rd|]. intros x0 E0. cbn beta.
      destruct (N.eqb_spec x0 239) as [->|_]; [|intros X; discriminate].
      eapply ret_bind; [apply ret_rd|]. intros x1 E1. cbn beta.
      destruct (N.eqb_spec x1 187) as [->|_]; [|intros X; discriminate].
      eapply ret_bind; [apply ret_rd|]. intros x2 E2. cbn beta.
      destruct (N.eqb_spec x2 191) as [->|_]; [|intros X; discriminate].
      intros _. apply at_cons. split; [exact E0|]. apply at_cons. split; [exact E1|]. apply at_cons. split; [exact E2|apply at_nil]. }
    intros [|] X; cbn beta iota; cbn [ret].
    - specialize (X eq_refl). apply at_cons in X. destruct X as [X0 X]. apply at_cons in X. destruct X as [X1 X]. apply at_cons in X. destruct X as [X2 _].
      destruct (orig_nz file NZF b 0 0 _ O ltac:(lia) X0 ltac:(lia)) as [F0 _].
      destruct (orig_nz file NZF b 0 1 _ O ltac:(lia) X1 ltac:(lia)) as [F1 _].
      destruct (orig_nz file NZF b 0 2 _ O ltac:(lia) X2 ltac:(lia)) as [F2 Q].
      split; [lia|]. exists [239; 187; 191]. split; [|right; reflexivity].
      rewrite <- (slice_all file) at 1. rewrite (slice_cons file NZF 0 _ _ F0) by lia. rewrite (slice_cons file NZF 1 _ _ F1) by lia.
      rewrite (slice_cons file NZF 2 _ _ F2) by lia. reflexivity.
    - split; [lia|]. exists []. split; [|left; reflexivity]. cbn [app]. symmetry. apply slice_all. }
  intros s (SL & bom & EB & HB). cbn beta.
  assert (orig file b s) as OS by (destruct O as [O1 O2]; split; [exact O1|]; intros i I; apply O2; lia).
  assert (endch <> 60 -> ret (fun '(b', kids) => exists k, rough_top k (slice file s (length file)) /\ map (shown b') kids = k) (parse_tree endch b s)) as H
    by (intros NL; apply parse_tree_ret; assumption).
  destruct (parse_tree endch b s) as [[b' kids]| | |]; try exact I.
  destruct (N.eqb_spec endch 60) as [->|N60]; [exact I|]. destruct (existsb is_elem kids) eqn:EX; cbn [negb]; [|exact I].
  cbn [ret]. destruct (H N60) as (k & T & EK). rewrite EK.
  exists bom, (slice file s (length file)). split; [exact EB|]. split; [exact HB|]. split; [exact T|].
  apply existsb_exists in EX. destruct EX as ([np pl l|v|v] & I & IE); try discriminate.
  apply (in_map (shown b')) in I. rewrite EK in I. cbn [shown] in I. eauto.
Qed.

Lemma no_zero (w : bytes) : ~ In 0 w -> forall k c, (k < length w - 1)%nat -> nth_error w k = Some c -> c <> 0.
Proof. intros H k c _ E ->. apply H. eapply nth_error_In. exact E. Qed.

Theorem only file k : Forall (fun c => c < 256) file -> ~ In 0 file -> open_xml file = Document k ->
  rough_file k file \/ Exists (fun c => 128 <= c) file /\ rough_file k (flat_map utf8_of file ++ [0]).
Proof.
  intros BY NZ. unfold open_xml, load.
  assert (forall r, r = parse file -> match r with Val (b, kids) => Document (map (shown b) kids) | Err st off b => Reported st (prettify b off) | Wild => Crashed | Loop => Hung end = Document k -> rough_file k file) as H1.
  { intros r ->. pose proof (parse_only file (no_zero _ NZ)) as H. destruct (parse file) as [[b kids]| | |]; try discriminate.
    intros X. injection X as <-. exact H. }
  destruct (guess file); try discriminate.
  - intros X. left. eapply H1; [reflexivity|exact X].
  - destruct (forallb (fun c => c <? 128) file) eqn:FA; [intros X; left; eapply H1; [reflexivity|exact X]|].
    intros X. right. split.
    { clear - FA. induction file as [|c l IH]; [discriminate|]. cbn [forallb] in FA. destruct (N.ltb_spec c 128); [right; now apply IH|left; lia]. }
    assert (flat_map utf8 file = flat_map utf8_of file /\ ~ In 0 (flat_map utf8_of file)) as [EU NU].
    { clear - BY NZ. induction BY as [|c l B BY IH]; [split; [reflexivity|intros []]|]. cbn [flat_map].
      destruct IH as [IH1 IH2]; [intros I; apply NZ; now right|]. split.
      - rewrite IH1. f_equal. apply utf8_is. lia.
      - intros I. apply in_app_or in I. destruct I as [I|I]; [|now apply IH2].
        pose proof (utf8_nz c) as Z. rewrite Forall_forall in Z. apply (Z ltac:(assert (c <> 0) by (intros ->; apply NZ; now left); lia)) in I. congruence. }
    rewrite EU in X.
    assert (forall k c, (k < length (flat_map utf8_of file ++ [0%N]) - 1)%nat -> nth_error (flat_map utf8_of file ++ [0]) k = Some c -> c <> 0) as NZF.
    { intros i c K E ->. rewrite app_length in K. cbn [length] in K. rewrite nth_error_app1 in E by lia. apply NU. eapply nth_error_In. exact E. }
    pose proof (parse_only _ NZF) as H. destruct (parse (flat_map utf8_of file ++ [0])) as [[b kids]| | |]; try discriminate.
    injection X as <-. exact H.
Qed.
