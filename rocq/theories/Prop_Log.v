(** C111: the log. *)
From Coq Require Import NArith ZArith List Bool PeanoNat Ascii String Lia ZifyBool ZifyNat ZifyN.
From Verif Require Import Log LogSpec.
Import ListNotations.
Open Scope nat_scope.

(** ** Times *)
Lemma chars_two tbl k : forall lo hi, (forall i, i < 200 -> lo <= i <= hi -> chars tbl (2 * (Z.of_nat i - k)) 2 = Some (Raw (two (Z.of_nat i)))) -> hi < 200 ->
  forall n, (Z.of_nat lo <= n + k <= Z.of_nat hi)%Z -> chars tbl (2 * n) 2 = Some (Raw (two (n + k))).
Proof.
  intros lo hi H B n R. specialize (H (Z.to_nat (n + k)) ltac:(lia) ltac:(lia)). rewrite Z2Nat.id in H by lia. replace (n + k - k)%Z with n in H by lia. exact H.
Qed.
Ltac table := intros i _ Hi; do 110 (destruct i as [|i]; [first [reflexivity | exfalso; lia]|]); exfalso; lia.

Lemma yr_text n : (0 <= n <= 99)%Z -> chars tab_yr (2 * n) 2 = Some (Raw (two n)).
Proof. intros H. replace (two n) with (two (n + 0)) by (f_equal; lia). apply (chars_two _ 0 0 99); [table|lia|lia]. Qed.
Lemma mth_text n : (0 <= n <= 11)%Z -> chars tab_mth (2 * n) 2 = Some (Raw (two (n + 1))).
Proof. intros H. apply (chars_two _ 1 1 12); [table|lia|lia]. Qed.
Lemma day_text n : (1 <= n <= 31)%Z -> chars tab_day (2 * n) 2 = Some (Raw (two n)).
Proof. intros H. replace (two n) with (two (n + 0)) by (f_equal; lia). apply (chars_two _ 0 1 31); [table|lia|lia]. Qed.
Lemma hr_text n : (0 <= n <= 23)%Z -> chars tab_hr (2 * n) 2 = Some (Raw (two n)).
Proof. intros H. replace (two n) with (two (n + 0)) by (f_equal; lia). apply (chars_two _ 0 0 23); [table|lia|lia]. Qed.
Lemma min_text n : (0 <= n <= 59)%Z -> chars tab_min (2 * n) 2 = Some (Raw (two n)).
Proof. intros H. replace (two n) with (two (n + 0)) by (f_equal; lia). apply (chars_two _ 0 0 59); [table|lia|lia]. Qed.
Lemma sec_text n : (0 <= n <= 61)%Z -> chars tab_sec (2 * n) 2 = Some (Raw (two n)).
Proof. intros H. replace (two n) with (two (n + 0)) by (f_equal; lia). apply (chars_two _ 0 0 61); [table|lia|lia]. Qed.

Definition dig (n : N) : ascii := ascii_of_N (48 + n mod 10).
Lemma digit_div n m : (0 < m)%N -> digit (Z.of_N n / Z.of_N m) = dig (n / m).
Proof.
  intros H. unfold digit, dig. f_equal. rewrite <- N2Z.inj_div. change 10%Z with (Z.of_N 10). change 48%Z with (Z.of_N 48).
  rewrite <- N2Z.inj_mod by lia. rewrite <- N2Z.inj_add. apply N2Z.id.
Qed.
Lemma digit_0 n : digit (Z.of_N n) = dig n.
Proof. rewrite <- (Z.div_1_r (Z.of_N n)). change 1%Z with (Z.of_N 1). rewrite digit_div by lia. rewrite N.div_1_r. reflexivity. Qed.
Lemma decimal_S f n : decimal (S f) n = (if N.ltb n 10 then [] else decimal f (n / 10)) ++ [dig n].
Proof. reflexivity. Qed.
Lemma dig_small n m : (n < m)%N -> dig (n / m) = "0"%char.
Proof. intros H. rewrite N.div_small by exact H. reflexivity. Qed.

Lemma usec_text n : (n < 1000000)%N -> repeat "0"%char (6 - List.length (decimal 20 n)) ++ decimal 20 n = six (Z.of_N n).
Proof.
  intros H. unfold six.
  change 100000%Z with (Z.of_N 100000). change 10000%Z with (Z.of_N 10000). change 1000%Z with (Z.of_N 1000). change 100%Z with (Z.of_N 100). change 10%Z with (Z.of_N 10).
  rewrite !digit_div, digit_0 by lia.
  rewrite (decimal_S 19). destruct (N.ltb_spec n 10); [rewrite !dig_small by lia; reflexivity|].
  rewrite (decimal_S 18). destruct (N.ltb_spec (n / 10) 10) as [L|L];
    [assert (n < 100)%N by lia; rewrite (dig_small n 100), (dig_small n 1000), (dig_small n 10000), (dig_small n 100000) by lia; reflexivity|].
  rewrite (decimal_S 17). rewrite N.div_div by lia. change (10 * 10)%N with 100%N.
  destruct (N.ltb_spec (n / 100) 10);
    [assert (n < 1000)%N by lia; rewrite (dig_small n 1000), (dig_small n 10000), (dig_small n 100000) by lia; reflexivity|].
  rewrite (decimal_S 16). rewrite N.div_div by lia. change (100 * 10)%N with 1000%N.
  destruct (N.ltb_spec (n / 1000) 10);
    [assert (n < 10000)%N by lia; rewrite (dig_small n 10000), (dig_small n 100000) by lia; reflexivity|].
  rewrite (decimal_S 15). rewrite N.div_div by lia. change (1000 * 10)%N with 10000%N.
  destruct (N.ltb_spec (n / 10000) 10);
    [assert (n < 100000)%N by lia; rewrite (dig_small n 100000) by lia; reflexivity|].
  rewrite (decimal_S 14). rewrite N.div_div by lia. change (10000 * 10)%N with 100000%N.
  destruct (N.ltb_spec (n / 100000) 10); [reflexivity|].
  assert (10 * 100000 <= n)%N by lia. lia.
Qed.

Lemma year_text n : (1900 <= n <= 9999)%N -> decimal 20 n = four (Z.of_N n).
Proof.
  intros H. unfold four.
  change 1000%Z with (Z.of_N 1000). change 100%Z with (Z.of_N 100). change 10%Z with (Z.of_N 10).
  rewrite !digit_div, digit_0 by lia.
  rewrite (decimal_S 19). destruct (N.ltb_spec n 10); [lia|].
  rewrite (decimal_S 18). destruct (N.ltb_spec (n / 10) 10); [lia|].
  rewrite (decimal_S 17). rewrite N.div_div by lia. change (10 * 10)%N with 100%N.
  destruct (N.ltb_spec (n / 100) 10); [lia|].
  rewrite (decimal_S 16). rewrite N.div_div by lia. change (100 * 10)%N with 1000%N.
  destruct (N.ltb_spec (n / 1000) 10); [reflexivity|lia].
Qed.

Lemma two_mod n : (0 <= n)%Z -> two (Z.rem n 100) = two n.
Proof.
  intros H. rewrite Z.rem_mod_nonneg by lia. unfold two, digit.
  replace ((n mod 100) / 10 mod 10)%Z with (n / 10 mod 10)%Z by lia. replace ((n mod 100) mod 10)%Z with (n mod 10)%Z by lia. reflexivity.
Qed.

(** ** Lines *)
Lemma put_all_app o a b : put_all o (a ++ b) = put_all (put_all o a) b.
Proof. apply fold_left_app. Qed.
Lemma put_all_cons o x b : put_all o (x :: b) = put_all (put o x) b.
Proof. reflexivity. Qed.
Lemma put_fmt T F s : put (mkO T F 0) (Fmt s) = mkO (T ++ s) F 0.
Proof. reflexivity. Qed.
Lemma put_raw T F s : put (mkO T F 0) (Raw s) = mkO (T ++ s) F 0.
Proof. reflexivity. Qed.
Lemma put_args T F l : put_all (mkO T F 0) (map Fmt l) = mkO (T ++ List.concat l) F 0.
Proof.
  revert T. induction l as [|s r IH]; intros T; [cbn; rewrite app_nil_r; reflexivity|].
  cbn [map List.concat]. rewrite put_all_cons, put_fmt, IH, app_assoc. reflexivity.
Qed.

Definition head_ops (t : stamp) : list op :=
  [Raw (two (t_mday t)); Fmt ["-"%char]; Raw (two (t_mon t + 1)); Fmt ["-"%char]; Raw (two (t_year t)); Fmt [" "%char];
   Raw (two (t_hour t)); Fmt [":"%char]; Raw (two (t_min t)); Fmt [":"%char]; Raw (two (t_sec t)); Fmt ["."%char];
   Fill "0"%char; Width 6; Fmt (decimal 20 (t_usec t))].
Lemma head_is t : civil t -> print_time head_fmt t = Some (head_ops t).
Proof.
  intros [(Y & M & D & H & I & S) U]. unfold head_fmt. cbn [print_time print_elem].
  rewrite (day_text _ D), (mth_text _ M), (hr_text _ H), (min_text _ I), (sec_text _ S).
  rewrite yr_text by (rewrite Z.rem_mod_nonneg by lia; lia). rewrite two_mod by lia. reflexivity.
Qed.
Lemma head_put T F t : civil t -> put_all (mkO T F 0) (head_ops t) = mkO (T ++ time_text t) "0"%char 0.
Proof.
  intros [_ U]. unfold head_ops. rewrite !put_all_cons. do 6 rewrite put_raw, put_fmt. unfold time_text. rewrite <- (usec_text _ U).
  cbn [put os_text os_fill os_width put_all fold_left].
  rewrite <- !app_assoc. reflexivity.
Qed.
Lemma line_is m : civil (g_stamp m) -> line m =
  Some (Fmt (esc ++ list_ascii_of_string (colour (g_level m))) :: head_ops (g_stamp m) ++
            [Fmt (list_ascii_of_string " ["); Fmt (g_tid m); Fmt (list_ascii_of_string "]");
             Fmt (list_ascii_of_string (name (g_level m)))] ++
            map Fmt (g_args m) ++ [Fmt (esc ++ list_ascii_of_string "[0m"); Raw ["010"%char]]).
Proof. intros C. unfold line. rewrite (head_is _ C). reflexivity. Qed.
Lemma some_eq {A} (x y : A) : Some x = Some y -> x = y.
Proof. intros H. injection H as H. exact H. Qed.
Lemma line_put m l T F : civil (g_stamp m) -> line m = Some l -> put_all (mkO T F 0) l = mkO (T ++ line_text m) "0"%char 0.
Proof.
  intros C E. rewrite (line_is _ C) in E. rewrite <- (some_eq _ _ E). clear E.
  rewrite put_all_cons, put_fmt, put_all_app, (head_put _ _ _ C), put_all_app.
  rewrite !put_all_cons, !put_fmt. change (put_all ?o []) with o. rewrite put_all_app, put_args.
  rewrite !put_all_cons, put_fmt, put_raw. change (put_all ?o []) with o. f_equal.
  unfold line_text. rewrite <- !app_assoc. do 1 f_equal.
  destruct (g_level m); cbn [colour name ansi word esc str list_ascii_of_string app]; reflexivity.
Qed.
Lemma default_put t T F : civil t -> exists l, print_time default_fmt t = Some l /\ put_all (mkO T F 0) l = mkO (T ++ default_text t) F 0.
Proof.
  intros [(Y & M & D & H & I & S) U]. unfold default_fmt. cbn [print_time print_elem].
  rewrite (day_text _ D), (mth_text _ M), (hr_text _ H), (min_text _ I), (sec_text _ S).
  destruct (Z.ltb_spec (t_year t + 1900) 0); [lia|]. cbn [app].
  eexists. split; [reflexivity|]. rewrite !put_all_cons. repeat first [rewrite put_fmt | rewrite put_raw]. change (put_all ?o []) with o.
  unfold default_text. rewrite year_text by lia. replace (Z.of_N (Z.abs_N (t_year t + 1900))) with (t_year t + 1900)%Z by lia.
  rewrite <- !app_assoc. reflexivity.
Qed.

(** ** Threads *)
Lemma put_th_len l i x : i < List.length l -> List.length (put_th l i x) = List.length l.
Proof. intros H. unfold put_th. rewrite app_length, firstn_length. cbn [List.length]. rewrite skipn_length. lia. Qed.
Lemma put_th_same l i x : i < List.length l -> nth_error (put_th l i x) i = Some x.
Proof.
  intros H. unfold put_th. rewrite nth_error_app2; rewrite firstn_length; [|lia]. replace (i - Nat.min i (List.length l)) with 0 by lia. reflexivity.
Qed.
Lemma put_th_other l i x j : i < List.length l -> j <> i -> nth_error (put_th l i x) j = nth_error l j.
Proof.
  revert i j. induction l as [|a r IH]; intros i j H D; [cbn in H; lia|].
  destruct i as [|i], j as [|j]; try lia; try reflexivity. cbn. apply (IH i j); cbn in H; lia.
Qed.

Section Threads.
Variable excl : level -> bool.

Definition lops (l : list msg) : list op := flat_map (fun m => match line m with Some o => o | None => [] end) l.
Definition current (p : place) : list msg := match p with PWant m | PHold m _ => [m] | _ => [] end.
Definition holds (h : thread) : Prop := match h_place h with PHold _ _ => True | _ => False end.

Record inv (out0 : list op) (s : logsys) (ev : list lev) : Prop := mkInv {
  i_acts : forall j h, nth_error (y_ths s) j = Some h -> timely (h_acts h) /\ Forall (fun m => civil (g_stamp m)) (current (h_place h));
  i_lines : Forall (fun m => civil (g_stamp m)) (lines ev);
  i_out : match y_mutex s with
          | None => (forall j h, nth_error (y_ths s) j = Some h -> ~ holds h) /\ y_out s = out0 ++ lops (lines ev)
          | Some i => (forall j h, nth_error (y_ths s) j = Some h -> j <> i -> ~ holds h) /\
                      exists acts m done todo, nth_error (y_ths s) i = Some (mkTh acts (PHold m todo)) /\
                                               line m = Some (done ++ todo) /\ y_out s = out0 ++ lops (lines ev) ++ done
          end;
  i_ev : forall j, passed j ev = written j ev ++ match nth_error (y_ths s) j with Some h => current (h_place h) | None => [] end }.

Lemma lines_app a b : lines (a ++ b) = lines a ++ lines b.
Proof. apply flat_map_app. Qed.
Lemma passed_app t a b : passed t (a ++ b) = passed t a ++ passed t b.
Proof. apply flat_map_app. Qed.
Lemma written_app t a b : written t (a ++ b) = written t a ++ written t b.
Proof. apply flat_map_app. Qed.
Lemma lops_app a b : lops (a ++ b) = lops a ++ lops b.
Proof. apply flat_map_app. Qed.

(** A step that changes a thread, but not what it holds, and writes nothing. *)
Lemma inv_quiet out0 s ev i h h' f e : inv out0 s ev -> nth_error (y_ths s) i = Some h ->
  ~ holds h -> ~ holds h' -> timely (h_acts h') -> Forall (fun m => civil (g_stamp m)) (current (h_place h')) ->
  lines e = [] -> (forall j, written j e = []) -> (forall j, j <> i -> passed j e = []) -> current (h_place h) ++ passed i e = current (h_place h') ->
  inv out0 (mkL f (y_mutex s) (y_out s) (put_th (y_ths s) i h')) (ev ++ e).
Proof.
  intros [A L O E] N H1 H2 T C EL EW EP EC.
  assert (B : i < List.length (y_ths s)) by (apply nth_error_Some; rewrite N; discriminate).
  constructor; cbn [y_ths y_mutex y_out].
  - intros j g G. destruct (Nat.eq_dec j i) as [->|D]; [rewrite put_th_same in G by exact B; injection G as <-; auto|].
    rewrite put_th_other in G by assumption. eauto.
  - rewrite lines_app, EL, app_nil_r. exact L.
  - rewrite lines_app, EL, app_nil_r. destruct (y_mutex s) as [k|].
    + destruct O as (O1 & acts & m & dn & td & O2 & O3 & O4).
      assert (D : k <> i) by (intros ->; rewrite N in O2; injection O2 as ->; apply H1; exact I).
      split.
      * intros j g G K. destruct (Nat.eq_dec j i) as [->|D']; [rewrite put_th_same in G by exact B; injection G as <-; exact H2|].
        rewrite put_th_other in G by assumption. eauto.
      * exists acts, m, dn, td. rewrite put_th_other by assumption. auto.
    + destruct O as [O1 O2]. split; [|exact O2].
      intros j g G. destruct (Nat.eq_dec j i) as [->|D']; [rewrite put_th_same in G by exact B; injection G as <-; exact H2|].
      rewrite put_th_other in G by assumption. eauto.
  - intros j. rewrite passed_app, written_app, EW, app_nil_r, E. destruct (Nat.eq_dec j i) as [->|D'].
    + rewrite N, put_th_same by exact B. rewrite <- app_assoc, EC. reflexivity.
    + rewrite EP by exact D'. rewrite put_th_other by assumption. rewrite app_nil_r. reflexivity.
Qed.

Lemma inv_step out0 s ev i s' e : inv out0 s ev -> lstep excl s i = Some (s', e) -> inv out0 s' (ev ++ e).
Proof.
  intros V. unfold lstep. destruct (nth_error (y_ths s) i) as [[acts pl]|] eqn:N; [|discriminate].
  pose proof (i_acts _ _ _ V _ _ N) as [HA HC]. cbn [h_acts h_place] in HA, HC.
  assert (B : i < List.length (y_ths s)) by (apply nth_error_Some; rewrite N; discriminate).
  destruct pl as [|ws|m|m todo].
  - destruct acts as [|[l| |v m|m] r]; [discriminate|..].
    + intros Q. apply some_eq in Q. injection Q as <- <-.
      apply inv_quiet with (h := mkTh (ASet l :: r) PNone); auto; try (cbn; auto; fail). inversion HA; auto.
    + intros Q. apply some_eq in Q. injection Q as <- <-.
      apply inv_quiet with (h := mkTh (AOff :: r) PNone); auto; try (cbn; auto; fail). inversion HA; auto.
    + destruct (from_env v) as [l w]. intros Q. apply some_eq in Q. injection Q as <- <-.
      apply inv_quiet with (h := mkTh (AEnv v m :: r) PNone); auto; try (cbn; auto; fail). cbn [h_acts].
      inversion HA as [|? ? X Y]; subst. apply Forall_app. split; [destruct w; repeat constructor; apply X|constructor; auto].
    + inversion HA as [|? ? X Y]; subst. destruct (includes excl (y_flags s) (g_level m)); intros Q; apply some_eq in Q; injection Q as <- <-;
        apply inv_quiet with (h := mkTh (ALog m :: r) PNone); auto; try (cbn; auto; fail); cbn;
        try (intros j D; destruct (Nat.eqb_spec j i); [contradiction|reflexivity]); rewrite ?Nat.eqb_refl; auto.
  - destruct ws as [|w ws]; intros Q; apply some_eq in Q; injection Q as <- <-.
    + apply inv_quiet with (h := mkTh acts (PWrites [])); auto; cbn; auto.
    + apply inv_quiet with (h := mkTh acts (PWrites (w :: ws))); auto; cbn; auto.
  - destruct V as [A L O E]. destruct (y_mutex s) as [k|] eqn:EM; [discriminate|]. destruct (line m) as [l|] eqn:EL; [|discriminate].
    intros Q. apply some_eq in Q. injection Q as <- <-. rewrite app_nil_r. destruct O as [O1 O2].
    constructor; cbn [y_ths y_mutex y_out].
    + intros j g G. destruct (Nat.eq_dec j i) as [->|D]; [rewrite put_th_same in G by exact B; injection G as <-; auto|].
      rewrite put_th_other in G by assumption. eauto.
    + exact L.
    + split.
      * intros j g G D. rewrite put_th_other in G by assumption. eauto.
      * exists acts, m, [], l. rewrite put_th_same by exact B. rewrite app_nil_r. auto.
    + intros j. rewrite E. destruct (Nat.eq_dec j i) as [->|D]; [rewrite N, put_th_same by exact B; reflexivity|rewrite put_th_other by assumption; reflexivity].
  - destruct V as [A L O E].
    assert (EM : y_mutex s = Some i).
    { destruct (y_mutex s) as [k|]; [|exfalso; apply (proj1 O _ _ N); exact I].
      destruct (Nat.eq_dec i k) as [->|D]; [reflexivity|]. exfalso. apply (proj1 O _ _ N D). exact I. }
    rewrite EM in O. destruct O as (O1 & acts0 & m0 & dn & td & O2 & O3 & O4). rewrite N in O2. injection O2 as <- <- <-.
    destruct todo as [|x r]; intros Q; apply some_eq in Q; injection Q as <- <-.
    + constructor; cbn [y_ths y_mutex y_out].
      * intros j g G. destruct (Nat.eq_dec j i) as [->|D]; [rewrite put_th_same in G by exact B; injection G as <-; cbn; auto|].
        rewrite put_th_other in G by assumption. eauto.
      * rewrite lines_app. apply Forall_app. split; [exact L|]. exact HC.
      * split.
        -- intros j g G. destruct (Nat.eq_dec j i) as [->|D]; [rewrite put_th_same in G by exact B; injection G as <-; cbn; auto|].
           rewrite put_th_other in G by assumption. eauto.
        -- rewrite O4, lines_app, lops_app. cbn [lines flat_map app]. unfold lops at 3. cbn [flat_map app]. rewrite app_nil_r in O3. rewrite O3, app_nil_r. reflexivity.
      * intros j. rewrite passed_app, written_app, E. destruct (Nat.eq_dec j i) as [->|D].
        -- rewrite N, put_th_same by exact B. cbn. rewrite Nat.eqb_refl. rewrite !app_nil_r. reflexivity.
        -- rewrite put_th_other by assumption. cbn. destruct (Nat.eqb_spec j i); [contradiction|]. rewrite !app_nil_r. reflexivity.
    + rewrite EM, app_nil_r. constructor; cbn [y_ths y_mutex y_out].
      * intros j g G. destruct (Nat.eq_dec j i) as [->|D]; [rewrite put_th_same in G by exact B; injection G as <-; cbn; auto|].
        rewrite put_th_other in G by assumption. eauto.
      * exact L.
      * split.
        -- intros j g G D. rewrite put_th_other in G by assumption. eauto.
        -- exists acts, m, (dn ++ [x]), r. rewrite put_th_same by exact B. rewrite O4, O3, <- !app_assoc. auto.
      * intros j. rewrite E. destruct (Nat.eq_dec j i) as [->|D]; [rewrite N, put_th_same by exact B; reflexivity|rewrite put_th_other by assumption; reflexivity].
Qed.

Lemma inv_run out0 is : forall s ev s' e, inv out0 s ev -> lrun excl s is = Some (s', e) -> inv out0 s' (ev ++ e).
Proof.
  induction is as [|i t IH]; intros s ev s' e V; cbn [lrun].
  - intros Q. apply some_eq in Q. injection Q as <- <-. rewrite app_nil_r. exact V.
  - destruct (lstep excl s i) as [[s1 e1]|] eqn:E1; [|discriminate]. destruct (lrun excl s1 t) as [[s2 e2]|] eqn:E2; [|discriminate].
    intros Q. apply some_eq in Q. injection Q as <- <-. rewrite app_assoc. eapply IH; [|exact E2]. eapply inv_step; eassumption.
Qed.

Lemma inv_start f out0 ps : Forall timely ps -> inv out0 (mkL f None out0 (map (fun a => mkTh a PNone) ps)) [].
Proof.
  intros H. constructor; cbn [y_ths y_mutex y_out].
  - intros j h G. rewrite nth_error_map in G. destruct (nth_error ps j) as [p|] eqn:EP; [|discriminate]. injection G as <-. cbn.
    split; [|constructor]. rewrite Forall_forall in H. apply H. eapply nth_error_In. exact EP.
  - constructor.
  - split; [|rewrite app_nil_r; reflexivity]. intros j h G. rewrite nth_error_map in G. destruct (nth_error ps j) as [p|]; [|discriminate]. injection G as <-. intros [].
  - intros j. rewrite nth_error_map. destruct (nth_error ps j); reflexivity.
Qed.

Lemma lops_put l : Forall (fun m => civil (g_stamp m)) l -> forall T F, exists F', put_all (mkO T F 0) (lops l) = mkO (T ++ List.concat (map line_text l)) F' 0.
Proof.
  induction l as [|m r IH]; intros H T F; [exists F; cbn; rewrite app_nil_r; reflexivity|].
  inversion H as [|? ? C R]; subst. unfold lops. cbn [flat_map]. rewrite put_all_app.
  destruct (line m) as [o|] eqn:E; [|rewrite (line_is _ C) in E; discriminate].
  rewrite (line_put _ _ _ _ C E). destruct (IH R (T ++ line_text m) "0"%char) as [F' Q]. exists F'. unfold lops in Q. rewrite Q.
  cbn [map List.concat]. rewrite app_assoc. reflexivity.
Qed.
Lemma put_text_grows l : forall o, exists r, os_text (put_all o l) = os_text o ++ r.
Proof.
  induction l as [|x t IH]; intros o; [exists []; cbn; rewrite app_nil_r; reflexivity|].
  rewrite put_all_cons. destruct (IH (put o x)) as [r ->].
  destruct x; cbn [put os_text]; rewrite <- ?app_assoc; eexists; reflexivity.
Qed.
Lemma inv_text s ev T F : inv [] s ev -> exists cur rest,
  os_text (put_all (mkO T F 0) (y_out s)) ++ rest = T ++ List.concat (map line_text (lines ev)) ++ match cur with Some (t, m) => line_text m | None => [] end /\
  (cur = None -> rest = []) /\ (forall t m, cur = Some (t, m) -> passed t ev = written t ev ++ [m]) /\ (y_mutex s = None -> cur = None).
Proof.
  intros [A L O E]. destruct (lops_put _ L T F) as [F' P]. destruct (y_mutex s) as [i|].
  - destruct O as (O1 & acts & m & dn & td & O2 & O3 & O4).
    destruct (A _ _ O2) as [_ HC]. cbn in HC. inversion HC as [|? ? C _]; subst.
    pose proof (line_put m _ (T ++ List.concat (map line_text (lines ev))) F' C O3) as Q. rewrite put_all_app in Q.
    destruct (put_text_grows td (put_all (mkO (T ++ List.concat (map line_text (lines ev))) F' 0) dn)) as [r R].
    exists (Some (i, m)), r. split; [|split; [discriminate|split; [|discriminate]]].
    + rewrite O4. cbn [app]. rewrite put_all_app, P, <- R, Q. cbn [os_text]. rewrite <- app_assoc. reflexivity.
    + intros t m' G. injection G as <- <-. rewrite E, O2. reflexivity.
  - exists None, []. destruct O as [O1 O2]. split; [|split; [|split; [discriminate|]]]; auto.
    rewrite O2. cbn [app]. rewrite P. cbn [os_text]. rewrite !app_nil_r. reflexivity.
Qed.
Lemma inv_finished out0 s ev : inv out0 s ev -> finished s -> y_mutex s = None /\ forall t, passed t ev = written t ev.
Proof.
  intros [A L O E] FN. unfold finished in FN. rewrite Forall_forall in FN. split.
  - destruct (y_mutex s) as [i|]; [|reflexivity]. destruct O as (_ & acts & m & dn & td & O2 & _). apply nth_error_In in O2. apply FN in O2. discriminate.
  - intros t. rewrite E. destruct (nth_error (y_ths s) t) as [h|] eqn:N; [|apply app_nil_r]. apply nth_error_In in N. rewrite (FN _ N). apply app_nil_r.
Qed.

(** A thread can go on, and there is an end. *)
Lemma inv_progress out0 s ev : inv out0 s ev -> ~ finished s -> exists i s' e, lstep excl s i = Some (s', e).
Proof.
  intros [A L O E] FN. destruct (y_mutex s) as [i|] eqn:EM.
  - destruct O as (_ & acts & m & dn & td & O2 & _). exists i. unfold lstep. rewrite O2. destruct td; eexists; eexists; reflexivity.
  - assert (X : exists j h, nth_error (y_ths s) j = Some h /\ h <> mkTh [] PNone).
    { unfold finished in FN. clear - FN. induction (y_ths s) as [|h r IH]; [exfalso; apply FN; constructor|].
      destruct h as [[|a acts] [| | |]]; try (exists 0; eexists; split; [reflexivity|discriminate]).
      destruct IH as (j & h & N & D); [intros G; apply FN; constructor; auto|]. exists (S j), h. auto. }
    destruct X as (j & [acts pl] & N & D). exists j. unfold lstep. rewrite N.
    destruct pl as [|[|w ws]|m|m td].
    + destruct acts as [|[l| |v m|m] r]; [congruence|eexists; eexists; reflexivity|eexists; eexists; reflexivity| |].
      * destruct (from_env v). eexists; eexists; reflexivity.
      * destruct (includes excl (y_flags s) (g_level m)); eexists; eexists; reflexivity.
    + eexists; eexists; reflexivity.
    + eexists; eexists; reflexivity.
    + rewrite EM. destruct (A _ _ N) as [_ HC]. inversion HC as [|? ? C _]; subst. rewrite (line_is _ C). eexists; eexists; reflexivity.
    + exfalso. apply (proj1 O _ _ N). exact I.
Qed.
Definition ops_of (m : msg) : nat := match line m with Some l => List.length l | None => 0 end.
Definition acost (a : act) : nat :=
  match a with ASet _ | AOff => 8 | AEnv _ m => 9 + (3 + ops_of (mkM LWarning (g_stamp m) (g_tid m) (g_args m))) | ALog m => 3 + ops_of m end.
Definition pcost (p : place) : nat :=
  match p with PNone => 0 | PWrites ws => 1 + List.length ws | PWant m => 2 + ops_of m | PHold _ td => 1 + List.length td end.
Definition hcost (h : thread) : nat := list_sum (map acost (h_acts h)) + pcost (h_place h).
Definition cost (s : logsys) : nat := list_sum (map hcost (y_ths s)).
Lemma cost_put l i h h' : nth_error l i = Some h -> hcost h' < hcost h -> list_sum (map hcost (put_th l i h')) < list_sum (map hcost l).
Proof.
  revert i. induction l as [|a r IH]; intros [|i] N H; try discriminate.
  - injection N as ->. cbn. lia.
  - cbn in N. specialize (IH i N H). unfold put_th in *. cbn [firstn skipn app map list_sum fold_right] in *. unfold list_sum in *. cbn [fold_right]. lia.
Qed.
Lemma set_writes_len l : List.length (set_writes excl levels l) <= 6.
Proof.
  assert (G : forall ls, List.length (set_writes excl ls l) <= List.length ls).
  { induction ls as [|k r IH]; cbn; [lia|]. destruct (excl k); cbn; [lia|]. destruct (level_eqb k l); [rewrite map_length; lia|lia]. }
  apply (G levels).
Qed.
Lemma cost_step s i s' e : lstep excl s i = Some (s', e) -> cost s' < cost s.
Proof.
  unfold lstep. destruct (nth_error (y_ths s) i) as [[acts pl]|] eqn:N; [|discriminate].
  destruct pl as [|[|w ws]|m|m [|x td]].
  - destruct acts as [|[l| |v m|m] r]; [discriminate|..].
    + pose proof (set_writes_len l) as SW. set (W := set_writes excl levels l) in *. clearbody W.
      intros Q. apply some_eq in Q. injection Q as <- <-. apply (cost_put _ _ _ _ N).
      unfold hcost. cbn [h_acts h_place map list_sum fold_right acost pcost]. unfold list_sum. lia.
    + intros Q. apply some_eq in Q. injection Q as <- <-. apply (cost_put _ _ _ _ N). unfold hcost. cbn. lia.
    + destruct (from_env v) as [l w]. intros Q. apply some_eq in Q. injection Q as <- <-. apply (cost_put _ _ _ _ N).
      unfold hcost. cbn [h_acts h_place pcost]. destruct w; cbn [app map acost list_sum fold_right]; unfold list_sum; lia.
    + destruct (includes excl (y_flags s) (g_level m)); intros Q; apply some_eq in Q; injection Q as <- <-; apply (cost_put _ _ _ _ N);
        unfold hcost; cbn [h_acts h_place map list_sum fold_right acost pcost]; unfold list_sum; lia.
  - intros Q. apply some_eq in Q. injection Q as <- <-. apply (cost_put _ _ _ _ N). unfold hcost. cbn. lia.
  - intros Q. apply some_eq in Q. injection Q as <- <-. apply (cost_put _ _ _ _ N). unfold hcost. cbn. lia.
  - destruct (y_mutex s); [discriminate|]. destruct (line m) as [l|] eqn:E; [|discriminate]. intros Q. apply some_eq in Q. injection Q as <- <-.
    apply (cost_put _ _ _ _ N). unfold hcost. cbn [h_acts h_place pcost]. unfold ops_of. rewrite E. lia.
  - intros Q. apply some_eq in Q. injection Q as <- <-. apply (cost_put _ _ _ _ N). unfold hcost. cbn. lia.
  - intros Q. apply some_eq in Q. injection Q as <- <-. apply (cost_put _ _ _ _ N). unfold hcost. cbn. lia.
Qed.
Lemma cost_run is : forall s s' e, lrun excl s is = Some (s', e) -> List.length is + cost s' <= cost s.
Proof.
  induction is as [|i t IH]; intros s s' e; cbn [lrun].
  - intros Q. apply some_eq in Q. injection Q as <- <-. cbn. lia.
  - destruct (lstep excl s i) as [[s1 e1]|] eqn:E1; [|discriminate]. destruct (lrun excl s1 t) as [[s2 e2]|] eqn:E2; [|discriminate].
    intros Q. apply some_eq in Q. injection Q as <- <-. apply IH in E2. apply cost_step in E1. cbn [List.length]. lia.
Qed.
End Threads.

(** ** Levels *)
Section Levels.
Variable excl : level -> bool.
Definition means (f : flags) (th : option level) : Prop := forall l, includes excl f l = passes excl th l.
Lemma set_means f l : means (fold_left put_flag (set_writes excl levels l) f) (Some l).
Proof.
  intros m. unfold passes, includes, levels.
  destruct (excl LFatal) eqn:E0, (excl LError) eqn:E1, (excl LWarning) eqn:E2, (excl LNotice) eqn:E3, (excl LInfo) eqn:E4, (excl LDebug) eqn:E5;
    destruct l; cbn -[existsb]; rewrite ?E0, ?E1, ?E2, ?E3, ?E4, ?E5; cbn -[existsb]; rewrite ?E0, ?E1, ?E2, ?E3, ?E4, ?E5; cbn -[existsb];
    destruct m; cbn; rewrite ?E0, ?E1, ?E2, ?E3, ?E4, ?E5; reflexivity.
Qed.
Lemma off_means f : means (fold_left put_flag off_writes f) None.
Proof.
  intros m. cbn [passes]. unfold includes, levels. cbn [included].
  destruct m; cbn; repeat match goal with |- context [excl ?k] => destruct (excl k) end; reflexivity.
Qed.
Lemma start_means : means flags0 (Some LInfo).
Proof.
  intros m. unfold passes, includes, levels.
  destruct m; cbn; repeat match goal with |- context [excl ?k] => destruct (excl k) end; reflexivity.
Qed.
Lemma env_named v : from_env v = match named v with Some l => (l, false) | None => (LInfo, true) end.
Proof.
  destruct v as [[|c r]|]; [reflexivity| |reflexivity].
  destruct c as [b0 b1 b2 b3 b4 b5 b6 b7]; destruct b0, b1, b2, b3, b4, b5, b6, b7; reflexivity.
Qed.

Definition pending (p : place) : list (level * bool) := match p with PWrites ws => ws | _ => [] end.
(** One thread alone. *)
Definition alone (p : list act) (s : logsys) (ev : list lev) : Prop :=
  exists acts pl th, y_ths s = [mkTh acts pl] /\ means (fold_left put_flag (pending pl) (y_flags s)) th /\
    lines ev ++ current pl ++ expected excl th acts = expected excl (Some LInfo) p /\ after th acts = after (Some LInfo) p.
Lemma alone_step p s ev i s' e : alone p s ev -> lstep excl s i = Some (s', e) -> alone p s' (ev ++ e).
Proof.
  intros (acts & pl & th & T & M & X & AF). unfold lstep. rewrite T. destruct i as [|i]; [|destruct i; discriminate]. cbn [nth_error].
  unfold alone. destruct pl as [|[|w ws]|m|m [|x td]].
  - cbn [pending fold_left] in M. destruct acts as [|[l| |v m|m] r]; [discriminate|..].
    + pose proof (set_means (y_flags s) l) as SM. set (W := set_writes excl levels l) in *. clearbody W.
      intros Q. apply some_eq in Q. injection Q as <- <-. exists r, (PWrites W), (Some l). cbn [y_ths y_flags]. rewrite app_nil_r. repeat split; auto.
    + pose proof (off_means (y_flags s)) as SM. set (W := off_writes) in *. clearbody W.
      intros Q. apply some_eq in Q. injection Q as <- <-. exists r, (PWrites W), None. cbn [y_ths y_flags]. rewrite app_nil_r. repeat split; auto.
    + rewrite env_named. cbn [expected after] in X, AF. destruct (named v) as [l|].
      * intros Q. apply some_eq in Q. injection Q as <- <-. eexists _, PNone, th. rewrite app_nil_r. split; [reflexivity|]. auto.
      * intros Q. apply some_eq in Q. injection Q as <- <-. eexists _, PNone, th. rewrite app_nil_r. split; [reflexivity|]. auto.
    + cbn [expected after] in X, AF. rewrite <- (M (g_level m)) in X. destruct (includes excl (y_flags s) (g_level m)); intros Q; apply some_eq in Q; injection Q as <- <-.
      * exists r, (PWant m), th. cbn [y_ths y_flags]. rewrite lines_app. cbn [lines flat_map app]. rewrite app_nil_r. split; [reflexivity|]. auto.
      * exists r, PNone, th. cbn [y_ths y_flags]. rewrite lines_app. cbn [lines flat_map app]. rewrite app_nil_r. split; [reflexivity|]. auto.
  - intros Q. apply some_eq in Q. injection Q as <- <-. exists acts, PNone, th. cbn [y_ths y_flags]. rewrite app_nil_r. split; [reflexivity|]. auto.
  - intros Q. apply some_eq in Q. injection Q as <- <-. exists acts, (PWrites ws), th. cbn [y_ths y_flags]. rewrite app_nil_r. split; [reflexivity|]. auto.
  - destruct (y_mutex s); [discriminate|]. destruct (line m) as [l|]; [|discriminate].
    intros Q. apply some_eq in Q. injection Q as <- <-. exists acts, (PHold m l), th. cbn [y_ths y_flags]. rewrite app_nil_r. split; [reflexivity|]. auto.
  - intros Q. apply some_eq in Q. injection Q as <- <-. exists acts, PNone, th. cbn [y_ths y_flags]. rewrite lines_app. cbn [lines flat_map app]. rewrite <- app_assoc. split; [reflexivity|]. auto.
  - intros Q. apply some_eq in Q. injection Q as <- <-. exists acts, (PHold m td), th. cbn [y_ths y_flags]. rewrite app_nil_r. split; [reflexivity|]. auto.
Qed.
Lemma alone_run p is : forall s ev s' e, alone p s ev -> lrun excl s is = Some (s', e) -> alone p s' (ev ++ e).
Proof.
  induction is as [|i t IH]; intros s ev s' e V; cbn [lrun].
  - intros Q. apply some_eq in Q. injection Q as <- <-. rewrite app_nil_r. exact V.
  - destruct (lstep excl s i) as [[s1 e1]|] eqn:E1; [|discriminate]. destruct (lrun excl s1 t) as [[s2 e2]|] eqn:E2; [|discriminate].
    intros Q. apply some_eq in Q. injection Q as <- <-. rewrite app_assoc. eapply IH; [|exact E2]. eapply alone_step; eassumption.
Qed.
Lemma alone_end p is s ev : lrun excl (log_start [p]) is = Some (s, ev) -> finished s ->
  lines ev = expected excl (Some LInfo) p /\ means (y_flags s) (after (Some LInfo) p).
Proof.
  intros R FN. assert (V : alone p (log_start [p]) []).
  { exists p, PNone, (Some LInfo). split; [reflexivity|]. split; [apply start_means|]. auto. }
  destruct (alone_run _ _ _ _ _ _ V R) as (acts & pl & th & T & M & X & AF). unfold finished in FN. rewrite T in FN.
  apply Forall_inv in FN. injection FN as -> ->. cbn in X, M, AF. rewrite app_nil_r in X. subst th. auto.
Qed.

(** Threads that only log. *)
Definition logging (th : option level) (qs : list (list act)) (s : logsys) (ev : list lev) : Prop :=
  means (y_flags s) th /\ List.length (y_ths s) = List.length qs /\
  forall j h q, nth_error (y_ths s) j = Some h -> nth_error qs j = Some q -> only_logs (h_acts h) /\ pending (h_place h) = [] /\
    (match h_place h with PWrites _ => False | _ => True end) /\
    passed j ev ++ filter (fun m => passes excl th (g_level m)) (logs (h_acts h)) = filter (fun m => passes excl th (g_level m)) (logs q).
Lemma logging_step th qs s ev i s' e : logging th qs s ev -> lstep excl s i = Some (s', e) -> logging th qs s' (ev ++ e).
Proof.
  intros (M & L & A). unfold lstep. destruct (nth_error (y_ths s) i) as [[acts pl]|] eqn:N; [|discriminate].
  assert (B : i < List.length (y_ths s)) by (apply nth_error_Some; rewrite N; discriminate).
  assert (G : forall mu o h' e', (forall j, j <> i -> passed j e' = []) ->
    (forall q, nth_error qs i = Some q -> only_logs (h_acts h') /\ pending (h_place h') = [] /\ (match h_place h' with PWrites _ => False | _ => True end) /\
       passed i (ev ++ e') ++ filter (fun m => passes excl th (g_level m)) (logs (h_acts h')) = filter (fun m => passes excl th (g_level m)) (logs q)) ->
    logging th qs (mkL (y_flags s) mu o (put_th (y_ths s) i h')) (ev ++ e')).
  { intros mu o h' e' P1 P2. split; [exact M|]. cbn [y_ths]. split; [rewrite put_th_len by exact B; exact L|].
    intros j h q NJ NQ. destruct (Nat.eq_dec j i) as [->|D].
    - rewrite put_th_same in NJ by exact B. injection NJ as <-. apply P2. exact NQ.
    - rewrite put_th_other in NJ by assumption. rewrite passed_app, P1, app_nil_r by exact D. apply A; assumption. }
  assert (A' := fun q => A i _ q N). cbn [h_acts h_place] in A'.
  assert (Z : exists q, nth_error qs i = Some q).
  { destruct (nth_error qs i) as [q|] eqn:Q; [eauto|]. apply nth_error_None in Q. lia. }
  destruct Z as [q0 Z]. destruct (A' q0 Z) as (OL & _ & NP & FE).
  destruct pl as [|ws|m|m td]; [|destruct NP| |].
  - destruct acts as [|[l| |v m|m] r]; [discriminate|inversion OL; contradiction|inversion OL; contradiction|inversion OL; contradiction|].
    assert (OR : only_logs r) by (inversion OL; assumption).
    rewrite (M (g_level m)). cbn [logs flat_map app filter] in FE. destruct (passes excl th (g_level m)) eqn:PS; intros Q; apply some_eq in Q; injection Q as <- <-; apply G.
    + intros j D. cbn. destruct (Nat.eqb_spec j i); [contradiction|reflexivity].
    + intros q NQ. rewrite Z in NQ. injection NQ as <-. cbn [h_acts h_place]. split; [exact OR|]. split; [reflexivity|]. split; [exact I|].
      rewrite passed_app. cbn [passed flat_map]. rewrite Nat.eqb_refl. rewrite <- app_assoc. exact FE.
    + intros j D. reflexivity.
    + intros q NQ. rewrite Z in NQ. injection NQ as <-. cbn [h_acts h_place]. split; [exact OR|]. split; [reflexivity|]. split; [exact I|].
      rewrite passed_app. cbn [passed flat_map]. rewrite app_nil_r. exact FE.
  - destruct (y_mutex s); [discriminate|]. destruct (line m) as [l|]; [|discriminate]. intros Q. apply some_eq in Q. injection Q as <- <-. apply G; [reflexivity|].
    intros q NQ. rewrite Z in NQ. injection NQ as <-. cbn [h_acts h_place]. rewrite app_nil_r. auto.
  - destruct td as [|x td]; intros Q; apply some_eq in Q; injection Q as <- <-; apply G; try reflexivity;
      intros q NQ; rewrite Z in NQ; injection NQ as <-; cbn [h_acts h_place]; rewrite passed_app; cbn [passed flat_map]; rewrite app_nil_r; auto.
Qed.
Lemma logging_run th qs is : forall s ev s' e, logging th qs s ev -> lrun excl s is = Some (s', e) -> logging th qs s' (ev ++ e).
Proof.
  induction is as [|i t IH]; intros s ev s' e V; cbn [lrun].
  - intros Q. apply some_eq in Q. injection Q as <- <-. rewrite app_nil_r. exact V.
  - destruct (lstep excl s i) as [[s1 e1]|] eqn:E1; [|discriminate]. destruct (lrun excl s1 t) as [[s2 e2]|] eqn:E2; [|discriminate].
    intros Q. apply some_eq in Q. injection Q as <- <-. rewrite app_assoc. eapply IH; [|exact E2]. eapply logging_step; eassumption.
Qed.
Lemma logging_start f th mu o qs : means f th -> Forall only_logs qs -> logging th qs (mkL f mu o (map (fun a => mkTh a PNone) qs)) [].
Proof.
  intros M O. split; [exact M|]. cbn [y_ths]. split; [apply map_length|]. intros j h q NJ NQ. rewrite nth_error_map, NQ in NJ. injection NJ as <-. cbn.
  repeat split; auto. rewrite Forall_forall in O. apply O. eapply nth_error_In. exact NQ.
Qed.
End Levels.

(** * Theorems *)

(** The times in messages and those of DefaultTimeFmt have the right digits. *)
Theorem C111_time : forall t T F, civil t ->
  (exists l, print_time head_fmt t = Some l /\ os_text (put_all (mkO T F 0) l) = T ++ time_text t) /\
  (exists l, print_time default_fmt t = Some l /\ os_text (put_all (mkO T F 0) l) = T ++ default_text t).
Proof.
  intros t T F C. split.
  - exists (head_ops t). split; [apply head_is; exact C|]. rewrite (head_put _ _ _ C). reflexivity.
  - destruct (default_put t T F C) as (l & E & P). exists l. rewrite P. auto.
Qed.

(** One thread alone: each message at least as severe as the level set last, and no other,
    gives a line; LoggingIncludes tells the level. *)
Theorem C111_alone : forall excl p is s ev T F, timely p -> lrun excl (log_start [p]) is = Some (s, ev) -> finished s ->
  os_text (put_all (mkO T F 0) (y_out s)) = T ++ List.concat (map line_text (expected excl (Some LInfo) p)) /\
  forall l, includes excl (y_flags s) l = passes excl (after (Some LInfo) p) l.
Proof.
  intros excl p is s ev T F TI R FN. destruct (alone_end _ _ _ _ _ R FN) as [X M]. split; [|exact M]. rewrite <- X.
  assert (V : inv [] s ev). { apply (inv_run excl [] is (log_start [p]) [] s ev); [|exact R]. apply (inv_start flags0 [] [p]). constructor; auto. }
  destruct (inv_finished _ _ _ V FN) as [EM _].
  destruct (inv_text _ _ T F V) as (cur & rest & Q & Q1 & _ & Q3). rewrite (Q3 EM) in Q. rewrite (Q1 (Q3 EM)), !app_nil_r in Q. exact Q.
Qed.

(** Any threads, at any time: std::cout has whole lines, and perhaps the beginning of the
    line that a thread is writing; what passed was written, in each thread's order, except that line. *)
Theorem C111_threads : forall excl ps is s ev T F, Forall timely ps -> lrun excl (log_start ps) is = Some (s, ev) ->
  (exists cur rest,
     os_text (put_all (mkO T F 0) (y_out s)) ++ rest = T ++ List.concat (map line_text (lines ev)) ++ match cur with Some (t, m) => line_text m | None => [] end /\
     (cur = None -> rest = []) /\ (forall t m, cur = Some (t, m) -> passed t ev = written t ev ++ [m])) /\
  (forall t, exists w, passed t ev = written t ev ++ w /\ List.length w <= 1) /\
  (finished s -> os_text (put_all (mkO T F 0) (y_out s)) = T ++ List.concat (map line_text (lines ev)) /\ forall t, passed t ev = written t ev).
Proof.
  intros excl ps is s ev T F TI R.
  assert (V : inv [] s ev). { apply (inv_run excl [] is (log_start ps) [] s ev); [|exact R]. apply (inv_start flags0 [] ps). exact TI. }
  destruct (inv_text _ _ T F V) as (cur & rest & Q & Q1 & Q2 & Q3). split; [exists cur, rest; auto|]. split.
  - intros t. destruct V as [_ _ _ E]. specialize (E t). eexists. split; [exact E|].
    destruct (nth_error (y_ths s) t) as [[a [| | |]]|]; cbn; lia.
  - intros FN. destruct (inv_finished _ _ _ V FN) as [EM W]. split; [|exact W].
    rewrite (Q3 EM) in Q. rewrite (Q1 (Q3 EM)), !app_nil_r in Q. exact Q.
Qed.

(** A program sets the level, then its threads log: all their messages that are severe
    enough are written, in each thread's order, and no others. *)
Theorem C111_written : forall excl p qs is1 s1 ev1 is2 s2 ev2 T F, timely p -> Forall timely qs -> Forall only_logs qs ->
  lrun excl (log_start [p]) is1 = Some (s1, ev1) -> finished s1 ->
  lrun excl (mkL (y_flags s1) None [] (map (fun a => mkTh a PNone) qs)) is2 = Some (s2, ev2) -> finished s2 ->
  os_text (put_all (mkO T F 0) (y_out s2)) = T ++ List.concat (map line_text (lines ev2)) /\
  forall j q, nth_error qs j = Some q -> written j ev2 = filter (fun m => passes excl (after (Some LInfo) p) (g_level m)) (logs q).
Proof.
  intros excl p qs is1 s1 ev1 is2 s2 ev2 T F TP TQ OQ R1 F1 R2 F2. destruct (alone_end _ _ _ _ _ R1 F1) as [_ M].
  assert (V : inv [] s2 ev2). { apply (inv_run excl [] is2 _ [] s2 ev2 (inv_start (y_flags s1) [] qs TQ) R2). }
  destruct (inv_finished _ _ _ V F2) as [EM W]. split.
  - destruct (inv_text _ _ T F V) as (cur & rest & Q & Q1 & _ & Q3). rewrite (Q3 EM) in Q. rewrite (Q1 (Q3 EM)), !app_nil_r in Q. exact Q.
  - intros j q NQ. rewrite <- (W j).
    destruct (logging_run excl _ qs is2 _ [] s2 ev2 (logging_start excl _ _ None [] qs M OQ) R2) as (_ & L & A).
    destruct (nth_error (y_ths s2) j) as [h|] eqn:NH; [|apply nth_error_None in NH; assert (j < List.length qs) by (apply nth_error_Some; congruence); lia].
    destruct (A j h q NH NQ) as (_ & _ & _ & E). unfold finished in F2. rewrite Forall_forall in F2. rewrite (F2 h (nth_error_In _ _ NH)) in E. cbn in E.
    rewrite app_nil_r in E. exact E.
Qed.

(** All logging comes to an end, whatever the order in which the threads go on; until
    then some thread can go on. *)
Theorem C111_ends : forall excl ps, Forall timely ps ->
  exists n, forall is s ev, lrun excl (log_start ps) is = Some (s, ev) ->
    List.length is <= n /\ (~ finished s -> exists i s' e, lstep excl s i = Some (s', e)).
Proof.
  intros excl ps TI. exists (cost (log_start ps)). intros is s ev R. split; [apply cost_run in R; lia|].
  intros NF. apply (inv_progress excl [] s ev); [|exact NF]. apply (inv_run excl [] is (log_start ps) [] s ev); [|exact R]. apply (inv_start flags0 [] ps). exact TI.
Qed.

(** The claim that logging leaves std::cout as it was is false: after a message the fill
    character is 0, and the user's own padded output has zeros instead of blanks. *)
Theorem C111_fill_refuted : forall m T, civil (g_stamp m) -> exists l, line m = Some l /\
  os_text (put_all (mkO T " "%char 0) (l ++ [Width 4; Fmt (str "7")])) = T ++ line_text m ++ str "0007" /\
  os_text (put_all (mkO (T ++ line_text m) " "%char 0) [Width 4; Fmt (str "7")]) = T ++ line_text m ++ str "   7".
Proof.
  intros m T C. destruct (line m) as [l|] eqn:E; [|rewrite (line_is _ C) in E; discriminate]. exists l. split; [reflexivity|].
  rewrite put_all_app, (line_put _ _ T " "%char C E). unfold put_all. cbn [fold_left put os_text os_fill os_width]. rewrite <- !app_assoc. split; reflexivity.
Qed.

(** The claim that after any setLogLevelTo calls the level is one of those set is false
    when two threads call it at the same time: there is no lock, and the flags can be those of no level. *)
Theorem C111_mixed_refuted : exists is s ev, let excl := fun _ => false in
  lrun excl (log_start [[ASet LDebug]; [ASet LWarning]]) is = Some (s, ev) /\ finished s /\
  includes excl (y_flags s) LNotice = false /\ includes excl (y_flags s) LInfo = true /\ includes excl (y_flags s) LDebug = true /\
  forall th, exists l, includes excl (y_flags s) l <> passes excl th l.
Proof.
  exists (repeat 0 5 ++ repeat 1 8 ++ repeat 0 3). eexists. eexists. cbv zeta. split; [cbv; reflexivity|].
  split; [repeat constructor|]. split; [reflexivity|]. split; [reflexivity|]. split; [reflexivity|].
  intros [[]|]; [exists LInfo|exists LInfo|exists LInfo|exists LNotice|exists LNotice|exists LNotice|exists LInfo]; cbv; discriminate.
Qed.

(** * Cases *)
Definition ex_stamp := mkS 126 10 17 4 5 59 1234.
Definition ex_msg (l : level) (a : string) : msg := mkM l ex_stamp (str "7f01") [str "Device "; str a].
Example C111_case_time : civil ex_stamp /\ time_text ex_stamp = str "17-11-26 04:05:59.001234" /\ default_text ex_stamp = str "17/11/2026 04:05:59".
Proof. split; [repeat split; cbn; lia|]. split; reflexivity. Qed.

(** Nothing of this is logged but the two warnings and the error. *)
Definition ex_prog1 : list act :=
  [ALog (ex_msg LDebug "a"); AEnv (Some (str "warning")) (ex_msg LInfo "b"); ALog (ex_msg LInfo "c"); ALog (ex_msg LWarning "d");
   AEnv None (ex_msg LInfo "e"); ASet LError; ALog (ex_msg LError "f"); AOff; ALog (ex_msg LFatal "g")].
Example C111_case_alone : timely ex_prog1 /\ exists is s ev, lrun (fun _ => false) (log_start [ex_prog1]) is = Some (s, ev) /\ finished s /\
  map g_args (lines ev) = [[str "Device "; str "d"]; [str "Device "; str "e"]; [str "Device "; str "f"]] /\
  lines ev = expected (fun _ => false) (Some LInfo) ex_prog1 /\ after (Some LInfo) ex_prog1 = None.
Proof.
  split; [repeat constructor; cbn; lia|].
  exists (repeat 0 118). eexists. eexists. split; [cbv; reflexivity|]. split; [repeat constructor|]. split; [reflexivity|]. split; reflexivity.
Qed.

(** Two threads; the second waits while the first writes. *)
Definition ex_threads : list (list act) := [[ALog (ex_msg LError "a"); ALog (ex_msg LInfo "b")]; [ALog (ex_msg LWarning "c")]].
Example C111_case_threads : Forall timely ex_threads /\ exists s ev,
  lrun (fun _ => false) (log_start ex_threads) (repeat 0 8 ++ [1]) = Some (s, ev) /\ lstep (fun _ => false) s 1 = None /\ ~ finished s /\
  passed 0 ev = [ex_msg LError "a"] /\ passed 1 ev = [ex_msg LWarning "c"] /\ lines ev = [] /\
  os_text (put_all (mkO [] " "%char 0) (y_out s)) = "027"%char :: str "[0;31m17-11-26".
Proof.
  split; [repeat constructor; cbn; lia|]. eexists. eexists. split; [cbv; reflexivity|]. split; [reflexivity|]. split; [intros FN; apply Forall_inv in FN; discriminate|].
  repeat split.
Qed.
(** The level is set to warning, then two threads log. *)
Example C111_case_written : exists s1 ev1 s2 ev2, Forall timely ex_threads /\ Forall only_logs ex_threads /\
  lrun (fun _ => false) (log_start [[ASet LWarning]]) (repeat 0 8) = Some (s1, ev1) /\ finished s1 /\
  lrun (fun _ => false) (mkL (y_flags s1) None [] (map (fun a => mkTh a PNone) ex_threads)) ([1; 1; 0] ++ repeat 1 25 ++ repeat 0 27) = Some (s2, ev2) /\ finished s2 /\
  lines ev2 = [ex_msg LWarning "c"; ex_msg LError "a"] /\ written 0 ev2 = [ex_msg LError "a"].
Proof.
  eexists. eexists. eexists. eexists. split; [repeat constructor; cbn; lia|]. split; [repeat constructor|]. split; [cbv; reflexivity|]. split; [repeat constructor|].
  split; [cbv; reflexivity|]. split; [repeat constructor|]. split; reflexivity.
Qed.

Print Assumptions C111_time.
Print Assumptions C111_alone.
Print Assumptions C111_threads.
Print Assumptions C111_written.
Print Assumptions C111_ends.
Print Assumptions C111_fill_refuted.
Print Assumptions C111_mixed_refuted.
