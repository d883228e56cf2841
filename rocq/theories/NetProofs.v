(** Proof layer: which handles are pending, and when they become valid. *)
From Verif Require Import Word Bits Header WordLemmas HeaderProofs ValMem Client
  Validate System Tx Net.
From Coq Require Import NArith ZArith List Lia Bool ZifyBool ZifyNat ZifyN.
Import ListNotations.
Open Scope N_scope.

Definition dest_cells (d : dest) : list nat :=
  match d with DWord c => [c] | DVec c _ _ => [c] | _ => [] end.
Definition slots (b : buf) : list nat := flat_map dest_cells (b_reply b).
Definition cells (b : buf) : list nat := slots b ++ b_vals b.
Definition pend (s : st) : list buf :=
  s_out s ++ match s_cur s with Some b => [b] | None => [] end.

Definition inval (h : list cell) (c : nat) : Prop :=
  exists k, nth_error h c = Some k /\ cell_valid k = false.

(** A handle completed by a packet does not occur in any later packet. *)
Fixpoint ord (ps : list buf) : Prop :=
  match ps with
  | [] => True
  | b :: t => (forall c, In c (b_vals b) -> forall b', In b' t -> ~ In c (cells b')) /\ ord t
  end.

Definition W (h : list cell) (ps : list buf) : Prop :=
  (forall b c, In b ps -> In c (cells b) -> inval h c) /\ ord ps.
Definition NV (c0 : nat) (ps : list buf) : Prop := forall b, In b ps -> ~ In c0 (b_vals b).
Definition J (h : list cell) (c0 : nat) (s : st) : Prop :=
  W h (pend s) /\ NV c0 (pend s) /\ inval h c0.

Definition occ (ps : list buf) (c : nat) : Prop := exists b, In b ps /\ In c (cells b).
Definition vocc (ps : list buf) (c : nat) : Prop := exists b, In b ps /\ In c (b_vals b).

Definition ext (h : list cell) (c0 : nat) (s s' : st) : Prop :=
  (J h c0 s -> J h c0 s') /\ s_heap s' = s_heap s /\
  (forall c, c <> c0 -> occ (pend s') c -> occ (pend s) c).
Definition keep (s s' : st) : Prop := forall c, vocc (pend s) c -> vocc (pend s') c.

Lemma ext_refl h c0 s : ext h c0 s s. Proof. split; [|split]; auto. Qed.
Lemma ext_trans h c0 s s' s'' : ext h c0 s s' -> ext h c0 s' s'' -> ext h c0 s s''.
Proof. intros (A & B & C) (A' & B' & C'). split; [|split]; [auto|congruence|auto]. Qed.

Lemma ord_app_last l b b' : ord (l ++ [b]) ->
  (forall c, In c (cells b') -> In c (cells b) \/ NV c l) -> ord (l ++ [b']).
Proof.
  intros O H. induction l as [|x t IH]; [split; [intros c _ b1 []|exact I]|].
  cbn [app ord] in *. destruct O as (O1 & O2). split.
  - intros c Hc b1 Hb. apply in_app_or in Hb. destruct Hb as [Hb|[<-|[]]].
    + apply (O1 c Hc b1). apply in_or_app. auto.
    + intros Q. apply H in Q. destruct Q as [Q|Q].
      * apply (O1 c Hc b); [apply in_or_app; right; left; reflexivity|exact Q].
      * apply (Q x); [left; reflexivity|exact Hc].
  - apply IH; [exact O2|]. intros c Hc. destruct (H c Hc) as [Q|Q]; [auto|right].
    intros y Hy. apply Q. right. exact Hy.
Qed.

Lemma ord_prefix l m : ord (l ++ m) -> ord l.
Proof.
  induction l as [|x t IH]; [intros; exact I|]. intros (A & B). split; [|auto].
  intros c Hc b Hb. apply (A c Hc b). apply in_or_app. auto.
Qed.

Lemma ord_snoc_empty l b : ord l -> cells b = [] -> ord (l ++ [b]).
Proof.
  intros O E. induction l as [|x t IH]; [split; [intros c _ b1 []|exact I]|].
  destruct O as (O1 & O2). split; [|auto]. intros c Hc b1 Hb.
  apply in_app_or in Hb. destruct Hb as [Hb|[<-|[]]]; [apply (O1 c Hc b1 Hb)|rewrite E; auto].
Qed.

(** Replacing the last pending buffer. *)
Lemma J_last h c0 s b s' b' :
  s_cur s = Some b -> pend s' = s_out s ++ [b'] ->
  b_vals b' = b_vals b -> (forall c, In c (slots b') -> In c (slots b) \/ c = c0) ->
  (J h c0 s -> J h c0 s') /\ (forall c, c <> c0 -> occ (pend s') c -> occ (pend s) c) /\
  ((forall c, vocc (pend s) c -> vocc (pend s') c)).
Proof.
  intros C P V S. unfold J. rewrite P. unfold pend. rewrite C.
  assert (CB : forall c, In c (cells b') -> In c (cells b) \/ c = c0).
  { intros c Hc. unfold cells in *. rewrite V in Hc. apply in_app_or in Hc.
    destruct Hc as [Hc|Hc]; [apply S in Hc; destruct Hc; [left; apply in_or_app; auto|auto]|].
    left. apply in_or_app. auto. }
  split; [|split].
  - intros ((A & O) & N & I0). split; [split|split].
    + intros x c Hx Hc. apply in_app_or in Hx. destruct Hx as [Hx|[<-|[]]].
      * apply (A x); [apply in_or_app; auto|exact Hc].
      * apply CB in Hc. destruct Hc as [Hc| ->]; [|exact I0].
        apply (A b); [apply in_or_app; right; left; reflexivity|exact Hc].
    + apply (ord_app_last _ b); [exact O|]. intros c Hc. apply CB in Hc.
      destruct Hc as [Hc| ->]; [auto|]. right. intros x Hx. apply N. apply in_or_app. auto.
    + intros x Hx. apply in_app_or in Hx. destruct Hx as [Hx|[<-|[]]].
      * apply N. apply in_or_app. auto.
      * rewrite V. apply N. apply in_or_app. right. left. reflexivity.
    + exact I0.
  - intros c Hc (x & Hx & Q). apply in_app_or in Hx. destruct Hx as [Hx|[<-|[]]].
    + exists x. split; [apply in_or_app; auto|exact Q].
    + apply CB in Q. destruct Q as [Q|Q]; [|congruence].
      exists b. split; [apply in_or_app; right; left; reflexivity|exact Q].
  - intros c (x & Hx & Q). apply in_app_or in Hx. destruct Hx as [Hx|[<-|[]]].
    + exists x. split; [apply in_or_app; auto|exact Q].
    + exists b'. split; [apply in_or_app; right; left; reflexivity|rewrite V; exact Q].
Qed.

(** Results. *)
Definition okres {A} (P : exc -> Prop) h c0 (s : st) (r : res A) (Q : st -> A -> Prop) : Prop :=
  match r with
  | Ok s' a => ext h c0 s s' /\ keep s s' /\ Q s' a
  | Exc s' e => ext h c0 s s' /\ P e
  | Bad => True
  end.

Lemma okres_bind {A B} P h c0 s (r : res A) (f : st -> A -> res B) Q Q' :
  okres P h c0 s r Q -> (forall s' a, Q s' a -> okres P h c0 s' (f s' a) Q') ->
  okres P h c0 s (bind r f) Q'.
Proof.
  intros H F. destruct r as [s' a|s' e|]; cbn [bind okres] in *; [|exact H|exact I].
  destruct H as (E & K & HQ). specialize (F s' a HQ).
  destruct (f s' a) as [s'' b|s'' e|]; cbn [okres] in *; [|destruct F as (F1 & F2); split; [|exact F2]|exact I].
  - destruct F as (F1 & F2 & F3). split; [eapply ext_trans; eassumption|]. split; [|exact F3].
    intros c Hc. auto.
  - eapply ext_trans; eassumption.
Qed.

Definition transport_only (e : exc) : Prop := e = ETransport.

Lemma okres_weaken {A} (P P' : exc -> Prop) h c0 s (r : res A) Q : (forall e, P e -> P' e) ->
  okres P h c0 s r Q -> okres P' h c0 s r Q.
Proof. intros H. destruct r; cbn; intuition. Qed.

Lemma update_current_ext P g h c0 s : okres P h c0 s (update_current g s) (fun s' b => s_cur s' = Some b).
Proof.
  unfold update_current. destruct (s_cur s) as [b|] eqn:C.
  - cbn. split; [apply ext_refl|]. split; [intros c; auto|exact C].
  - assert (PR : match preamble g s with
                 | Ok s' b => cells b = [] /\ s_cur s' = None /\ s_out s' = s_out s /\ s_heap s' = s_heap s
                 | Exc _ _ => False | Bad => True end).
    { unfold preamble. destruct (g_hub g) as [[ip port]|]; destruct (g_ver g); cbn; auto. }
    destruct (preamble g s) as [s' b|s' e|]; [|contradiction|exact I]. cbn [bind].
    destruct ((send_counter b <=? g_maxsend g) && (reply_counter b <=? g_maxreply g)); [|exact I].
    destruct PR as (CE & CN & O & H). cbn [okres].
    assert (PD : pend (set_cur s' (Some b)) = pend s ++ [b]).
    { unfold pend. cbn [set_cur s_out s_cur]. rewrite C, O, app_nil_r. reflexivity. }
    split; [|split; [|reflexivity]].
    + split; [|split; [exact H|]].
      * unfold J. rewrite PD. intros ((A & OO) & N & I0). split; [split|split]; [| | |exact I0].
        -- intros x c Hx Hc. apply in_app_or in Hx. destruct Hx as [Hx|[<-|[]]]; [apply (A x c Hx Hc)|].
           rewrite CE in Hc. destruct Hc.
        -- apply ord_snoc_empty; assumption.
        -- intros x Hx. apply in_app_or in Hx. destruct Hx as [Hx|[<-|[]]]; [apply (N x Hx)|].
           unfold cells in CE. apply app_eq_nil in CE. destruct CE as (_ & ->). auto.
      * rewrite PD. intros c _ (x & Hx & Q). apply in_app_or in Hx. destruct Hx as [Hx|[<-|[]]].
        -- exists x. auto.
        -- rewrite CE in Q. destruct Q.
    + unfold keep. rewrite PD. intros c (x & Hx & Q). exists x. split; [apply in_or_app; auto|exact Q].
Qed.

Lemma predispatch_cells g b b' : predispatch g b = Some b' ->
  b_vals b' = b_vals b /\ slots b' = slots b.
Proof.
  unfold predispatch.
  assert (RP : forall n, flat_map dest_cells (repeat DHdr n) = []) by (induction n; auto).
  set (b1 := match g_ver g with V2 => b | V1 => _ end).
  assert (B : b_vals b1 = b_vals b /\ slots b1 = slots b).
  { subst b1. destruct (g_ver g); [|auto]. cbn [calc_header].
    destruct (calc_header V1 BOT 0 0 0); [|auto]. cbn [b_vals]. split; [reflexivity|].
    unfold slots. cbn [b_reply]. rewrite flat_map_app, RP, app_nil_r. reflexivity. }
  clearbody b1. destruct (g_maxsend g <? send_counter b1); [discriminate|].
  destruct (g_hub g) as [[? ?]|]; [|intros E; injection E as <-; exact B].
  destruct (b_send b1) as [|? [|? ?]]; try discriminate. intros E. injection E as <-. exact B.
Qed.

Lemma send_current_ext g h c0 s b : s_cur s = Some b ->
  okres transport_only h c0 s (send_current g s b) (fun _ _ => True).
Proof.
  intros C. unfold send_current. destruct (predispatch g b) as [b'|] eqn:E; [|exact I].
  destruct (predispatch_cells g b b' E) as (V & S).
  assert (OKC : forall bud, let s' := mkSt (s_ctr s) None (s_heap s) (s_out s ++ [b']) bud in
     ext h c0 s s' /\ keep s s' /\ True).
  { intros bud. cbv zeta.
    destruct (J_last h c0 s b (mkSt (s_ctr s) None (s_heap s) (s_out s ++ [b']) bud) b' C) as (X & Y & Z).
    - unfold pend. cbn [s_out s_cur]. apply app_nil_r.
    - exact V.
    - intros c Hc. rewrite S in Hc. auto.
    - split; [split; [exact X|split; [reflexivity|exact Y]]|]. split; [exact Z|exact I]. }
  destruct (s_budget s) as [[|k]|]; cbn [okres]; [|apply OKC|apply OKC].
  split; [|reflexivity]. unfold ext, J. unfold pend. cbn [exception_handler s_out s_cur s_heap].
  rewrite C, app_nil_r. split; [|split; [reflexivity|]].
  - intros ((A & O) & N & I0). split; [split|split]; [| | |exact I0].
    + intros x c Hx Hc. apply (A x c); [apply in_or_app; auto|exact Hc].
    + exact (ord_prefix _ _ O).
    + intros x Hx. apply N. apply in_or_app. auto.
  - intros c _ (x & Hx & Q). exists x. split; [apply in_or_app; auto|exact Q].
Qed.

Lemma check_space_ext g h c0 s x y :
  okres transport_only h c0 s (check_space g s x y) (fun s' _ => exists b, s_cur s' = Some b).
Proof.
  unfold check_space. eapply okres_bind; [apply update_current_ext|].
  intros s1 b C. cbv zeta.
  assert (RF : forall p : N * N, okres transport_only h c0 s1 (Ok s1 p) (fun s' _ => exists b, s_cur s' = Some b)).
  { intros p. cbn. split; [apply ext_refl|]. split; [intros c; auto|exists b; exact C]. }
  destruct ((x <=? _) && _); [apply RF|]. destruct (_ && _); [apply RF|].
  eapply okres_bind; [apply send_current_ext; exact C|].
  intros s2 _ _. eapply okres_bind; [apply update_current_ext|].
  intros s3 b3 C3. cbv zeta.
  destruct ((x <=? _) && _); cbn; (split; [apply ext_refl|]; split; [intros c; auto|exists b3; exact C3]).
Qed.

Definition any_exc (e : exc) : Prop := e = ETransport \/ e = EValidation.

Lemma push_tx_ext g h c0 s t wc body rep :
  (forall c, In c (flat_map dest_cells rep) -> c = c0) ->
  okres (fun e => e = EValidation /\ type_code (g_ver g) t = None) h c0 s (push_tx g s t wc body rep)
        (fun s' _ => exists b, s_cur s' = Some b).
Proof.
  intros R. unfold push_tx. destruct (s_cur s) as [b|] eqn:C; [|exact I].
  destruct (calc_header (g_ver g) t wc (s_ctr s) (req_info (g_ver g))) as [w|] eqn:CH.
  - destruct (g_maxsend g <? _); [exact I|]. cbn [okres].
    set (b' := mkBuf _ _ _).
    destruct (J_last h c0 s b (set_cur (inc_ctr s) (Some b')) b' C) as (X & Y & Z).
    + reflexivity.
    + reflexivity.
    + intros c Hc. unfold slots, b' in Hc. cbn [b_reply] in Hc. rewrite flat_map_app in Hc.
      apply in_app_or in Hc. destruct Hc as [Hc|Hc]; [auto|right; apply R, Hc].
    + split; [split; [exact X|split; [reflexivity|exact Y]]|]. split; [exact Z|exists b'; reflexivity].
  - cbn [okres]. split.
    + split; [|split; [reflexivity|auto]]. unfold J, pend, inc_ctr. cbn [s_out s_cur]. auto.
    + split; [reflexivity|]. unfold calc_header in CH.
      destruct (type_code (g_ver g) t); [discriminate|reflexivity].
Qed.

Lemma push_tx_ext_any g h c0 s t wc body rep :
  (forall c, In c (flat_map dest_cells rep) -> c = c0) ->
  okres any_exc h c0 s (push_tx g s t wc body rep) (fun s' _ => exists b, s_cur s' = Some b).
Proof.
  intros R. eapply okres_weaken; [|apply push_tx_ext, R]. intros e (-> & _). right. reflexivity.
Qed.

Lemma push_tx_ext_known g h c0 s t wc body rep :
  type_code (g_ver g) t <> None ->
  (forall c, In c (flat_map dest_cells rep) -> c = c0) ->
  okres transport_only h c0 s (push_tx g s t wc body rep) (fun s' _ => exists b, s_cur s' = Some b).
Proof.
  intros T R. eapply okres_weaken; [|apply push_tx_ext, R]. intros e (_ & X). congruence.
Qed.

Lemma write_loop_ext g h c0 t inc ne : type_code (g_ver g) t <> None -> forall fuel s a rest pl,
  okres transport_only h c0 s (write_loop fuel g s t inc ne a rest pl) (fun s' _ => exists b, s_cur s' = Some b).
Proof.
  intros T. induction fuel as [|fuel IH]; intros s a rest pl; [exact I|].
  cbn [write_loop]. eapply okres_bind; [apply check_space_ext|].
  intros s1 av _. cbv zeta. destruct (ne && _); [exact I|].
  eapply okres_bind; [apply push_tx_ext_known; [exact T|]|].
  - cbn. intros c [].
  - intros s2 u Q. destruct (pos_i32 _); [apply IH|].
    cbn. split; [apply ext_refl|]. split; [intros c; auto|exact Q].
Qed.

Lemma read_loop_ext g h c0 t inc size : type_code (g_ver g) t <> None -> forall fuel s a off pl,
  okres transport_only h c0 s (read_loop fuel g s t inc c0 size a off pl) (fun s' _ => exists b, s_cur s' = Some b).
Proof.
  intros T. induction fuel as [|fuel IH]; intros s a off pl; [exact I|].
  cbn [read_loop]. eapply okres_bind; [apply check_space_ext|].
  intros s1 av _. cbv zeta. destruct (size <? _); [exact I|].
  eapply okres_bind; [apply push_tx_ext_known; [exact T|]|].
  - cbn. intuition congruence.
  - intros s2 u Q. destruct (pos_i32 _); [apply IH|].
    cbn. split; [apply ext_refl|]. split; [intros c; auto|exact Q].
Qed.

(** ** One user call. *)
Definition Wst (s : st) : Prop := W (s_heap s) (pend s).

Lemma inval_lt h c : inval h c -> (c < length h)%nat.
Proof. intros (k & E & _). apply nth_error_Some. congruence. Qed.

Lemma inval_app h k c : inval h c -> inval (h ++ k) c.
Proof.
  intros (x & E & V). exists x. split; [|exact V]. rewrite nth_error_app1; [exact E|].
  apply nth_error_Some. congruence.
Qed.

Lemma W_J s k : Wst s -> cell_valid k = false -> J (s_heap s ++ [k]) (length (s_heap s)) s.
Proof.
  intros (A & O) V. split; [split|split].
  - intros b c Hb Hc. apply inval_app, (A b c Hb Hc).
  - exact O.
  - intros b Hb Q. assert (X := inval_lt _ _ (A b _ Hb (in_or_app _ _ _ (or_intror Q)))). lia.
  - exists k. split; [|exact V]. rewrite nth_error_app2 by lia. rewrite Nat.sub_diag. reflexivity.
Qed.

Lemma occ_lt s c : Wst s -> occ (pend s) c -> (c < length (s_heap s))%nat.
Proof. intros (A & _) (b & Hb & Q). exact (inval_lt _ _ (A b c Hb Q)). Qed.

(** Adding the handle to the last packet. *)
Lemma add_val_W h c0 s b : J h c0 s -> s_cur s = Some b -> s_heap s = h ->
  Wst (add_val s c0) /\ s_heap (add_val s c0) = h /\
  (exists b', s_cur (add_val s c0) = Some b' /\ In c0 (b_vals b')) /\
  keep s (add_val s c0) /\ (forall c, c <> c0 -> occ (pend (add_val s c0)) c -> occ (pend s) c).
Proof.
  intros ((A & O) & N & I0) C H. unfold add_val. rewrite C. unfold Wst, keep.
  set (b' := mkBuf (b_send b) (b_reply b) (b_vals b ++ [c0])).
  assert (P' : pend (set_cur s (Some b')) = s_out s ++ [b']) by reflexivity.
  assert (P : pend s = s_out s ++ [b]) by (unfold pend; rewrite C; reflexivity).
  rewrite P', P in *. cbn [set_cur s_heap]. rewrite H.
  assert (CB : forall c, In c (cells b') -> In c (cells b) \/ c = c0).
  { intros c. unfold cells, b', slots. cbn [b_reply b_vals]. rewrite !in_app_iff. cbn. intuition. }
  split; [split|split; [reflexivity|split; [|split]]].
  - intros x c Hx Hc. apply in_app_or in Hx. destruct Hx as [Hx|[<-|[]]].
    + apply (A x c); [apply in_or_app; auto|exact Hc].
    + apply CB in Hc. destruct Hc as [Hc| ->]; [|exact I0].
      apply (A b c); [apply in_or_app; right; left; reflexivity|exact Hc].
  - apply (ord_app_last _ b); [exact O|]. intros c Hc. apply CB in Hc.
    destruct Hc as [Hc| ->]; [auto|]. right. intros x Hx. apply N. apply in_or_app. auto.
  - exists b'. split; [reflexivity|]. cbn. apply in_or_app. right. left. reflexivity.
  - intros c (x & Hx & Q). apply in_app_or in Hx. destruct Hx as [Hx|[<-|[]]].
    + exists x. split; [apply in_or_app; auto|exact Q].
    + exists b'. split; [apply in_or_app; right; left; reflexivity|].
      cbn. apply in_or_app. auto.
  - intros c Hc (x & Hx & Q). apply in_app_or in Hx. destruct Hx as [Hx|[<-|[]]].
    + exists x. split; [apply in_or_app; auto|exact Q].
    + apply CB in Q. destruct Q as [Q|Q]; [|congruence].
      exists b. split; [apply in_or_app; right; left; reflexivity|exact Q].
Qed.

(** What a call does to the handles and to the pending packets. *)
Definition op_post (s : st) (r : res nat) : Prop :=
  match r with
  | Ok s' c =>
      Wst s' /\ c = length (s_heap s) /\
      (exists k, s_heap s' = s_heap s ++ [k] /\ cell_valid k = false) /\
      (exists b, s_cur s' = Some b /\ In c (b_vals b)) /\ keep s s' /\
      (forall c', c' <> c -> occ (pend s') c' -> occ (pend s) c')
  | Exc s' e =>
      Wst s' /\
      (s_heap s' = s_heap s \/
       e = ETransport /\ exists k, s_heap s' = s_heap s ++ [k] /\ cell_valid k = false) /\
      (e <> ETransport -> keep s s') /\
      (forall c', c' <> length (s_heap s) -> occ (pend s') c' -> occ (pend s) c')
  | Bad => True
  end.

Lemma W_shrink s' h k c0 : J (h ++ [k]) c0 s' -> s_heap s' = h -> c0 = length h ->
  ~ occ (pend s') c0 -> Wst s'.
Proof.
  intros ((A & O) & _) H -> N. split; [|exact O]. rewrite H.
  intros b c Hb Hc. destruct (A b c Hb Hc) as (x & E & V). exists x. split; [|exact V].
  destruct (Nat.lt_ge_cases c (length h)) as [L|L]; [rewrite nth_error_app1 in E by exact L; exact E|].
  exfalso. rewrite nth_error_app2 in E by exact L.
  assert (c = length h).
  { destruct (c - length h)%nat as [|[|?]] eqn:Q; [lia|discriminate..]. }
  subst c. apply N. exists b. auto.
Qed.

(** Calls that check space, push one transaction and allocate the handle. *)
Lemma single_post g s a0 b0 t wc body rep k :
  Wst s -> cell_valid k = false ->
  (forall s', s_heap s' = s_heap s -> forall c, In c (flat_map dest_cells (rep s')) -> c = length (s_heap s)) ->
  op_post s (bind (check_space g s a0 b0) (fun s1 _ =>
             bind (push_tx g s1 t wc body (rep s1)) (fun s2 _ =>
             let (s3, c) := alloc s2 k in Ok (add_val s3 c) c))).
Proof.
  intros HW V R.
  assert (J0 := W_J s k HW V). set (h := s_heap s ++ [k]) in *. set (c0 := length (s_heap s)) in *.
  assert (NO : ~ occ (pend s) c0) by (intros Q; apply (occ_lt s c0 HW) in Q; unfold c0 in Q; lia).
  assert (CS := check_space_ext g h c0 s a0 b0).
  destruct (check_space g s a0 b0) as [s1 av|s1 e|] eqn:E1; cbn [bind okres] in *; [| |exact I].
  - destruct CS as ((X1 & X2 & X3) & K1 & _).
    assert (PT := push_tx_ext g h c0 s1 t wc body (rep s1) (R s1 X2)).
    assert (N1 : forall s', (forall c, c <> c0 -> occ (pend s') c -> occ (pend s) c) -> True) by auto.
    destruct (push_tx g s1 t wc body (rep s1)) as [s2 []|s2 e|] eqn:E2; cbn [bind okres] in *; [| |exact I].
    + destruct PT as ((Y1 & Y2 & Y3) & K2 & (b2 & C2)).
      unfold alloc.
      set (s3 := mkSt (s_ctr s2) (s_cur s2) (s_heap s2 ++ [k]) (s_out s2) (s_budget s2)).
      assert (H2 : s_heap s2 = s_heap s) by congruence.
      assert (L2 : length (s_heap s2) = c0) by (rewrite H2; reflexivity).
      rewrite L2.
      assert (J3 : J h c0 s3) by exact (Y1 (X1 J0)).
      destruct (add_val_W h c0 s3 b2 J3 C2) as (Z1 & Z2 & Z3 & Z4 & Z5).
      { cbn [s3 s_heap]. rewrite H2. reflexivity. }
      cbn [op_post]. split; [exact Z1|]. split; [reflexivity|].
      split; [exists k; split; [exact Z2|exact V]|]. split; [exact Z3|]. split.
      * intros c Q. apply Z4. apply K2. apply K1. exact Q.
      * intros c Hc Q. apply X3; [exact Hc|]. apply Y3; [exact Hc|]. apply (Z5 c Hc Q).
    + destruct PT as ((Y1 & Y2 & Y3) & (-> & TN)).
      assert (E3 : pend s2 = pend s1).
      { unfold push_tx in E2. destruct (s_cur s1) eqn:C1; [|discriminate].
        destruct (calc_header _ t wc _ _); [destruct (g_maxsend g <? _); discriminate|].
        injection E2 as <-. reflexivity. }
      assert (OC : forall c, occ (pend s1) c -> c = c0 \/ occ (pend s) c).
      { intros c Q. destruct (Nat.eq_dec c c0); auto. }
      assert (N1' : ~ occ (pend s1) c0).
      { (* check_space adds no cell at all *)
        intros Q. clear - Q E1 NO HW V X3 X1 J0.
        assert (CS := check_space_ext g (s_heap s ++ [k; k]) (S c0) s a0 b0). rewrite E1 in CS.
        destruct CS as ((_ & _ & X) & _). apply NO. apply X; [lia|exact Q]. }
      cbn [op_post]. split; [|split; [left; congruence|split; [|]]].
      * apply (W_shrink s2 (s_heap s) k c0); [exact (Y1 (X1 J0))|congruence|reflexivity|].
        rewrite E3. exact N1'.
      * intros _ c Q. unfold keep in *. rewrite E3. apply K1, Q.
      * intros c Hc Q. rewrite E3 in Q. apply X3; assumption.
  - destruct CS as ((X1 & X2 & X3) & ->).
    assert (N1' : ~ occ (pend s1) c0).
    { intros Q.
      assert (CS := check_space_ext g (s_heap s ++ [k; k]) (S c0) s a0 b0). rewrite E1 in CS.
      destruct CS as ((_ & _ & X) & _). apply NO. apply X; [lia|exact Q]. }
    cbn [op_post]. split; [|split; [left; exact X2|split; [congruence|]]].
    + apply (W_shrink s1 (s_heap s) k c0); [exact (X1 J0)|exact X2|reflexivity|exact N1'].
    + intros c Hc Q. apply X3; assumption.
Qed.

(** Calls that allocate first and then push several transactions. *)
Lemma block_post s k (loop : st -> res unit) :
  Wst s -> cell_valid k = false ->
  (forall s1, okres transport_only (s_heap s ++ [k]) (length (s_heap s)) s1 (loop s1)
              (fun s' _ => exists b, s_cur s' = Some b)) ->
  op_post s (let (s1, c) := alloc s k in bind (loop s1) (fun s2 _ => Ok (add_val s2 c) c)).
Proof.
  intros HW V L. unfold alloc. set (c0 := length (s_heap s)) in *.
  set (s1 := mkSt (s_ctr s) (s_cur s) (s_heap s ++ [k]) (s_out s) (s_budget s)).
  assert (J1 : J (s_heap s ++ [k]) c0 s1) by exact (W_J s k HW V).
  specialize (L s1). destruct (loop s1) as [s2 []|s2 e|]; cbn [bind okres] in *; [| |exact I].
  - destruct L as ((X1 & X2 & X3) & K & (b & C)).
    destruct (add_val_W _ c0 s2 b (X1 J1) C X2) as (Z1 & Z2 & Z3 & Z4 & Z5).
    cbn [op_post]. split; [exact Z1|]. split; [reflexivity|]. split; [exists k; auto|]. split; [exact Z3|]. split.
    + intros c Q. apply Z4, K, Q.
    + intros c Hc Q. apply (X3 c Hc), (Z5 c Hc Q).
  - destruct L as ((X1 & X2 & X3) & ->). destruct (X1 J1) as (WW & _).
    cbn [op_post]. split; [unfold Wst; rewrite X2; exact WW|]. split; [right; split; [reflexivity|exists k; auto]|].
    split; [congruence|]. intros c Hc Q. apply (X3 c Hc Q).
Qed.

Lemma run_op_post g s o : Wst s -> op_post s (run_op g s o).
Proof.
  intros HW. destruct o as [a x|a x m|a l inc|a m|a n inc|a x y|a x|a m]; cbn [run_op].
  - unfold implement_write. apply single_post with (rep := fun _ => [DHdr]); [exact HW|reflexivity|].
    cbn. intros ? ? ? [].
  - unfold masked_write. destruct (masked_write_check x m).
    + cbn [op_post]. split; [exact HW|]. split; [auto|]. split; [intros _ c; auto|auto].
    + apply single_post with (rep := fun s => [DHdr; DWord (length (s_heap s))]); [exact HW|reflexivity|].
      cbn. intros s' -> c. intuition.
  - unfold implement_write_block.
    apply (block_post s (CHdr false) (fun s1 => write_loop (S (length l)) g s1 (if inc then WRITE else NI_WRITE) inc
          (match l with [] => false | _ => true end) a l (wrap32 (4 * N.of_nat (length l)))) HW); [reflexivity|].
    intros s1. apply write_loop_ext. destruct inc, (g_ver g); discriminate.
  - apply single_post with (rep := fun s => [DHdr; DWord (length (s_heap s))]); [exact HW|reflexivity|].
    cbn. intros s' -> c. intuition.
  - unfold implement_read_block.
    apply (block_post s (CVec false (repeat 0 (N.to_nat n)))
      (fun s1 => read_loop (S (N.to_nat n)) g s1 (if inc then READ else NI_READ) inc
          (length (s_heap s)) n a 0 (wrap32 (4 * n))) HW); [reflexivity|].
    intros s1. apply read_loop_ext. destruct inc, (g_ver g); discriminate.
  - apply single_post with (rep := fun s => [DHdr; DWord (length (s_heap s))]); [exact HW|reflexivity|].
    cbn. intros s' -> c. intuition.
  - apply single_post with (rep := fun s => [DHdr; DWord (length (s_heap s))]); [exact HW|reflexivity|].
    cbn. intros s' -> c. intuition.
  - apply single_post with (rep := fun s => [DHdr; DWord (length (s_heap s))]); [exact HW|reflexivity|].
    cbn. intros s' -> c. intuition.
Qed.
