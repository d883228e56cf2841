(** C123: which values the tables of the GUI show. *)
From Coq Require Import NArith ZArith List Bool String Ascii Lia ZifyBool ZifyNat ZifyN.
From Verif Require Import Widget.
From Verif Require NodeProofs.
Import ListNotations.

(** ** Specification *)

(** [x] is a part of [s]. *)
Definition part_of (x s : string) : Prop := exists a b, s = (a ++ x ++ b)%string.

(** The table after a message: white, and each row with the value of its register if there is
    one, otherwise as before. *)
Definition refreshed (vals : list (string * N)) (old new : list (string * option N)) : Prop :=
  Forall2 (fun r s => fst s = fst r /\
    ((exists v, In (fst r, v) vals /\ snd s = Some v) \/ ((forall v, ~ In (fst r, v) vals) /\ snd s = snd r))) old new.

(** ** Strings *)

Lemma app_assoc_s a b c : ((a ++ b) ++ c)%string = (a ++ b ++ c)%string.
Proof. induction a as [|x a IH]; cbn [append]; [reflexivity|rewrite IH; reflexivity]. Qed.
Lemma app_nil_s a : (a ++ "")%string = a.
Proof. induction a as [|x a IH]; cbn [append]; [reflexivity|rewrite IH; reflexivity]. Qed.
Lemma prefix_ok x s : String.prefix x s = true <-> exists b, s = (x ++ b)%string.
Proof.
  revert s. induction x as [|c x IH]; intros s; [cbn [append]; split; [intros _; exists s; reflexivity|destruct s; reflexivity]|].
  destruct s as [|d s]; cbn [String.prefix append]; [split; [discriminate|intros (b & E); discriminate]|].
  destruct (ascii_dec c d) as [->|N]; [rewrite IH|]; split.
  - intros (b & ->). exists b. reflexivity.
  - intros (b & E). injection E as ->. exists b. reflexivity.
  - discriminate.
  - intros (b & E). injection E as -> _. contradiction.
Qed.
Lemma contains_ok x s : contains x s = true <-> part_of x s.
Proof.
  unfold part_of. induction s as [|c s IH]; cbn [contains]; rewrite orb_true_iff, prefix_ok.
  - split.
    + intros [(b & E)|H]; [exists EmptyString, b; exact E|discriminate].
    + intros (a & b & E). left. exists b. destruct a; [exact E|discriminate].
  - rewrite IH. split.
    + intros [(b & E)|(a & b & ->)]; [exists EmptyString, b; exact E|exists (String c a), b; reflexivity].
    + intros (a & b & E). destruct a as [|d a]; [left; exists b; exact E|]. injection E as <- ->. right. exists a, b. reflexivity.
Qed.
Lemma own_part e k : part_of e (widget_id e k).
Proof. exists EmptyString, ("_" ++ str k)%string. reflexivity. Qed.

Lemma lookup_in {A} k (l : list (string * A)) v : lookup_key k l = Some v -> In (k, v) l.
Proof. induction l as [|(x, w) l IH]; cbn [lookup_key]; [discriminate|]. destruct (String.eqb_spec k x) as [->|]; [intros E; injection E as ->; left; reflexivity|]. intros E. right. exact (IH E). Qed.
Lemma lookup_none {A} k (l : list (string * A)) v : lookup_key k l = None -> ~ In (k, v) l.
Proof. induction l as [|(x, w) l IH]; cbn [lookup_key]; [intros _ []|]. destruct (String.eqb_spec k x) as [->|N]; [discriminate|]. intros E [X|X]; [congruence|exact (IH E X)]. Qed.
Lemma rows_ok vals rows : refreshed vals rows (map (update_row vals) rows).
Proof.
  induction rows as [|r rows IH]; cbn [map]; constructor; [|exact IH]. unfold update_row. destruct (lookup_key (fst r) vals) as [v|] eqn:E.
  - split; [reflexivity|]. left. exists v. split; [apply lookup_in; exact E|reflexivity].
  - split; [reflexivity|]. right. split; [intros v; apply lookup_none; exact E|reflexivity].
Qed.

(** ** The tables *)

(** C123, the values: a table of an end point shows the values of that end point after every message
    that has them, and is red with its rows as before after one that has not, provided that no
    other end point of the message has a name that is part of the table's id. *)
Theorem C123_own_partial : forall info e k red rows,
  NoDup (map fst info) -> (forall x vals, In (x, vals) info -> part_of x (widget_id e k) -> x = e) ->
  let w' := update_widget info {| w_id := widget_id e k; w_red := red; w_rows := rows |} in
  w_id w' = widget_id e k /\
  (forall vals, In (e, vals) info -> w_red w' = false /\ refreshed vals rows (w_rows w')) /\
  ((forall vals, ~ In (e, vals) info) -> w_red w' = true /\ w_rows w' = rows).
Proof.
  intros info e k red rows ND H w'. unfold w', update_widget. cbn [w_id w_rows].
  assert (F : forall x, In x (filter (fun k0 => contains (fst k0) (widget_id e k)) info) -> fst x = e /\ In x info).
  { intros (x & vals) X. apply filter_In in X. destruct X as (I & C). cbn [fst] in *. split; [|exact I]. apply (H x vals I). apply contains_ok. exact C. }
  destruct (filter (fun k0 => contains (fst k0) (widget_id e k)) info) as [|(x, v) r] eqn:E.
  - cbn [w_id w_red w_rows]. split; [reflexivity|]. split; [|auto]. intros vals I. exfalso.
    assert (X : In (e, vals) (filter (fun k0 => contains (fst k0) (widget_id e k)) info)) by (apply filter_In; split; [exact I|]; apply contains_ok, own_part). rewrite E in X. destruct X.
  - destruct (F (x, v) (or_introl eq_refl)) as (X & I). cbn [fst snd w_id w_red w_rows] in *. subst x. split; [reflexivity|]. split.
    + intros vals I'. split; [reflexivity|]. assert (v = vals); [|subst; apply rows_ok].
      clear -ND I I'. induction info as [|(y, u) info IH]; [destruct I|]. cbn [map fst] in ND. inversion ND as [|? ? NI ND']; subst.
      destruct I as [I|I], I' as [I'|I']; try congruence; [| |exact (IH ND' I I')]; exfalso; apply NI; [injection I as -> _; exact (in_map fst _ _ I')|injection I' as -> _; exact (in_map fst _ _ I)].
    + intros N. exfalso. exact (N v I).
Qed.

(** [v] is the last value of register [x] of end point [e] in a series of messages. *)
Definition read_last (infos : list hw_info) (e x : string) (v : N) : Prop :=
  exists before info after vals, infos = before ++ info :: after /\ In (e, vals) info /\ In (x, v) vals /\
    forall j vals' v', In j after -> In (e, vals') j -> ~ In (x, v') vals'.

Lemma update_nth info ws i w : nth_error ws i = Some w -> nth_error (update_panel info ws) i = Some (update_widget info w).
Proof. intros H. unfold update_panel. rewrite nth_error_map, H. reflexivity. Qed.

(** C123, the panel: from the moment a table was added, among any others and after any messages, its
    rows are those it was made with, each shows the last value that its end point sent for it, or
    nothing if there was none, and the table is red exactly if the last message had no values of its
    end point; provided that no other end point has a name that is part of the table's id. *)
Theorem C123_panel_partial : forall infos e k rows ws i,
  Forall (fun info => NoDup (map fst info) /\ forall x vals, In (x, vals) info -> part_of x (widget_id e k) -> x = e) infos ->
  nth_error ws i = Some (new_widget e k rows) ->
  exists w, nth_error (fold_left (fun ws info => update_panel info ws) infos ws) i = Some w /\
    w_id w = widget_id e k /\ map fst (w_rows w) = rows /\
    (forall x v, In (x, Some v) (w_rows w) -> read_last infos e x v) /\
    (forall x, In (x, None) (w_rows w) -> forall info vals v, In info infos -> In (e, vals) info -> ~ In (x, v) vals) /\
    (forall before info, infos = before ++ [info] -> (w_red w = true <-> forall vals, ~ In (e, vals) info)).
Proof.
  intros infos e k rows ws i F H. induction infos as [|info infos IH] using rev_ind.
  - exists (new_widget e k rows). cbn [fold_left]. split; [exact H|]. split; [reflexivity|]. unfold new_widget. cbn [w_rows w_red]. split; [rewrite map_map; apply map_id|]. split; [|split].
    + intros x v I. apply in_map_iff in I. destruct I as (y & E & _). discriminate.
    + intros x _ info vals v [].
    + intros before info E. destruct before; discriminate.
  - apply Forall_app in F. destruct F as (F & FI). inversion FI as [|? ? (ND & PO) _]; subst. destruct (IH F) as ([wid red rs] & N & E & R & S & O & _). clear IH. cbn [w_id w_rows w_red] in *. subst wid.
    rewrite fold_left_app. cbn [fold_left]. destruct (C123_own_partial info e k red rs ND PO) as (E' & UP & DOWN).
    exists (update_widget info {| w_id := widget_id e k; w_red := red; w_rows := rs |}). split; [apply update_nth; exact N|]. split; [exact E'|].
    remember (update_widget info {| w_id := widget_id e k; w_red := red; w_rows := rs |}) as w' eqn:W'. clear W' N.
    assert (D : (exists vals, In (e, vals) info) \/ forall vals, ~ In (e, vals) info).
    { clear. induction info as [|(y, u) info [(v & I)|IH]]; [right; intros v []|left; exists v; right; exact I|].
      destruct (string_dec y e) as [->|NE]; [left; exists u; left; reflexivity|]. right. intros v [X|X]; [congruence|exact (IH v X)]. }
    destruct D as [(vals & I)|NI].
    + destruct (UP vals I) as (RE & RF).
      assert (UNI : forall vals', In (e, vals') info -> vals' = vals).
      { clear -ND I. intros vals' I'. induction info as [|(y, u) info IH]; [destruct I|]. cbn [map fst] in ND. inversion ND as [|? ? NI ND']; subst.
        destruct I as [I|I], I' as [I'|I']; try congruence; [| |exact (IH ND' I I')]; exfalso; apply NI; [injection I as -> _; exact (in_map fst _ _ I')|injection I' as -> _; exact (in_map fst _ _ I)]. }
      assert (ROW : forall s, In s (w_rows w') -> exists r, In r rs /\ fst s = fst r /\ ((exists v, In (fst r, v) vals /\ snd s = Some v) \/ ((forall v, ~ In (fst r, v) vals) /\ snd s = snd r))).
      { unfold refreshed in RF. clear -RF. induction RF as [|r s rs ss X RF IH]; [intros s []|]. intros u [<-|U]; [exists r; split; [left; reflexivity|exact X]|]. destruct (IH u U) as (r' & A & B). exists r'. split; [right; exact A|exact B]. }
      split; [|split; [|split]].
      * rewrite <- R. unfold refreshed in RF. clear -RF. induction RF as [|r s rs ss (X & _) RF IH]; [reflexivity|]. cbn [map]. rewrite X, IH. reflexivity.
      * intros x v X. destruct (ROW _ X) as ((x', o) & RI & FX & C). cbn [fst snd] in *. subst x'. destruct C as [(u & U & C)|(NU & C)].
        -- injection C as <-. exists infos, info, [], vals. split; [reflexivity|]. split; [exact I|]. split; [exact U|]. intros j ? ? [].
        -- subst o. destruct (S x v RI) as (b & j & a & vs & -> & J1 & J2 & J3). exists b, j, (a ++ [info]), vs. split; [rewrite <- app_assoc; reflexivity|]. split; [exact J1|]. split; [exact J2|].
           intros j' vs' v' J. apply in_app_iff in J. destruct J as [J|[<-|[]]]; [exact (J3 j' vs' v' J)|]. intros Y. rewrite (UNI vs' Y). apply NU.
      * intros x X. destruct (ROW _ X) as ((x', o) & RI & FX & C). cbn [fst snd] in *. subst x'. destruct C as [(u & U & C)|(NU & C)]; [discriminate|]. subst o.
        intros j vs v J. apply in_app_iff in J. destruct J as [J|[<-|[]]]; [exact (O x RI j vs v J)|]. intros Y. rewrite (UNI vs Y). apply NU.
      * intros b j EJ. apply app_inj_tail in EJ. destruct EJ as (_ & <-). rewrite RE. split; [discriminate|]. intros Z. exfalso. exact (Z vals I).
    + destruct (DOWN NI) as (RE & RS). rewrite RS. split; [exact R|]. split; [|split].
      * intros x v X. destruct (S x v X) as (b & j & a & vs & -> & J1 & J2 & J3). exists b, j, (a ++ [info]), vs. split; [rewrite <- app_assoc; reflexivity|]. split; [exact J1|]. split; [exact J2|].
        intros j' vs' v' J. apply in_app_iff in J. destruct J as [J|[<-|[]]]; [exact (J3 j' vs' v' J)|]. intros Y. exfalso. exact (NI vs' Y).
      * intros x X j vs v J. apply in_app_iff in J. destruct J as [J|[<-|[]]]; [exact (O x X j vs v J)|]. intros Y. exfalso. exact (NI vs Y).
      * intros b j EJ. apply app_inj_tail in EJ. destruct EJ as (_ & <-). rewrite RE. split; auto.
Qed.

(** Without that: the table of an end point that is down is white and shows the values of another end
    point, if that one's name is part of its name, whatever they are; and so it does while both are up
    if the other one comes first in the message. *)
Theorem C123_other_refuted : forall pre other post k red rows vals rest,
  let e := (pre ++ other ++ post)%string in
  let w' := update_widget ((other, vals) :: rest) {| w_id := widget_id e k; w_red := red; w_rows := rows |} in
  w_red w' = false /\ refreshed vals rows (w_rows w').
Proof.
  intros pre other post k red rows vals rest e w'. unfold w', update_widget. cbn [w_id w_rows filter fst].
  replace (contains other (widget_id e k)) with true; [cbn [w_red w_rows snd]; split; [reflexivity|apply rows_ok]|].
  symmetry. apply contains_ok. exists pre, (post ++ "_" ++ str k)%string. unfold widget_id, e. rewrite !app_assoc_s. reflexivity.
Qed.

(** ** The rows *)

Lemma remove_new x l : ~ In x l -> remove_first x (l ++ [x]) = l.
Proof.
  induction l as [|y l IH]; intros N; cbn [app remove_first]; [rewrite String.eqb_refl; reflexivity|].
  destruct (String.eqb_spec x y) as [->|]; [exfalso; apply N; left; reflexivity|]. rewrite IH; [reflexivity|]. intros X. apply N. right. exact X.
Qed.
Lemma dotted_last l x : l <> [] -> dotted (l ++ [x]) = (dotted l ++ "." ++ x)%string.
Proof.
  induction l as [|y l IH]; intros N; [contradiction|]. destruct l as [|z l]; [reflexivity|].
  change (dotted ((y :: z :: l) ++ [x])) with (y ++ "." ++ dotted ((z :: l) ++ [x]))%string. rewrite IH by discriminate.
  change (dotted (y :: z :: l)) with (y ++ "." ++ dotted (z :: l))%string. rewrite !app_assoc_s. reflexivity.
Qed.
Lemma last_app_s l (x d : string) : last (l ++ [x]) d = x.
Proof. induction l as [|y l IH]; [reflexivity|]. cbn [app]. destruct (l ++ [x]) eqn:E; [destruct l; discriminate|]. exact IH. Qed.

(** C123, the ids: the row of a node selected has the node's path from its end point as its id,
    provided that none of the nodes above it has the same id as the node. *)
Theorem C123_row_partial : forall e above id, Forall (fun x => x <> EmptyString) above -> ~ In id above ->
  row_id (e :: above ++ [id]) id = dotted (above ++ [id]).
Proof.
  intros e above id NE N. unfold row_id, under, prefix_id. destruct above as [|a above]; [reflexivity|].
  replace (Nat.leb _ 2) with false by (symmetry; apply Nat.leb_gt; cbn [List.length app]; rewrite app_length; cbn [List.length]; lia).
  cbn [hd remove_first]. rewrite String.eqb_refl. rewrite last_app_s, remove_new by exact N. rewrite dotted_last by discriminate.
  inversion NE; subst. destruct a as [|c a]; [contradiction|]. destruct above; reflexivity.
Qed.

(** Without that the row has another id: for a node [a.b.a] it is [b.a.a], which may be the path of
    another register. *)
Theorem C123_row_refuted : forall e a b, a <> EmptyString -> b <> EmptyString -> NodeProofs.dot_free a -> NodeProofs.dot_free b -> a <> b ->
  row_id [e; a; b; a] a = dotted [b; a; a] /\ dotted [b; a; a] <> dotted [a; b; a].
Proof.
  intros e a b NA NB DA DB N. split.
  - unfold row_id, under, prefix_id. cbn [List.length Nat.leb hd remove_first last]. rewrite !String.eqb_refl. cbn [last remove_first]. rewrite String.eqb_refl.
    destruct b as [|c b]; [contradiction|]. cbn [dotted append]. rewrite !app_assoc_s. reflexivity.
  - change (NodeProofs.join [b; a; a] <> NodeProofs.join [a; b; a]). intros E. apply (f_equal NodeProofs.split) in E.
    rewrite !NodeProofs.split_join in E by (try discriminate; repeat constructor; assumption). injection E as E _. congruence.
Qed.

(** [p]: the ids from one of [items] down to one of the nodes. *)
Inductive leads_to : list item -> list string -> Prop :=
| leads_here id below items : In (Item id below) items -> leads_to items [id]
| leads_below id below items p : In (Item id below) items -> leads_to below p -> leads_to items (id :: p).
(** No id is empty. *)
Inductive named : item -> Prop := Named id below : id <> EmptyString -> Forall named below -> named (Item id below).
(** How many nodes. *)
Fixpoint nodes_in (t : item) : nat := match t with Item _ below => 1 + list_sum (map nodes_in below) end.

Lemma item_ind' (P : item -> Prop) : (forall id below, Forall P below -> P (Item id below)) -> forall t, P t.
Proof. intros H. fix F 1. intros [id below]. apply H. induction below as [|t below IH]; constructor; [apply F|exact IH]. Qed.

Lemma dotted_app l x p : dotted (l ++ x :: p) = match dotted (l ++ [x]), p with w, [] => w | w, _ => (w ++ "." ++ dotted p)%string end.
Proof.
  induction l as [|y l IH]; [destruct p; reflexivity|]. cbn [app]. destruct (l ++ x :: p) as [|z r] eqn:E; [destruct l; discriminate|].
  change (dotted (y :: z :: r)) with (y ++ "." ++ dotted (z :: r))%string. rewrite IH. destruct (l ++ [x]) as [|z' r'] eqn:E'; [destruct l; discriminate|].
  change (dotted (y :: z' :: r')) with (y ++ "." ++ dotted (z' :: r'))%string. destruct p; [reflexivity|]. rewrite !app_assoc_s. reflexivity.
Qed.
Lemma named_dotted l x : x <> EmptyString -> dotted (l ++ [x]) <> EmptyString.
Proof.
  intros N. destruct l as [|y l]; [exact N|]. rewrite dotted_last by discriminate. intros E.
  destruct (dotted (y :: l)); discriminate.
Qed.
(** The id of the row of a node below those of [l]. *)
Lemma row_name l id : (l = [] \/ dotted l <> EmptyString) -> under (dotted l) id = dotted (l ++ [id]).
Proof.
  intros [->|N]; [reflexivity|]. assert (L : l <> []) by (intros ->; apply N; reflexivity). rewrite dotted_last by exact L. unfold under. destruct (dotted l); [contradiction|reflexivity].
Qed.

Lemma fill_ok t : named t -> forall l, (l = [] \/ dotted l <> EmptyString) ->
  forall r, In r (fill_nodes (dotted l) t) <-> exists p, leads_to [t] p /\ r = dotted (l ++ p).
Proof.
  induction t as [id below IH] using item_ind'. intros NA l L r. inversion NA as [? ? NI NB]; subst. cbn [fill_nodes]. rewrite (row_name l id L). cbn [In].
  assert (L' : l ++ [id] = [] \/ dotted (l ++ [id]) <> EmptyString) by (right; apply named_dotted; exact NI).
  rewrite in_flat_map. rewrite Forall_forall in IH, NB. split.
  - intros [<-|(t & I & R)]; [exists [id]; split; [eapply leads_here; left; reflexivity|reflexivity]|].
    apply (IH t I (NB t I) _ L') in R. destruct R as (p & P & ->). exists (id :: p). split; [|rewrite <- app_assoc; reflexivity].
    eapply leads_below; [left; reflexivity|]. inversion P as [i b ? X|i b ? q X Y]; subst; (destruct X as [X|[]]; subst t); [eapply leads_here; exact I|eapply leads_below; [exact I|exact Y]].
  - intros (p & P & ->). inversion P as [i b ? X|i b ? q X Y]; subst; (destruct X as [X|[]]; injection X as <- <-); [left; reflexivity|]. right.
    assert (Z : exists t, In t below /\ leads_to [t] q) by (inversion Y as [j c ? I|j c ? u I W]; subst; exists (Item j c); (split; [exact I|]); [eapply leads_here; left; reflexivity|eapply leads_below; [left; reflexivity|exact W]]).
    destruct Z as (t & I & Q). exists t. split; [exact I|]. apply (IH t I (NB t I) _ L'). exists q. split; [exact Q|]. rewrite <- app_assoc. reflexivity.
Qed.
Lemma new_rows e k rows : map fst (w_rows (new_widget e k rows)) = rows.
Proof. unfold new_widget. cbn [w_rows]. rewrite map_map. apply map_id. Qed.
Lemma fill_count t : forall p, List.length (fill_nodes p t) = nodes_in t.
Proof.
  induction t as [id below IH] using item_ind'. intros p. cbn [fill_nodes nodes_in List.length]. cbn [plus]. f_equal.
  generalize (under p id). intros w. induction IH as [|t below H _ IHb]; [reflexivity|].
  cbn [flat_map map]. rewrite app_length, H, IHb. reflexivity.
Qed.

(** C123, the rows of an end point: the table has one row for each node of the end point, and the ids
    of the rows are the paths of the nodes; with these rows it is a new table of the end point, as in
    [C123_panel_partial]. *)
Theorem C123_endpoint_rows : forall e k items, Forall named items ->
  let rows := map fst (w_rows (endpoint_table e k items)) in
  endpoint_table e k items = new_widget e k rows /\
  (forall r, In r rows <-> exists p, leads_to items p /\ r = dotted p) /\ List.length rows = list_sum (map nodes_in items).
Proof.
  intros e k items NA. unfold endpoint_table. cbv zeta. rewrite !new_rows. change (prefix_id [e]) with (dotted []). split; [reflexivity|]. split.
  - intros r. rewrite in_flat_map. rewrite Forall_forall in NA. split.
    + intros (t & I & R). apply (fill_ok t (NA t I) [] (or_introl eq_refl)) in R. destruct R as (p & P & ->). exists p. split; [|reflexivity].
      inversion P as [i b ? X|i b ? q X Y]; subst; (destruct X as [X|[]]; subst t); [eapply leads_here; exact I|eapply leads_below; [exact I|exact Y]].
    + intros (p & P & ->). assert (Z : exists t, In t items /\ leads_to [t] p) by (inversion P as [j c ? I|j c ? u I W]; subst; exists (Item j c); (split; [exact I|]); [eapply leads_here; left; reflexivity|eapply leads_below; [left; reflexivity|exact W]]).
      destruct Z as (t & I & Q). exists t. split; [exact I|]. apply (fill_ok t (NA t I) [] (or_introl eq_refl)). exists p. split; [exact Q|reflexivity].
  - clear NA. induction items as [|t items IH]; [reflexivity|]. cbn [flat_map map]. rewrite app_length, fill_count, IH. reflexivity.
Qed.

(** C123, the rows of a node selected: one for the node and one for each below it, with their paths as
    ids, provided that none of the nodes above it has the same id as the node. *)
Theorem C123_node_rows_partial : forall e k above id below, Forall (fun x => x <> EmptyString) above -> named (Item id below) -> ~ In id above ->
  let rows := map fst (w_rows (node_table (e :: above ++ [id]) k (Item id below))) in
  node_table (e :: above ++ [id]) k (Item id below) = new_widget e k rows /\
  (forall r, In r rows <-> exists p, leads_to [Item id below] p /\ r = dotted (above ++ p)) /\ List.length rows = nodes_in (Item id below).
Proof.
  intros e k above id below NE NA N. unfold node_table. cbn [hd]. cbv zeta. rewrite !new_rows. split; [reflexivity|]. split; [|apply fill_count].
  assert (P : prefix_id (e :: above ++ [id]) = dotted above).
  { unfold prefix_id. destruct above as [|a above]; [reflexivity|].
    replace (Nat.leb _ 2) with false by (symmetry; apply Nat.leb_gt; cbn [List.length app]; rewrite app_length; cbn [List.length]; lia).
    cbn [hd remove_first]. rewrite String.eqb_refl. rewrite last_app_s, remove_new by exact N. reflexivity. }
  rewrite P. apply fill_ok; [exact NA|]. destruct above as [|a above]; [left; reflexivity|]. right. inversion NE; subst. destruct a; [contradiction|]. destruct above; discriminate.
Qed.

(** [t] is at the end of the path [p] into [items]. *)
Inductive at_end : list item -> list string -> item -> Prop :=
| at_here id below items : In (Item id below) items -> at_end items [id] (Item id below)
| at_below id below items p t : In (Item id below) items -> at_end below p t -> at_end items (id :: p) t.
Definition id_of (t : item) : string := match t with Item id _ => id end.
(** Items beside each other have different ids, at all levels. *)
Inductive distinct : list item -> Prop :=
  Distinct items : NoDup (map id_of items) -> (forall id below, In (Item id below) items -> distinct below) -> distinct items.

Lemma find_own items id below : NoDup (map id_of items) -> In (Item id below) items ->
  find (fun t => match t with Item i _ => String.eqb i id end) items = Some (Item id below).
Proof.
  induction items as [|[i b] items IH]; intros ND I; [destruct I|]. cbn [map id_of] in ND. inversion ND as [|? ? NI ND']; subst. cbn [find].
  destruct I as [I|I]; [injection I as -> ->; rewrite String.eqb_refl; reflexivity|].
  destruct (String.eqb_spec i id) as [->|]; [exfalso; apply NI; exact (in_map id_of _ _ I)|]. exact (IH ND' I).
Qed.
Lemma find_item_ok items p t : at_end items p t -> distinct items -> forall start, find_item p items start = Some t.
Proof.
  induction 1 as [id below items I|id below items p t I A IH]; intros D start; inversion D as [? ND DB]; subst; cbn [find_item]; rewrite (find_own items id below ND I).
  - reflexivity.
  - apply IH. exact (DB id below I).
Qed.

Lemma at_named items p t : at_end items p t -> Forall named items -> Forall (fun x => x <> EmptyString) p /\ named t.
Proof.
  induction 1 as [id below items I|id below items p t I A IH]; intros NA; rewrite Forall_forall in NA; specialize (NA _ I); inversion NA as [? ? NI NB]; subst.
  - split; [repeat constructor; exact NI|exact NA].
  - destruct (IH NB) as (F & T). split; [constructor; assumption|exact T].
Qed.

(** C123, the table added: for an end point selected in the tree, the table of that end point with a row
    for each of its nodes; for a node, the table of its end point with rows for that node and those below
    it, provided that no node above it has its id. *)
Theorem C123_add_partial : forall tree k, distinct tree -> Forall named tree ->
  (forall e below, In (Item e below) tree -> exists rows, add_table [e] tree k = Some (new_widget e k rows) /\
     (forall r, In r rows <-> exists p, leads_to below p /\ r = dotted p) /\ List.length rows = list_sum (map nodes_in below)) /\
  (forall e above id below, at_end tree (e :: above ++ [id]) (Item id below) -> ~ In id above ->
     exists rows, add_table (e :: above ++ [id]) tree k = Some (new_widget e k rows) /\
     (forall r, In r rows <-> exists p, leads_to [Item id below] p /\ r = dotted (above ++ p)) /\ List.length rows = nodes_in (Item id below)).
Proof.
  intros tree k D NA. split.
  - intros e below I. rewrite Forall_forall in NA. specialize (NA _ I). inversion NA as [? ? _ NB]; subst.
    destruct (C123_endpoint_rows e k below NB) as (E & R & C). eexists. split; [|split; [exact R|exact C]].
    unfold add_table. rewrite (find_item_ok tree [e] (Item e below)) by (try exact D; constructor; exact I). rewrite <- E. reflexivity.
  - intros e above id below A NI. destruct (at_named _ _ _ A NA) as (NE & NB). inversion NE as [|? ? _ NE1]; subst. apply Forall_app in NE1. destruct NE1 as (NE1 & _). clear NE. rename NE1 into NE. destruct (C123_node_rows_partial e k above id below NE NB NI) as (E & R & C). eexists. split; [|split; [exact R|exact C]].
    unfold add_table. rewrite (find_item_ok tree _ _ A D). rewrite <- E. destruct above; reflexivity.
Qed.

(** ** Examples *)

Open Scope string_scope.
Definition two : hw_info := [("board2", [("ctrl", 7%N); ("sub.a", 1%N)]); ("hub", [("ctrl", 8%N)])].
Example C123_own_ex : let w' := update_widget two {| w_id := widget_id "hub" 12; w_red := true; w_rows := [("ctrl", Some 3%N); ("stat", None)] |} in
  w_id w' = "hub_12" /\ w_red w' = false /\ w_rows w' = [("ctrl", Some 8%N); ("stat", None)] /\ refreshed [("ctrl", 8%N)] [("ctrl", Some 3%N); ("stat", None)] (w_rows w').
Proof.
  cbn zeta. destruct (C123_own_partial two "hub" 12 true [("ctrl", Some 3%N); ("stat", None)]) as (_ & H & _).
  - repeat constructor; cbn; intuition discriminate.
  - intros x vals [X|[X|[]]]; injection X as <- _; [|reflexivity]. intros P. apply contains_ok in P. vm_compute in P. discriminate.
  - destruct (H [("ctrl", 8%N)]) as (_ & R); [right; left; reflexivity|]. split; [reflexivity|]. split; [reflexivity|]. split; [reflexivity|exact R].
Qed.
Example C123_down_ex : update_widget two (new_widget "crate" 0 ["ctrl"]) = {| w_id := "crate_0"; w_red := true; w_rows := [("ctrl", None)] |}.
Proof. reflexivity. Qed.

(** C123_panel_partial: two messages, the second without the end point. *)
Example C123_panel_ex : exists w, nth_error (fold_left (fun ws info => update_panel info ws) [two; [("board2", [])]] [new_widget "board2" 0 ["ctrl"]; new_widget "hub" 1 ["ctrl"; "stat"]]) 1 = Some w /\
  map fst (w_rows w) = ["ctrl"; "stat"] /\ w_rows w = [("ctrl", Some 8%N); ("stat", None)] /\ w_red w = true.
Proof.
  destruct (C123_panel_partial [two; [("board2", [])]] "hub" 1 ["ctrl"; "stat"] [new_widget "board2" 0 ["ctrl"]; new_widget "hub" 1 ["ctrl"; "stat"]] 1) as (w & N & _ & R & _).
  - constructor; [split|constructor; [split|constructor]].
    + repeat constructor; cbn; intuition discriminate.
    + intros x vals [X|[X|[]]]; injection X as <- _; [|reflexivity]. intros P. apply contains_ok in P. vm_compute in P. discriminate.
    + repeat constructor; cbn; intuition discriminate.
    + intros x vals [X|[]]; injection X as <- _. intros P. apply contains_ok in P. vm_compute in P. discriminate.
  - reflexivity.
  - exists w. split; [exact N|]. split; [exact R|]. vm_compute in N. injection N as <-. split; reflexivity.
Qed.

(** board1 is part of board10, which is down. *)
Example C123_other_ex : let w' := update_widget [("board1", [("ctrl", 7%N)])] {| w_id := widget_id "board10" 0; w_red := false; w_rows := [("ctrl", Some 3%N)] |} in
  w_red w' = false /\ refreshed [("ctrl", 7%N)] [("ctrl", Some 3%N)] (w_rows w') /\ w_rows w' = [("ctrl", Some 7%N)].
Proof.
  destruct (C123_other_refuted "" "board1" "0" 0 false [("ctrl", Some 3%N)] [("ctrl", 7%N)] []) as (A & B). split; [exact A|]. split; [exact B|reflexivity].
Qed.

Example C123_row_ex : row_id ["board"; "sub"; "ttc"; "ctrl"] "ctrl" = "sub.ttc.ctrl".
Proof. apply (C123_row_partial "board" ["sub"; "ttc"] "ctrl"); [repeat constructor; discriminate|cbn; intuition discriminate]. Qed.
Example C123_row_refuted_ex : row_id ["board"; "reset"; "ttc"; "reset"] "reset" = "ttc.reset.reset".
Proof. apply (C123_row_refuted "board" "reset" "ttc"); try discriminate; cbn; repeat split; discriminate. Qed.

Definition board : list item := [Item "ctrl" []; Item "sub" [Item "ttc" [Item "ctrl" []; Item "stat" []]]].
Example C123_endpoint_rows_ex : let rows := map fst (w_rows (endpoint_table "board" 2 board)) in
  rows = ["ctrl"; "sub"; "sub.ttc"; "sub.ttc.ctrl"; "sub.ttc.stat"] /\ exists p, leads_to board p /\ "sub.ttc.stat" = dotted p.
Proof.
  cbv zeta. split; [reflexivity|]. apply (C123_endpoint_rows "board" 2 board); [repeat (constructor; try discriminate)|]. vm_compute. tauto.
Qed.
Example C123_node_rows_ex : let rows := map fst (w_rows (node_table ["board"; "sub"; "ttc"] 0 (Item "ttc" [Item "ctrl" []; Item "stat" []]))) in
  rows = ["sub.ttc"; "sub.ttc.ctrl"; "sub.ttc.stat"] /\ List.length rows = 3%nat.
Proof.
  cbv zeta. split; [reflexivity|]. apply (C123_node_rows_partial "board" 0 ["sub"] "ttc" [Item "ctrl" []; Item "stat" []]); [repeat constructor; discriminate|repeat (constructor; try discriminate)|cbn; intuition discriminate].
Qed.

Definition crate : list item := [Item "hub" [Item "ctrl" []]; Item "board" board].
Example C123_add_ex : exists rows, add_table ["board"; "sub"; "ttc"] crate 1 = Some (new_widget "board" 1 rows) /\ List.length rows = 3%nat.
Proof.
  destruct (C123_add_partial crate 1) as (_ & H).
  - repeat (constructor; [repeat constructor; cbn; intuition discriminate|]; intros ? ? X; cbn in X; repeat destruct X as [X|X]; try contradiction; injection X as <- <-).
  - repeat (constructor; try discriminate).
  - destruct (H "board" ["sub"] "ttc" [Item "ctrl" []; Item "stat" []]) as (rows & E & _ & C).
    + eapply at_below; [right; left; reflexivity|]. eapply at_below; [right; left; reflexivity|]. apply at_here. left. reflexivity.
    + cbn; intuition discriminate.
    + exists rows. split; [exact E|exact C].
Qed.

Print Assumptions C123_add_partial.
Print Assumptions C123_own_partial.
Print Assumptions C123_panel_partial.
Print Assumptions C123_other_refuted.
Print Assumptions C123_endpoint_rows.
Print Assumptions C123_node_rows_partial.
Print Assumptions C123_row_partial.
Print Assumptions C123_row_refuted.
