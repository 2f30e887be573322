(** What the cells of tables show is where the table is given room. *)
From Coq Require Import QArith ZArith Lia Lqa List.
From Verif Require Import Py Table TableProofs.
Import ListNotations.
Open Scope list_scope.
Open Scope nat_scope.

(** A rectangle (left, top, width, height) that is in another one, as far as it
    has a size; [bottom] is whether that is said of its bottom as well. *)
Definition sub (bottom : Prop) (x y w h x' y' w' h' : Q) : Prop :=
  ((0 < w')%Q -> (x <= x' /\ x' + w' <= x + w)%Q) /\ (y' <= y)%Q /\ (bottom -> (0 < h')%Q -> (y - h <= y' - h')%Q).

Section TableRoom.
Context {E W P F B : Type}.
Variable start : E -> res W.
Variable crun : W -> Q -> Q -> Q -> Q -> res (W * Q * bool * list P).
Variable b_eqb : B -> B -> bool.
Variable t : @table E F B.
Variables x y width height : Q.
Variable okE : E -> Prop.
Variable okW : W -> Prop.
Variable bottom : Prop.
(** What is shown in a rectangle. *)
Variable R : Q -> Q -> Q -> Q -> P -> Prop.
Hypothesis start_ok : forall e s, okE e -> start e = Ok s -> okW s.
Hypothesis run_ok : forall s x y w h s' ht fin ps, okW s -> crun s x y w h = Ok (s', ht, fin, ps) -> okW s' /\ Forall (R x y w h) ps.
Hypothesis R_sub : forall x y w h x' y' w' h' p, sub bottom x y w h x' y' w' h' -> R x' y' w' h' p -> R x y w h p.
Notation rstate := (@rstate E W P F B).
Notation incell := (@incell E W F).

Definition ok_margins (s : @cstyle F) : Prop := (0 <= m_top s /\ 0 <= m_right s /\ 0 <= m_bottom s /\ 0 <= m_left s)%Q.
Definition ok_cell (c : @cell E F) : Prop := ok_margins (c_style c) /\ okE (c_elem c).
Record ok_table : Prop := {
  ot_rows : Forall (Forall ok_cell) (t_rows t); ot_blank : ok_cell (t_blank t);
  ot_bv : forall i j, (0 <= b_width (t_bv t i j))%Q; ot_bh : forall i j, (0 <= b_width (t_bh t i j))%Q;
  ot_pos : Forall (fun w => (0 <= w)%Q) (t_widths t); ot_sum : (qsum (t_widths t) <= 1)%Q }.
Definition ok_dcell (d : @dcell W F) : Prop := ok_margins (d_style d) /\ okW (d_state d).
Definition ok_dcells (l : ndict (@dcell W F)) : Prop := Forall (fun kv => ok_dcell (snd kv)) l.
Hypothesis ok : ok_table.

Lemma qsum_app a b : (qsum (a ++ b) == qsum a + qsum b)%Q.
Proof. induction a as [|q a IH]; cbn [app qsum]; [ring|]. rewrite IH. ring. Qed.
Lemma qsum_pos l : Forall (fun w => (0 <= w)%Q) l -> (0 <= qsum l)%Q.
Proof. induction 1; cbn [qsum]; lra. Qed.
Lemma Forall_firstn {A} (Q : A -> Prop) n l : Forall Q l -> Forall Q (firstn n l).
Proof. intros H. rewrite <- (firstn_skipn n l) in H. apply Forall_app in H. tauto. Qed.
Lemma Forall_skipn {A} (Q : A -> Prop) n l : Forall Q l -> Forall Q (skipn n l).
Proof. intros H. rewrite <- (firstn_skipn n l) in H. apply Forall_app in H. tauto. Qed.
Lemma sums a n : (0 <= sum_widths t 0 a /\ 0 <= sum_widths t a (a + n) /\ sum_widths t 0 a + sum_widths t a (a + n) <= 1)%Q.
Proof.
  unfold sum_widths. replace (a - 0) with a by lia. replace (a + n - a) with n by lia. cbn [skipn]. pose proof (ot_pos ok) as Hp.
  split; [apply qsum_pos, Forall_firstn; exact Hp|]. split; [apply qsum_pos, Forall_firstn, Forall_skipn; exact Hp|].
  assert (H : (qsum (t_widths t) == qsum (firstn a (t_widths t)) + (qsum (firstn n (skipn a (t_widths t))) + qsum (skipn n (skipn a (t_widths t)))))%Q).
  { rewrite <- !qsum_app, !firstn_skipn. reflexivity. }
  pose proof (qsum_pos _ (Forall_skipn _ n _ (Forall_skipn _ a _ Hp))) as H1. pose proof (ot_sum ok) as H2. lra.
Qed.

Definition okin (el : incell) : Prop := match el with New c => ok_cell c | Blank => True | Cont d => ok_dcell d end.
Lemma okin_margins el : okin el -> ok_margins (style_of t el).
Proof. destruct el as [c| |d]; cbn [okin style_of]; intros H; [apply H|apply (ot_blank ok)|apply H]. Qed.
Lemma okin_begins el s : okin el -> begins start t el = Ok s -> okW s.
Proof.
  destruct el as [c| |d]; cbn [okin begins]; intros H Hb.
  - exact (start_ok _ _ (proj2 H) Hb).
  - exact (start_ok _ _ (proj2 (ot_blank ok)) Hb).
  - injection Hb as <-. apply H.
Qed.
Lemma half q : (0 <= q -> 0 <= q / 2)%Q.
Proof. intros H. apply Qle_shift_div_l; lra. Qed.
Lemma event_ok index first r_h col el e : (0 <= r_h)%Q -> okin el -> event_of start crun t x width index first (y - r_h)%Q (height - r_h)%Q col el e ->
  Forall (R x y width height) (e_parts e) /\ okW (e_out e) /\ style_of t (e_what e) = style_of t el.
Proof.
  intros Hr Hel [_ _ Hwhat Hx Hy Hw Hh Hin Hrun _]. destruct (run_ok _ _ _ _ _ _ _ _ _ (okin_begins _ _ Hel Hin) Hrun) as [Ho Hps].
  split; [|split; [exact Ho|now rewrite Hwhat]]. eapply Forall_impl; [|exact Hps]. intros p Hp. refine (R_sub _ _ _ _ _ _ _ _ _ _ Hp).
  destruct (okin_margins _ Hel) as (M1 & M2 & M3 & M4).
  pose proof (half _ (ot_bv ok index col)) as B1. pose proof (half _ (ot_bv ok index (col + colspan_of t el))) as B2. pose proof (half _ (ot_bh ok index col)) as B3.
  pose proof (half _ (ot_bh ok (Z.to_nat (Z.of_nat index + rows_left t index el + 1)) col)) as B4.
  destruct (sums col (colspan_of t el)) as (S1 & S2 & S3).
  rewrite Hx, Hy, Hw, Hh. unfold pad_left, pad_right, pad_top, pad_bottom. split; [|split].
  - intros H0. assert (Hwd : (0 < width)%Q). { destruct (Qlt_le_dec 0 width) as [K|K]; [exact K|]. exfalso. nra. } split; nra.
  - lra.
  - intros _ _. lra.
Qed.

Lemma nset_ok k d l : ok_dcell d -> ok_dcells l -> ok_dcells (nset k d l).
Proof.
  intros Hd. unfold ok_dcells. induction l as [|[k' v] l IH]; intros H; cbn [nset]; [constructor; [exact Hd|constructor]|].
  inversion H as [|? ? H1 H2]; subst. destruct (k =? k'); constructor; auto.
Qed.
Lemma npop_ok k l : ok_dcells l -> ok_dcells (npop k l).
Proof. intros H. apply Forall_forall. intros kv Hk. apply filter_In in Hk as [Hk _]. exact (proj1 (Forall_forall _ _) H kv Hk). Qed.
Lemma nget_ok k l d : ok_dcells l -> nget k l = Some d -> ok_dcell d.
Proof.
  induction l as [|[k' v] l IH]; cbn [nget]; [discriminate|]. intros H. inversion H as [|? ? H1 H2]; subst. destruct (k =? k'); [intros [= <-]; exact H1|exact (IH H2)].
Qed.

Record rok (r : rstate) : Prop := { rk_del : ok_dcells (r_delayed r); rk_parts : Forall (R x y width height) (r_parts r); rk_height : (0 <= r_height r)%Q }.
Lemma qlt_lt a b : qlt a b = true -> (a < b)%Q.
Proof. unfold qlt. intros H. destruct (Qlt_le_dec a b) as [K|K]; [exact K|]. apply Qle_bool_iff in K. rewrite K in H. discriminate. Qed.
Lemma scan_ok index first del r_h : (0 <= r_h)%Q -> forall r col row r' evs,
  scan start crun t x width index first del (y - r_h)%Q (height - r_h)%Q r col row r' evs -> Forall okin row -> rok r -> (0 <= r_max r)%Q -> rok r' /\ (0 <= r_max r')%Q.
Proof.
  intros Hr. induction 1 as [r col|r col el row r1 r2 evs H1 H2 H3 IH|r col el row e r1 r2 evs H1 H2 H3 H4 IH]; intros Hrow Hok O4; [auto| |].
  - inversion Hrow as [|? ? He Hl]; subst. destruct Hok as [O1 O2 O3]. destruct H2. apply (IH Hl); [constructor; [congruence|congruence|rewrite sk_height; exact O3]|].
    rewrite sk_max. unfold max_after. destruct (nget col (r_span r)) as [[rows cols]|]; [|exact O4]. destruct (rows - 1 =? 0)%Z; [|exact O4].
    cbv zeta. match goal with |- context [if qlt ?a ?b then _ else _] => destruct (qlt a b) eqn:Eq end; [apply qlt_lt in Eq; lra|exact O4].
  - inversion Hrow as [|? ? He Hl]; subst. destruct Hok as [O1 O2 O3]. destruct (event_ok _ _ _ _ _ _ Hr He H2) as (E1 & E2 & E3). destruct H3. apply (IH Hl); [constructor|].
    + rewrite pr_delayed. destruct (e_fin e); [apply npop_ok; exact O1|]. apply nset_ok; [|exact O1]. split; cbn [rest_of d_style d_state]; [rewrite E3; apply okin_margins; exact He|exact E2].
    + rewrite pr_parts. apply Forall_app. auto.
    + rewrite pr_height. exact O3.
    + rewrite pr_max. cbv zeta. match goal with |- context [if qlt (r_max r) ?b then _ else _] => destruct (qlt (r_max r) b) eqn:Eq end; [apply qlt_lt in Eq; lra|exact O4].
Qed.
Lemma add_row_ok index first del r row a r' : Forall okin row -> rok r -> add_row start crun b_eqb t x y width height index first del r row = Ok (a, r') -> rok r'.
Proof.
  intros Hrow Hok H. destruct (add_row_cases _ _ _ _ _ _ _ _ _ _ _ _ _ _ _ H) as (r1 & evs & Hs & _ & Hc).
  assert (H0 : rok (TableProofs.reset r)) by (destruct Hok as [O1 O2 O3]; constructor; auto).
  assert (Hz : (0 <= r_max (TableProofs.reset r))%Q) by (cbn; lra).
  destruct (scan_ok _ _ _ _ (rk_height r Hok) _ _ _ _ _ Hs Hrow H0 Hz) as [H1 _].
  destruct Hc as [(_ & _ & _ & ->)|(_ & _ & go & _ & [_ (r2 & Hs2 & _ & _ & Hp & _ & Hd & _ & _ & _ & _ & Hh)])]; [exact H1|].
  cbn [rr_index rr_first rr_del rr_row rr_evs] in Hs2. destruct (scan_ok _ _ _ _ (rk_height r Hok) _ _ _ _ _ Hs2 Hrow H0 Hz) as [[O1 O2 O3] O4].
  constructor; [congruence|congruence|rewrite Hh; lra].
Qed.
Lemma add_rows_ok : forall rows index first r a r' index' first', Forall (Forall ok_cell) rows -> rok r ->
  add_rows start crun b_eqb t x y width height index first r rows = Ok (a, r', index', first') -> rok r'.
Proof.
  induction rows as [|row rows IH]; intros index first r a r' index' first' Hrows Hok; cbn [add_rows].
  - intros H. injection H as _ <- _ _. exact Hok.
  - inversion Hrows as [|? ? H1 H2]; subst. destruct (add_row start crun b_eqb t x y width height index first false r (map New row)) as [[a1 r1]|] eqn:Er; [|discriminate]. cbn [bind].
    assert (H3 : rok r1). { refine (add_row_ok _ _ _ _ _ _ _ _ Hok Er). apply Forall_forall. intros el He. apply in_map_iff in He as (c & <- & Hc). exact (proj1 (Forall_forall _ _) H1 c Hc). }
    destruct a1; [|intros H; injection H as _ <- _ _; exact H3|intros H; injection H as _ <- _ _; exact H3]. apply IH; assumption.
Qed.
Theorem table_run_ok s s' o : ok_dcells (t_delayed s) -> run start crun b_eqb t x y width height s = Ok (s', o) ->
  ok_dcells (t_delayed s') /\ Forall (R x y width height) (o_parts o).
Proof.
  intros Hd H. unfold run in H.
  match type of H with bind ?e _ = _ => destruct e as [[[[a r1] index] first]|] eqn:Ea; [|discriminate] end. cbn [bind] in H.
  assert (H0 : rok (empty_run t (t_delayed s))) by (constructor; [exact Hd|constructor|cbn; lra]).
  assert (Hrows : Forall (Forall ok_cell) (skipn (t_index s) (t_rows t))) by (apply Forall_skipn; exact (ot_rows ok)).
  assert (H1 : rok r1).
  { destruct (t_delayed s) as [|kv dl] eqn:Ed; [exact (add_rows_ok _ _ _ _ _ _ _ _ Hrows H0 Ea)|].
    destruct (add_row start crun b_eqb t x y width height (t_index s) (t_first s) true (empty_run t (kv :: dl)) (delayed_row t (kv :: dl))) as [[a1 r2]|] eqn:Er; [|discriminate]. cbn [bind] in Ea.
    assert (H2 : rok r2).
    { refine (add_row_ok _ _ _ _ _ _ _ _ H0 Er). apply Forall_forall. intros el He. unfold delayed_row in He. apply in_map_iff in He as (c & <- & _).
      destruct (nget c (kv :: dl)) as [d|] eqn:Eg; cbn [okin]; [exact (nget_ok _ _ _ Hd Eg)|exact I]. }
    destruct a1; [|injection Ea as _ <- _ _; exact H2|injection Ea as _ <- _ _; exact H2].
    refine (add_rows_ok _ _ _ _ _ _ _ _ _ H2 Ea). destruct (skipn (t_index s) (t_rows t)); [constructor|inversion Hrows; assumption]. }
  destruct (last_borders_fields b_eqb t x y width index r1) as (L1 & _ & _ & L4 & _). destruct H1 as [O1 O2 _].
  destruct a; injection H as <- <-; [| |split; [exact O1|constructor]]; rewrite <- L1 in O2; rewrite <- L4 in O1; (split; [exact O1|exact O2]).
Qed.
End TableRoom.
