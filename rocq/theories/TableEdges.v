(** Which edges of the cells of a table get a line. *)
From Coq Require Import QArith ZArith Lia Lqa.
From Verif Require Import Py Table TableProofs TableGeom TableSpan TableLines.
Open Scope list_scope.
Open Scope nat_scope.

Section Edges.
Context {E W P F B : Type}.
Variable start : E -> res W.
Variable crun : W -> Q -> Q -> Q -> Q -> res (W * Q * bool * list P).
Variable b_eqb : B -> B -> bool.
Variable t : @table E F B.
Notation rstate := (@rstate E W P F B).
Notation incell := (@incell E W F).
Notation rowrec := (@rowrec E W P F).
Notation border := (@border B).
Notation line := (@line B).
Implicit Types (r : rstate) (el : incell).
Variable rows : list (list incell).
Variable base n : nat.
Variable A : nat -> nat -> bool.
Hypothesis HA : tiling t rows base n A.
Hypothesis b_refl : forall b, b_eqb b b = true.
Variable M : Q.
Hypothesis Hbv : forall i c, (0 <= b_width (t_bv t i c) <= M)%Q.
Hypothesis Hbh : forall i c, (0 <= b_width (t_bh t i c) <= M)%Q.
Variable x y width height : Q.
Notation at_pos := (at_pos rows).
Notation covers := (covers t rows base).
Notation span_inv := (span_inv t rows base A).
Notation count_inv := (count_inv t rows base A).
Notation add_cell := (add_cell start crun b_eqb t x width).
Notation add_cells := (add_cells start crun b_eqb t x width).
Notation add_row := (add_row start crun b_eqb t x y width height).

(** The place is covered by a cell of a row above, or of a column before. *)
Definition joined_up (i c : nat) : Prop := exists i0 c0, A i0 c0 = true /\ i0 < i /\ covers i0 c0 i c.
Definition joined_left (i c : nat) : Prop := exists i0 c0, A i0 c0 = true /\ c0 < c /\ covers i0 c0 i c.
Definition vis_top (i c : nat) : Prop := ~ joined_up i c /\ (0 < b_width (t_bh t (base + i) c))%Q.
Definition vis_left (i c : nat) : Prop := ~ joined_left i c /\ (0 < b_width (t_bv t (base + i) c))%Q.
(** A cell of one column that takes three rows or more leaves [is_rowspan] set. *)
Definition no_stale : Prop :=
  (forall i c el, A i c = true -> at_pos i c = Some el -> colspan_of t el = 1 -> (rows_left t (base + i) el <= 1)%Z) \/
  (forall i c el, A i c = true -> at_pos i c = Some el -> colspan_of t el = 1).
Definition isrow_inv (i c : nat) (v : Z) (b : bool) : Prop :=
  ((0 < v)%Z -> joined_up i c -> b = true) /\
  ((forall i c el, A i c = true -> at_pos i c = Some el -> colspan_of t el = 1 -> (rows_left t (base + i) el <= 1)%Z) ->
   ((v <= 0)%Z -> b = false) /\ ((0 < v)%Z -> b = true -> joined_up i c)).

Lemma add_cell_lines index first del ya rm r c el r' : add_cell index first del ya rm r c el = Ok r' ->
  let '(skip, r1, bl, bt) := is_span r c (t_bv t index c) (t_bh t index c) del in
  let '(ve, (top, ti)) := pstep b_eqb (nth_vert c (r_vert r)) (r_top r, r_topint r) (x + sum_widths t 0 c * width)%Q ya
    (x + sum_widths t 0 c * width + col_width t width c)%Q (Some bl) (Some bt) in
  r_vert r' = set_vert c ve (r_vert r) /\ r_top r' = top /\ r_topint r' = ti /\ r_isrow r' = r_isrow r1 /\ r_lines r' = r_lines r.
Proof.
  unfold Table.add_cell. intros H.
  destruct (is_span r c (t_bv t index c) (t_bh t index c) del) as [[[skip r1] bl] bt] eqn:Es.
  assert (Hr1 : r_vert r1 = r_vert r /\ r_top r1 = r_top r /\ r_topint r1 = r_topint r /\ r_lines r1 = r_lines r).
  { unfold is_span in Es. destruct (nget c (r_span r)) as [[rows0 cols0]|].
    - destruct del; [injection Es as <- <- <- <-; auto|]. destruct (rows0 - 1 =? 0)%Z; injection Es as _ <- _ _; auto.
    - destruct (0 <? r_colspan r)%Z; [destruct (r_isrow r)|]; injection Es as _ <- _ _; auto. }
  destruct Hr1 as (V1 & V2 & V3 & V4). rewrite pb_pstep, V1, V2, V3 in H.
  destruct (pstep _ _ _ _ _ _ _) as [ve [top ti]] in H |- *. destruct skip.
  - injection H as <-. cbn. auto.
  - destruct el; cbn [bind] in H.
    + destruct (start _) as [s0|]; [|discriminate]. cbn [bind] in H. destruct (crun _ _ _ _ _) as [[[[s1 h] fin] ps]|]; [|discriminate]. injection H as <-. cbn. auto.
    + destruct (start _) as [s0|]; [|discriminate]. cbn [bind] in H. destruct (crun _ _ _ _ _) as [[[[s1 h] fin] ps]|]; [|discriminate]. injection H as <-. cbn. auto.
    + destruct (crun _ _ _ _ _) as [[[[s1 h] fin] ps]|]; [|discriminate]. injection H as <-. cbn. auto.
Qed.

Record borders_ok (i c : nat) (bl bt : border) : Prop := mkBordersOk {
  bo_left : (0 < b_width bl)%Q -> bl = t_bv t (base + i) c;
  bo_top : (0 < b_width bt)%Q -> bt = t_bh t (base + i) c;
  bo_left_small : (0 <= b_width bl <= M)%Q;
  bo_top_small : (0 <= b_width bt <= M)%Q;
  bo_left_vis : (0 < b_width bl)%Q <-> vis_left i c;
  bo_top_vis : (0 < b_width bt)%Q -> vis_top i c;
  bo_top_all : no_stale -> vis_top i c -> (0 < b_width bt)%Q }.
Lemma M_pos : (0 <= M)%Q.
Proof. specialize (Hbv 0 0). lra. Qed.

Lemma covers_up i0 c0 i c : i < n -> c < t_cols t -> A i0 c0 = true -> covers i0 c0 i c -> (joined_up i c <-> i0 < i) /\ (joined_left i c <-> c0 < c).
Proof.
  intros Hi Hc H1 H2. split; split.
  - intros (i1 & c1 & K1 & K2 & K3). destruct (unique t rows base n A HA i c i0 c0 i1 c1 Hi Hc H1 K1 H2 K3). lia.
  - intros K. exists i0, c0. auto.
  - intros (i1 & c1 & K1 & K2 & K3). destruct (unique t rows base n A HA i c i0 c0 i1 c1 Hi Hc H1 K1 H2 K3). lia.
  - intros K. exists i0, c0. auto.
Qed.

Lemma cell_step i first del ya rm r c el r' : i < n -> (del = true -> i = 0) -> c < t_cols t -> at_pos i c = Some el ->
  span_inv i c r -> count_inv i c (r_colspan r) -> isrow_inv i c (r_colspan r) (r_isrow r) ->
  add_cell (base + i) first del ya rm r c el = Ok r' ->
  span_inv i (S c) r' /\ count_inv i (S c) (r_colspan r') /\ (S c < t_cols t -> isrow_inv i (S c) (r_colspan r') (r_isrow r')) /\ r_lines r' = r_lines r /\
  exists bl bt, borders_ok i c bl bt /\
    let '(ve, (top, ti)) := pstep b_eqb (nth_vert c (r_vert r)) (r_top r, r_topint r) (x + sum_widths t 0 c * width)%Q ya
      (x + sum_widths t 0 c * width + col_width t width c)%Q (Some bl) (Some bt) in
    r_vert r' = set_vert c ve (r_vert r) /\ r_top r' = top /\ r_topint r' = ti.
Proof.
  intros Hi Hdel Hc Hel HS HC HR H. pose proof (add_cell_lines _ _ _ _ _ _ _ _ _ H) as HL. pose proof M_pos as HM.
  destruct HA as [HS0 HT]. destruct (HT i c Hi Hc) as (i0 & c0 & A0 & C0 & _).
  assert (Bleft : forall v, (0 < b_width (zero (t_bv t (base + i) c)))%Q -> v) by (intros v K; cbn in K; lra).
  assert (Btop : forall v, (0 < b_width (zero (t_bh t (base + i) c)))%Q -> v) by (intros v K; cbn in K; lra).
  destruct (add_cell_cases _ _ _ _ _ _ _ _ _ _ _ _ _ _ _ H) as [[H1 H2]|(H1 & e & H2 & H3)].
  - (* covered *)
    assert (Hco : r_colspan r' = colspan_after r c) by (destruct H2; assumption).
    destruct (nget c (r_span r)) as [[k w]|] eqn:En.
    + (* by a cell of a row above, in its first column *)
      assert (Hd : del = false) by (unfold skips in H1; rewrite En in H1; destruct del; [discriminate|reflexivity]). subst del.
      assert (HRm : remembers t rows base A i c k w) by (apply HS in En as [_ En]; rewrite (proj2 (Nat.ltb_ge c c) (le_n c)) in En; exact En).
      destruct (remembers_covers t rows base n A HA _ _ _ _ HRm) as (i1 & el1 & L1 & A1 & C1 & P1 & W1 & K1).
      destruct (covers_up i1 c i c Hi Hc A1 C1) as [Ju Jl].
      assert (Hcn : count_inv i (S c) (r_colspan r')).
      { rewrite Hco. unfold colspan_after. rewrite En. apply (count_next t rows base n A HA i c i1 c el1); try assumption. lia. }
      assert (Hw0 : (0 <= w)%Z).
      { destruct (HS0 i1 c A1) as (el' & Q1 & _ & _ & Q4). assert (el' = el1) by congruence. subst el'. lia. }
      split; [exact (span_skip_row t rows base n A HA _ _ _ _ _ _ Hi Hc HS H2 En)|]. split; [exact Hcn|].
      unfold is_span in HL. rewrite En in HL.
      assert (Hb : borders_ok i c (t_bv t (base + i) c) (zero (t_bh t (base + i) c))).
      { constructor.
        - reflexivity.
        - apply Btop.
        - apply Hbv.
        - cbn; lra.
        - split; [intros K; split; [rewrite Jl; lia|exact K]|intros [_ K]; exact K].
        - apply Btop.
        - intros _ [K _]. exfalso. apply K, Ju. exact L1. }
      assert (Hrow : forall b, r_isrow r' = b -> (S c < t_cols t) -> b = (if (k - 1 =? 0)%Z then negb (w =? 0)%Z else true) -> isrow_inv i (S c) (r_colspan r') (r_isrow r')).
      { intros b Eb HSc Hbb. rewrite Hco, Eb. unfold colspan_after. rewrite En. clear Eb. subst b. split.
        - intros Hw _. destruct (k - 1 =? 0)%Z; [|reflexivity]. destruct (w =? 0)%Z eqn:Ew; [apply Z.eqb_eq in Ew; lia|reflexivity].
        - intros Hns. split.
          + intros Hw. assert (Ew : w = 0%Z) by lia. destruct (k - 1 =? 0)%Z eqn:Ek; [rewrite Ew; reflexivity|].
            exfalso. apply Z.eqb_neq in Ek. specialize (Hns i1 c el1 A1 P1 ltac:(lia)). destruct HRm as (i2 & el2 & L2 & A2 & P2 & R2 & Kp & W2). lia.
          + intros Hw _. assert (Hcov : covers i1 c i (S c)).
            { exists el1. split; [exact P1|]. destruct C1 as (el' & Q1 & Q2 & Q3 & Q4). assert (el' = el1) by congruence. subst el'. split; [lia|]. split; [exact Q3|lia]. }
            exists i1, c. auto. }
      destruct (k - 1 =? 0)%Z eqn:Ek;
      match type of HL with context [pstep ?a1 ?a2 ?a3 ?a4 ?a5 ?a6 ?a7 ?a8] => destruct (pstep a1 a2 a3 a4 a5 a6 a7 a8) as [ve [top ti]] eqn:Ep end;
      destruct HL as (V1 & V2 & V3 & V4 & V5); cbn in V4;
      (split; [intros HSc; apply (Hrow _ V4 HSc); reflexivity|]); (split; [exact V5|]);
      exists (t_bv t (base + i) c), (zero (t_bh t (base + i) c)); (split; [exact Hb|]); rewrite Ep; auto.
    + (* by a cell of a column before *)
      unfold skips in H1. rewrite En in H1. pose proof H1 as Hv. apply Z.ltb_lt in H1. destruct HC as [HC _]. destruct (HC H1) as (i1 & c1 & A1 & L1 & el1 & P1 & Q1 & Q2 & Q3).
      assert (C1 : covers i1 c1 i c) by (exists el1; repeat (split; [assumption|]); lia).
      destruct (covers_up i1 c1 i c Hi Hc A1 C1) as [Ju Jl].
      split; [exact (span_skip_col t rows base n A HA _ _ _ _ _ _ Hi Hc HS H2 En A1 L1 C1)|].
      split; [rewrite Hco; unfold colspan_after; rewrite En; apply (count_next t rows base n A HA i c i1 c1 el1); try assumption; lia|].
      unfold is_span in HL. rewrite En, Hv in HL. destruct HR as [R1 R2]. specialize (R1 H1).
      assert (Hnone : no_stale -> forall i c el, A i c = true -> at_pos i c = Some el -> colspan_of t el = 1 -> (rows_left t (base + i) el <= 1)%Z).
      { intros [K|K]; [exact K|]. exfalso. specialize (K i1 c1 el1 A1 P1). lia. }
      assert (Hrow : forall b, r_isrow r' = b -> S c < t_cols t -> b = (if r_isrow r then negb (r_colspan r - 1 =? 0)%Z else false) -> isrow_inv i (S c) (r_colspan r') (r_isrow r')).
      { intros b Eb HSc Hbb. rewrite Hco, Eb. unfold colspan_after. rewrite En. clear Eb. subst b.
        assert (Hcov : (0 < r_colspan r - 1)%Z -> covers i1 c1 i (S c)) by (intros Hw; exists el1; split; [exact P1|]; split; [exact Q1|]; split; [exact Q2|lia]).
        split.
        - intros Hw Hj. destruct (covers_up i1 c1 i (S c) Hi HSc A1 (Hcov Hw)) as [Ju2 _]. rewrite R1 by (apply Ju, Ju2; exact Hj).
          destruct (r_colspan r - 1 =? 0)%Z eqn:Ez; [apply Z.eqb_eq in Ez; lia|reflexivity].
        - intros Hns. destruct (R2 Hns) as [_ R3]. specialize (R3 H1). split.
          + intros Hw. destruct (r_isrow r); [|reflexivity]. replace (r_colspan r - 1)%Z with 0%Z by lia. reflexivity.
          + intros Hw Hb. destruct (r_isrow r); [|discriminate]. specialize (R3 eq_refl). exists i1, c1. split; [exact A1|]. split; [apply Ju; exact R3|exact (Hcov Hw)]. }
      assert (Hvl : (0 < b_width (zero (t_bv t (base + i) c)))%Q <-> vis_left i c).
      { split; [apply Bleft|]. intros [K _]. exfalso. apply K, Jl. exact L1. }
      destruct (r_isrow r) eqn:Er;
      match type of HL with context [pstep ?a1 ?a2 ?a3 ?a4 ?a5 ?a6 ?a7 ?a8] => destruct (pstep a1 a2 a3 a4 a5 a6 a7 a8) as [ve [top ti]] eqn:Ep end;
      destruct HL as (V1 & V2 & V3 & V4 & V5); cbn in V4;
      (split; [intros HSc; apply (Hrow _ V4 HSc); reflexivity|]); (split; [exact V5|]); eexists _, _; (split; [|rewrite Ep; auto]).
      * constructor; [apply Bleft|apply Btop|cbn; lra|cbn; lra|exact Hvl|apply Btop|].
        intros Hns [K _]. exfalso. apply K. apply (R2 (Hnone Hns)); [exact H1|reflexivity].
      * constructor; [apply Bleft|reflexivity|cbn; lra|apply Hbh|exact Hvl| |intros _ [_ K]; exact K].
        intros K. split; [|exact K]. intros Hj. specialize (R1 Hj). discriminate.
  - (* a cell that is processed *)
    assert (En : nget c (r_span r) = None).
    { destruct (nget c (r_span r)) as [[k w]|] eqn:En; [|reflexivity]. exfalso. unfold skips in H1. rewrite En in H1. destruct del; [|discriminate].
      apply HS in En as [_ En]. rewrite (proj2 (Nat.ltb_ge c c) (le_n c)), (Hdel eq_refl) in En. destruct En as (i1 & ? & ? & _). lia. }
    unfold skips in H1. rewrite En in H1. pose proof H1 as Hv. apply Z.ltb_ge in H1. destruct HC as [_ HC].
    assert (HAt : A i c = true).
    { assert (Hc0 : c0 = c).
      { destruct (Nat.eq_dec c0 c) as [K|K]; [exact K|]. exfalso. assert (L : c0 < c) by (destruct C0 as (? & _ & _ & _ & ?); lia).
        exact (HC H1 i0 c0 A0 L C0). }
      subst c0. destruct (Nat.eq_dec i0 i) as [->|K]; [exact A0|]. exfalso.
      assert (L : i0 < i) by (destruct C0 as (? & _ & ? & _); lia).
      destruct (covers_remembers t rows base A i i0 c L A0 C0) as (k & w & HRm).
      assert (K2 : nget c (r_span r) = Some (k, w)) by (apply HS; rewrite (proj2 (Nat.ltb_ge c c) (le_n c)); auto). congruence. }
    destruct (covers_up i c i c Hi Hc HAt (HS0 i c HAt)) as [Ju Jl].
    split; [exact (span_proc t rows base n A HA x width _ _ _ _ _ _ _ Hi Hc HS H3 En HAt Hel)|].
    assert (Hco : r_colspan r' = (Z.of_nat (colspan_of t el) - 1)%Z) by (destruct H3; assumption).
    split; [rewrite Hco; apply (count_next t rows base n A HA i c i c el); try assumption; [apply HS0; exact HAt|lia]|].
    unfold is_span in HL. rewrite En, Hv in HL. destruct HR as [_ R2].
    match type of HL with context [pstep ?a1 ?a2 ?a3 ?a4 ?a5 ?a6 ?a7 ?a8] => destruct (pstep a1 a2 a3 a4 a5 a6 a7 a8) as [ve [top ti]] eqn:Ep end.
    destruct HL as (V1 & V2 & V3 & V4 & V5). split.
    { rewrite V4, Hco. clear H H2 H3 Ep V1 V2 V3 V4 V5 Hco. intros HSc. split.
      - intros Hw (i1 & c1 & K1 & K2 & K3). exfalso.
        assert (Hcov : covers i c i (S c)).
        { exists el. split; [exact Hel|]. destruct (HS0 i c HAt) as (el' & Q1 & Q2 & Q3 & Q4). assert (el' = el) by congruence. subst el'. split; [lia|]. split; [exact Q3|lia]. }
        destruct (unique t rows base n A HA i (S c) i c i1 c1 Hi HSc HAt K1 Hcov K3). lia.
      - intros Hns. destruct (R2 Hns) as [R3 _]. rewrite (R3 H1). split; [reflexivity|discriminate]. }
    split; [exact V5|]. eexists _, _; (split; [|rewrite Ep; auto]).
    constructor; [reflexivity|reflexivity|apply Hbv|apply Hbh| | |intros _ [_ K]; exact K].
    + clear H H2 H3 Ep V1 V2 V3 V4 V5 Hco. split; [intros K; split; [rewrite Jl; lia|exact K]|intros [_ K]; exact K].
    + clear H H2 H3 Ep V1 V2 V3 V4 V5 Hco. intros K. split; [rewrite Ju; lia|exact K].
Qed.

(** ** Steps *)
Hypothesis Hws : List.length (t_widths t) = t_cols t.
Hypothesis Hsum : (qsum (t_widths t) == 1)%Q.
Definition X (c : nat) : Q := (x + sum_widths t 0 c * width)%Q.
Lemma X_S c : (X c + col_width t width c == X (S c))%Q.
Proof.
  unfold X, col_width, sum_widths. rewrite !Nat.sub_0_r, skipn_O.
  assert (K : (qsum (firstn (S c) (t_widths t)) == qsum (firstn c (t_widths t)) + nth c (t_widths t) 0)%Q).
  { generalize (t_widths t) as l. induction c as [|c IH]; intros [|a l]; cbn [firstn qsum nth]; try lra. specialize (IH l). cbn [firstn] in IH. destruct l; cbn [qsum] in *; lra. }
  rewrite K. ring.
Qed.
Lemma X_end : (X (t_cols t) == x + width)%Q.
Proof. unfold X, sum_widths. rewrite Nat.sub_0_r, skipn_O, <- Hws, firstn_all, Hsum. ring. Qed.
Variable Y : nat -> Q.
(** The number of rows that are added. *)
Variable m : nat.
Definition edl (c k : nat) : option border := Some (t_bv t (base + k) c).
Definition edt (k c : nat) : option border := Some (t_bh t (base + k) c).
(** The edge at the left of the place; the last ones are those at the right of the table. *)
Definition vis_v (k c : nat) : Prop := (c < t_cols t -> ~ joined_left k c) /\ (0 < b_width (t_bv t (base + k) c))%Q.
Definition vert_inv (c j : nat) (ve : list line * bool) : Prop :=
  exists pv, line_inv (vseg b_eqb M (edl c) Y (X c)) pv j (fst ve) (snd ve) /\ forall k, k < j -> (pv k = true <-> k < m /\ vis_v k c).
Definition verts_inv (i c : nat) (v : list (list line * bool)) : Prop :=
  List.length v = S (t_cols t) /\ forall c', c' <= t_cols t -> vert_inv c' (if c' <? c then S i else i) (nth_vert c' v).
Lemma edl_small c k : small M (edl c k).
Proof. apply Hbv. Qed.
Lemma step_all i c ed yk top ti v p bl bt xa ya x2 : c <= t_cols t -> verts_inv i c v -> line_inv (hseg b_eqb M ed X yk) p c top ti ->
  (xa == X c)%Q -> (ya == Y i)%Q -> (ya == yk)%Q -> (shown bt = true -> x2 == X (S c))%Q -> small M bl -> small M bt -> (forall c, small M (ed c)) ->
  (shown bt = true -> ed c = bt) -> (shown bl = true -> edl c i = bl) -> (shown bl = true <-> i < m /\ vis_v i c) ->
  let '(ve, te) := pstep b_eqb (nth_vert c v) (top, ti) xa ya x2 bl bt in
  verts_inv i (S c) (set_vert c ve v) /\ line_inv (hseg b_eqb M ed X yk) (fun c' => if c' =? c then shown bt else p c') (S c) (fst te) (snd te).
Proof.
  intros Hc [Hlen Hv] Ht Hxa Hya Hyk Hx2 Sl St Se Et El Vl.
  destruct (Hv c Hc) as (pv & Hpv & Hvis). rewrite (proj2 (Nat.ltb_ge c c) (le_n c)) in Hpv, Hvis.
  destruct (nth_vert c v) as [vl vint] eqn:En. cbn [fst snd] in Hpv.
  set (p' := fun c' => if c' =? c then shown bt else p c').
  set (pv' := fun k => if k =? i then shown bl else pv k).
  assert (Ht' : line_inv (hseg b_eqb M ed X yk) p' c top ti).
  { apply (line_inv_ext _ p); [|exact Ht]. intros k Hk. unfold p'. destruct (k =? c) eqn:Ek; [apply Nat.eqb_eq in Ek; lia|reflexivity]. }
  assert (Hpv' : line_inv (vseg b_eqb M (edl c) Y (X c)) pv' i vl vint).
  { apply (line_inv_ext _ pv); [|exact Hpv]. intros k Hk. unfold pv'. destruct (k =? i) eqn:Ek; [apply Nat.eqb_eq in Ek; lia|reflexivity]. }
  assert (P1 : p' c = shown bt) by (unfold p'; now rewrite Nat.eqb_refl).
  assert (P2 : pv' i = shown bl) by (unfold pv'; now rewrite Nat.eqb_refl).
  pose proof (top_step b_eqb b_refl M ed (edl c) X Y yk (X c) c i p' pv' vl vint top ti xa ya x2 bl bt Hxa Hyk Hx2 Sl St (edl_small c) Et El P1 P2 Ht' Hpv') as K1.
  pose proof (vert_step b_eqb b_refl M ed (edl c) X Y yk (X c) c i p' pv' vl vint top ti xa ya x2 bl bt Hxa Hya Hx2 Sl St Se Et El P1 P2 Ht' Hpv') as K2.
  cbv zeta in K1, K2. destruct (pstep b_eqb (vl, vint) (top, ti) xa ya x2 bl bt) as [ve te]. cbn [fst snd] in K1, K2. split; [|exact K1].
  split; [rewrite length_set_vert; exact Hlen|]. intros c' Hc'. rewrite nth_set_vert by lia. destruct (Nat.eq_dec c' c) as [->|Hne].
  - rewrite Nat.eqb_refl. replace (c <? S c) with true by (symmetry; apply Nat.ltb_lt; lia). exists pv'. split; [exact K2|].
    intros k Hk. unfold pv'. destruct (k =? i) eqn:Ek; [apply Nat.eqb_eq in Ek; subst k; exact Vl|]. apply Nat.eqb_neq in Ek. apply Hvis. lia.
  - replace (c' =? c) with false by (symmetry; apply Nat.eqb_neq; exact Hne).
    replace (c' <? S c) with (c' <? c); [exact (Hv c' Hc')|]. destruct (c' <? c) eqn:E1, (c' <? S c) eqn:E2; try reflexivity.
    + apply Nat.ltb_lt in E1. apply Nat.ltb_ge in E2. lia.
    + apply Nat.ltb_ge in E1. apply Nat.ltb_lt in E2. lia.
Qed.

(** ** A row *)
Definition top_inv (i c : nat) (top : list line) (ti : bool) : Prop :=
  exists p, line_inv (hseg b_eqb M (edt i) X (Y i)) p c top ti /\ forall c', c' < c -> (p c' = true -> vis_top i c') /\ (no_stale -> vis_top i c' -> p c' = true).
Lemma cells_step i first del ya rm : i < n -> i < m -> (del = true -> i = 0) -> (ya == Y i)%Q -> forall row r c r', c + List.length row = t_cols t ->
  (forall j, nth_error row j = at_pos i (c + j)) -> span_inv i c r -> count_inv i c (r_colspan r) -> (c < t_cols t -> isrow_inv i c (r_colspan r) (r_isrow r)) ->
  verts_inv i c (r_vert r) -> top_inv i c (r_top r) (r_topint r) -> add_cells (base + i) first del ya rm r c row = Ok r' ->
  span_inv i (t_cols t) r' /\ verts_inv i (t_cols t) (r_vert r') /\ top_inv i (t_cols t) (r_top r') (r_topint r') /\ r_lines r' = r_lines r.
Proof.
  intros Hi Him Hdel Hya. induction row as [|el row IH]; intros r c r' Hlen Hrow HS HC HR HV HT H; cbn [Table.add_cells] in H.
  - injection H as <-. cbn in Hlen. replace (t_cols t) with c by lia. auto.
  - cbn [List.length] in Hlen. assert (Hc : c < t_cols t) by lia.
    destruct (add_cell (base + i) first del ya rm r c el) as [r1|] eqn:E1; [|discriminate]. cbn [bind] in H.
    assert (Hel : at_pos i c = Some el) by (specialize (Hrow 0); cbn in Hrow; rewrite Nat.add_0_r in Hrow; congruence).
    destruct (cell_step i first del ya rm r c el r1 Hi Hdel Hc Hel HS HC (HR Hc) E1) as (S1 & S2 & S3 & S4 & bl & bt & Hb & S5).
    destruct HT as (p & Hp & Hvis). destruct Hb as [B1 B2 B3 B4 B5 B6 B7].
    assert (Q : forall b : border, shown (Some b) = true <-> (0 < b_width b)%Q) by (intros b; cbn; apply qlt_true).
    assert (Hst := step_all i c (edt i) (Y i) (r_top r) (r_topint r) (r_vert r) p (Some bl) (Some bt) (X c) ya (X c + col_width t width c)%Q
      ltac:(lia) HV Hp ltac:(reflexivity) Hya Hya (fun _ => X_S c) B3 B4 (fun c => Hbh (base + i) c)
      (fun K => eq_sym (f_equal Some (B2 (proj1 (Q _) K)))) (fun K => eq_sym (f_equal Some (B1 (proj1 (Q _) K))))).
    match type of Hst with ?P -> _ => assert (HP : P) end.
    { rewrite Q, B5. unfold vis_left, vis_v. split; [intros [K1 K2]; auto|intros (_ & K1 & K2); split; [exact (K1 Hc)|exact K2]]. }
    specialize (Hst HP). change (x + sum_widths t 0 c * width)%Q with (X c) in S5. destruct (pstep _ _ _ _ _ _ _ _) as [ve [top ti]] in S5, Hst.
    destruct S5 as (V1 & V2 & V3). destruct Hst as [T1 T2]. cbn [fst snd] in T2.
    destruct (IH r1 (S c) r') as (R1 & R2 & R3 & R4); [lia| |exact S1|exact S2|exact S3| | |exact H|].
    + intros j. specialize (Hrow (S j)). cbn in Hrow. rewrite Hrow. f_equal. lia.
    + rewrite V1. exact T1.
    + rewrite V2, V3. eexists. split; [exact T2|]. intros c' Hc'. cbn beta. destruct (c' =? c) eqn:Ec.
      * apply Nat.eqb_eq in Ec. subst c'. rewrite Q. auto.
      * apply Nat.eqb_neq in Ec. apply Hvis. lia.
    + rewrite R4, S4. auto.
Qed.
Definition level_ok (k : nat) (ls : list line) : Prop := top_inv k (t_cols t) ls true.
Definition lines_inv (i : nat) (ls : list line) : Prop := exists lss, ls = List.concat lss /\ Forall2 level_ok (seq 0 i) lss.
Lemma line_inv_back {L} (seg : bool -> nat * nat -> L -> Prop) p c ls : line_inv seg p (S c) ls true -> p c = false -> line_inv seg p c ls true.
Proof. intros (segs & H1 & H2) Hp. exists segs. split; [|exact H2]. rewrite filter_S, Hp, app_nil_r in H1. exact H1. Qed.
Lemma verts_next i v : verts_inv i (S (t_cols t)) v <-> verts_inv (S i) 0 v.
Proof.
  unfold verts_inv. split; intros [H1 H2]; (split; [exact H1|]); intros c' Hc'; specialize (H2 c' Hc'); change (c' <? 0) with false in *;
    assert (K : (c' <? S (t_cols t)) = true) by (apply Nat.ltb_lt; lia); rewrite K in *; exact H2.
Qed.
Lemma row_step i first del r row a r' : i < n -> i < m -> (del = true -> i = 0) -> nth_error rows i = Some row -> (y - r_height r == Y i)%Q ->
  span_inv i 0 r -> verts_inv i 0 (r_vert r) -> lines_inv i (r_lines r) -> add_row (base + i) first del r row = Ok (a, r') -> a <> Cancel ->
  span_inv (S i) 0 r' /\ verts_inv (S i) 0 (r_vert r') /\ lines_inv (S i) (r_lines r').
Proof.
  intros Hi Him Hdel Hrow Hy HS HV HL H Ha. unfold Table.add_row in H. destruct (List.length row =? t_cols t) eqn:El; [|discriminate]. apply Nat.eqb_eq in El. cbn [negb] in H.
  destruct (add_cells _ _ _ _ _ _ _ _) as [r1|] eqn:E1 in H; [|discriminate]. cbn [bind] in H.
  destruct (first && Qeq_bool (r_max r1) 0); [congruence|].
  destruct (fun h1 h2 h3 h4 h5 h6 h7 => cells_step i first del _ _ Hi Him Hdel Hy row _ 0 r1 h1 h2 h3 h4 h5 h6 h7 E1) as (R1 & R2 & R3 & R4).
  - exact El.
  - intros j. unfold TableSpan.at_pos. rewrite Hrow. reflexivity.
  - exact HS.
  - split; [cbn; lia|]. intros _ i0 c0 _ L. lia.
  - intros _. split; [cbn; lia|]. intros _. cbn. split; [reflexivity|lia].
  - exact HV.
  - exists (fun _ => false). split; [apply line_inv_nil|intros c' Hc'; lia].
  - cbn [r_lines] in R4. rewrite El in H.
    destruct R3 as (p & Hp & Hvis).
    assert (Hsh : shown (Some (t_bv t (base + i) (t_cols t))) = true <-> i < m /\ vis_v i (t_cols t)).
    { cbn. rewrite qlt_true. unfold vis_v. split; [intros K; split; [exact Him|]; split; [lia|exact K]|intros (_ & _ & K); exact K]. }
    pose proof (step_all i (t_cols t) (edt i) (Y i) (r_top r1) (r_topint r1) (r_vert r1) p (Some (t_bv t (base + i) (t_cols t))) None (x + width)%Q (y - r_height r)%Q
      (x + width + col_width t width (t_cols t))%Q (le_n _) R2 Hp ltac:(symmetry; exact X_end) Hy Hy ltac:(discriminate) (Hbv _ _) ltac:(split; cbn; pose proof M_pos; lra) (fun c => Hbh (base + i) c)
      ltac:(discriminate) ltac:(reflexivity) Hsh) as Hst.
    rewrite pb_pstep in H. destruct (pstep _ _ _ _ _ _ _ _) as [ve [top ti]] eqn:Ep in H. rewrite Ep in Hst. destruct Hst as [T1 T2]. cbn [fst snd] in T2.
    assert (Hti : ti = true).
    { destruct (nth_vert (t_cols t) (r_vert r1)) as [vl vint]. cbn [pstep] in Ep. injection Ep as _ _ E3. exact (eq_sym E3). }
    subst ti. cbn [with_borders r_max r_fmem r_parts r_lines r_fills r_hmem r_span r_vert r_height r_colspan r_top r_topint r_isrow r_delayed r_events] in H.
    destruct (flush_fills _ _ _) as [fm fs] in H. injection H as _ <-. cbn [r_span r_vert r_lines]. split; [|split].
    + intros c k w. rewrite (R1 c k w). change (c <? 0) with false. destruct (c <? t_cols t) eqn:Ec; [reflexivity|]. apply Nat.ltb_ge in Ec. split; intros [? _]; lia.
    + apply verts_next. exact T1.
    + destruct HL as (lss & HL1 & HL2). exists (lss ++ [top]). split; [rewrite concat_app; cbn [List.concat]; rewrite app_nil_r, R4, HL1; reflexivity|].
      rewrite seq_S. apply Forall2_app; [exact HL2|]. constructor; [|constructor]. cbn [Nat.add].
      eexists. split; [apply line_inv_back; [exact T2|cbn beta; rewrite Nat.eqb_refl; reflexivity]|].
      intros c' Hc'. cbn beta. replace (c' =? t_cols t) with false by (symmetry; apply Nat.eqb_neq; lia). apply Hvis. exact Hc'.
Qed.
Lemma added_step : forall recs r r', added start crun b_eqb t x y width height r recs r' -> forall i, i + List.length recs <= n -> i + List.length recs <= m ->
  map (@rr_index E W P F) recs = seq (base + i) (List.length recs) ->
  (forall j rr, nth_error recs j = Some rr -> rr_del rr = true -> i + j = 0) ->
  (forall j rr, nth_error recs j = Some rr -> nth_error rows (i + j) = Some (rr_row rr)) ->
  (forall j, j <= List.length recs -> (y - r_height r - qsum (firstn j (map (@rr_height E W P F) recs)) == Y (i + j)%nat)%Q) ->
  span_inv i 0 r -> verts_inv i 0 (r_vert r) -> lines_inv i (r_lines r) ->
  let k := i + List.length recs in verts_inv k 0 (r_vert r') /\ lines_inv k (r_lines r') /\ (y - r_height r' == Y k)%Q.
Proof.
  induction 1 as [r|r rr a r1 recs r2 H1 Ha Hh H2 IH]; intros i Hn Hm Hidx Hdel Hrow HY HS HV HL; cbn [List.length] in *; cbv zeta.
  - rewrite Nat.add_0_r. specialize (HY 0 (le_n 0)). cbn in HY. rewrite Nat.add_0_r in HY. split; [exact HV|]. split; [exact HL|]. lra.
  - cbn [map seq] in Hidx. injection Hidx as Hidx Hidx2. rewrite Hidx in H1.
    destruct (row_step i (rr_first rr) (rr_del rr) r (rr_row rr) a r1) as (K1 & K2 & K3); try assumption; [lia|lia| | | |].
    + intros K. specialize (Hdel 0 rr eq_refl K). lia.
    + specialize (Hrow 0 rr eq_refl). rewrite Nat.add_0_r in Hrow. exact Hrow.
    + specialize (HY 0 ltac:(lia)). cbn in HY. rewrite Nat.add_0_r in HY. lra.
    + replace (i + S (List.length recs)) with (S i + List.length recs) by lia. apply IH; try assumption; try lia.
      * rewrite Hidx2. f_equal. lia.
      * intros j rr0 Hj K. specialize (Hdel (S j) rr0 Hj K). lia.
      * intros j rr0 Hj. specialize (Hrow (S j) rr0 Hj). rewrite <- Hrow. f_equal. lia.
      * intros j Hj. specialize (HY (S j) ltac:(lia)). cbn [map firstn qsum] in HY. rewrite Hh. replace (S i + j) with (i + S j) by lia. rewrite <- HY. lra.
Qed.

(** ** The end of a run *)
Definition bottom_ok (index : nat) (ls : list line) : Prop :=
  exists p, line_inv (hseg b_eqb M (fun c => Some (t_bh t index c)) X (Y m)) p (t_cols t) ls true /\
    forall c, c < t_cols t -> (p c = true <-> 0 < b_width (t_bh t index c))%Q.
Lemma last_step index r : verts_inv m 0 (r_vert r) -> lines_inv m (r_lines r) -> (y - r_height r == Y m)%Q ->
  exists lss bot vss, r_lines (last_borders b_eqb t x y width index r) = List.concat lss ++ bot ++ List.concat vss /\
    Forall2 level_ok (seq 0 m) lss /\ bottom_ok index bot /\
    Forall2 (fun c ls => exists p, line_inv (vseg b_eqb M (edl c) Y (X c)) p m ls true /\ forall k, k < m -> (p k = true <-> vis_v k c)) (seq 0 (S (t_cols t))) vss.
Proof.
  intros HV (lss & HL1 & HL2) Hy. unfold last_borders.
  set (ya := (y - r_height r)%Q) in *. set (r0 := with_borders r (r_vert r) [] true).
  set (f := fun (r : rstate) (col : nat) => process_borders b_eqb t width r col (x + sum_widths t 0 col * width)%Q ya None (Some (t_bh t index col))).
  pose proof M_pos as HM.
  assert (G : forall k c r, c + k = t_cols t -> verts_inv m c (r_vert r) ->
    (exists p, line_inv (hseg b_eqb M (fun c => Some (t_bh t index c)) X (Y m)) p c (r_top r) (r_topint r) /\ forall c', c' < c -> (p c' = true <-> 0 < b_width (t_bh t index c'))%Q) ->
    let r1 := fold_left f (seq c k) r in r_lines r1 = r_lines r /\ verts_inv m (t_cols t) (r_vert r1) /\
    exists p, line_inv (hseg b_eqb M (fun c => Some (t_bh t index c)) X (Y m)) p (t_cols t) (r_top r1) (r_topint r1) /\ forall c', c' < t_cols t -> (p c' = true <-> 0 < b_width (t_bh t index c'))%Q).
  { induction k as [|k IH]; intros c r1 Hck HV1 HT1; cbn [seq fold_left]; cbv zeta.
    - replace c with (t_cols t) in * by lia. auto.
    - destruct HT1 as (p & Hp & Hvis).
      assert (Hst := step_all m c (fun c => Some (t_bh t index c)) (Y m) (r_top r1) (r_topint r1) (r_vert r1) p None (Some (t_bh t index c)) (X c) ya (X c + col_width t width c)%Q
        ltac:(lia) HV1 Hp ltac:(reflexivity) Hy Hy (fun _ => X_S c) ltac:(split; cbn; lra) (Hbh _ _) (fun c => Hbh index c) ltac:(reflexivity) ltac:(discriminate)).
      match type of Hst with ?P -> _ => assert (HP : P) by (split; [discriminate|lia]) end. specialize (Hst HP).
      destruct (IH (S c) (f r1 c)) as (I1 & I2 & I3); [lia| | |].
      + unfold f. rewrite pb_pstep. change (x + sum_widths t 0 c * width)%Q with (X c). destruct (pstep _ _ _ _ _ _ _ _) as [ve [top ti]]. cbn [with_borders r_vert]. apply Hst.
      + unfold f. rewrite pb_pstep. change (x + sum_widths t 0 c * width)%Q with (X c). destruct (pstep _ _ _ _ _ _ _ _) as [ve [top ti]]. cbn [with_borders r_top r_topint]. destruct Hst as [_ Hst]. cbn [fst snd] in Hst.
        eexists. split; [exact Hst|]. intros c' Hc'. cbn beta. destruct (c' =? c) eqn:Ec.
        * apply Nat.eqb_eq in Ec. subst c'. cbn. apply qlt_true.
        * apply Nat.eqb_neq in Ec. apply Hvis. lia.
      + cbv zeta in I1, I2, I3. rewrite I1. split; [|auto]. unfold f. rewrite pb_pstep. destruct (pstep _ _ _ _ _ _ _ _) as [ve [top ti]]. reflexivity. }
  destruct (G (t_cols t) 0 r0) as (I1 & I2 & p & Hp & Hvis); [lia|exact HV|exists (fun _ => false); split; [apply line_inv_nil|intros; lia]|].
  set (r1 := fold_left f (seq 0 (t_cols t)) r0) in *. cbn [r_lines].
  assert (Hst := step_all m (t_cols t) (fun c => Some (t_bh t index c)) (Y m) (r_top r1) (r_topint r1) (r_vert r1) p None None (x + width)%Q ya (x + width + col_width t width (t_cols t))%Q
        ltac:(lia) I2 Hp ltac:(symmetry; exact X_end) Hy Hy ltac:(discriminate) ltac:(split; cbn; lra) ltac:(split; cbn; lra) (fun c => Hbh index c) ltac:(discriminate) ltac:(discriminate)).
  match type of Hst with ?P -> _ => assert (HP : P) by (split; [discriminate|lia]) end. specialize (Hst HP).
  rewrite pb_pstep. destruct (pstep _ _ _ _ _ _ _ _) as [ve [top ti]] eqn:Ep. destruct Hst as [T1 T2]. cbn [fst snd] in T2.
  assert (Hti : ti = true). { destruct (nth_vert (t_cols t) (r_vert r1)) as [vl vint]. cbn [pstep] in Ep. injection Ep as _ _ E3. exact (eq_sym E3). }
  subst ti. cbn [with_borders r_lines r_top r_vert]. exists lss, top, (map fst (set_vert (t_cols t) ve (r_vert r1))).
  split; [rewrite I1; cbn [r0 with_borders r_lines]; rewrite HL1; reflexivity|]. split; [exact HL2|]. split.
  - eexists. split; [apply line_inv_back; [exact T2|cbn beta; rewrite Nat.eqb_refl; reflexivity]|].
    intros c' Hc'. cbn beta. replace (c' =? t_cols t) with false by (symmetry; apply Nat.eqb_neq; lia). apply Hvis. exact Hc'.
  - destruct T1 as [Hlen HV1]. set (v := set_vert (t_cols t) ve (r_vert r1)) in *.
    assert (Hstop : forall c, c <= t_cols t -> snd (nth_vert c v) = true /\ exists p, line_inv (vseg b_eqb M (edl c) Y (X c)) p m (fst (nth_vert c v)) true /\ forall k, k < m -> (p k = true <-> vis_v k c)).
    { intros c Hc. destruct (HV1 c Hc) as (pv & Hpv & Hpv2). replace (c <? S (t_cols t)) with true in * by (symmetry; apply Nat.ltb_lt; lia).
      assert (Hm0 : pv m = false). { destruct (pv m) eqn:Em; [|reflexivity]. apply Hpv2 in Em; [lia|lia]. }
      assert (Hs : snd (nth_vert c v) = true).
      { destruct (snd (nth_vert c v)) eqn:Es; [reflexivity|]. exfalso. destruct Hpv as (segs & Q1 & segs0 & a & ls0 & l & Q2 & Q3 & Q4 & _).
        assert (Hin : In m (flat_map edges_of segs)).
        { rewrite Q2, flat_map_app. apply in_or_app. right. cbn [flat_map]. rewrite app_nil_r. unfold edges_of. cbn [fst snd]. apply in_seq. lia. }
        rewrite Q1 in Hin. apply filter_In in Hin as [_ Hin]. congruence. }
      split; [exact Hs|]. rewrite Hs in Hpv. exists pv. split; [exact (line_inv_back _ _ _ _ Hpv Hm0)|]. intros k Hk. rewrite Hpv2 by lia. intuition. }
    clear - Hlen Hstop. revert Hlen Hstop. generalize (t_cols t) as q. intros q Hlen Hstop.
    assert (G2 : forall k (v' : list (list line * bool)), List.length v' = k -> forall c, (forall j, j < k -> exists p, line_inv (vseg b_eqb M (edl (c + j)) Y (X (c + j))) p m (fst (nth_vert j v')) true /\ forall k, k < m -> (p k = true <-> vis_v k (c + j))) ->
      Forall2 (fun c ls => exists p, line_inv (vseg b_eqb M (edl c) Y (X c)) p m ls true /\ forall k, k < m -> (p k = true <-> vis_v k c)) (seq c k) (map fst v')).
    { induction k as [|k IH]; intros [|e v'] Hl c Hj; try discriminate; cbn [seq map]; constructor.
      - specialize (Hj 0 ltac:(lia)). rewrite Nat.add_0_r in Hj. exact Hj.
      - apply IH; [injection Hl; auto|]. intros j Hjk. specialize (Hj (S j) ltac:(lia)). replace (S c + j) with (c + S j) by lia. exact Hj. }
    apply G2; [exact Hlen|]. intros j Hj. apply Hstop. lia.
Qed.
End Edges.
