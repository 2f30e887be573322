(** Invariants: a table whose cells fit in the height of a rectangle comes
    nearer to its end with every such rectangle, and no run of it fails, when no
    cell covers more than one row. *)
From Coq Require Import QArith ZArith Lia Lqa List Bool.
From Verif Require Import Py Table TableProofs TableChain TableTokens.
Import ListNotations.
Open Scope list_scope.
Open Scope nat_scope.

Section Ends.
Context {E W P F B : Type}.
Variable start : E -> res W.
Variable crun : W -> Q -> Q -> Q -> Q -> res (W * Q * bool * list P).
Variable b_eqb : B -> B -> bool.
(** How much an element, and its object, still have to do, when the rectangles
    for it are at least [Hc] high and at most [W0] wide. *)
Variable els : E -> Prop.
Variable inv : W -> Prop.
Variable size : E -> nat.
Variable m : W -> nat.
Variable Hc W0 pm bw : Q.
Hypothesis start_ok : forall e, els e -> exists w, start e = Ok w /\ inv w /\ m w <= size e.
Hypothesis crun_ok : forall o x y w h, inv o -> exists o' ht fin ps, crun o x y w h = Ok (o', ht, fin, ps) /\
  (fin = false -> inv o' /\ m o' <= m o /\ ((Hc <= h)%Q -> (w <= W0)%Q -> m o' < m o)).
Hypothesis W0_pos : (0 <= W0)%Q.
Variable t : @table E F B.
Notation rstate := (@rstate E W P F B).
Notation incell := (@incell E W F).
Notation event := (@event E W P F).
Notation dcell := (@dcell W F).
Notation tstate := (@tstate W F).
Notation rowrec := (@rowrec E W P F).
Notation visible := (@visible E W F B t).
Notation cell_at := (@cell_at E W F).
Notation clear := (@clear E W F B t).
Notation rest_of := (@rest_of E W P F B t).

Definition style_ok (s : @cstyle F) : Prop := (0 <= m_left s /\ 0 <= m_right s /\ m_top s + m_bottom s <= pm)%Q.
Definition cell_ok (c : @cell E F) : Prop := c_rowspan c <= 1 /\ style_ok (c_style c) /\ els (c_elem c).
Record table_ok : Prop := mkTableOk {
  te_cols : 0 < t_cols t;
  te_rows : forall row, In row (t_rows t) -> length row = t_cols t;
  te_cells : forall row c, In row (t_rows t) -> In c row -> cell_ok c;
  te_blank : cell_ok (t_blank t) /\ c_colspan (t_blank t) = 1 /\ size (c_elem (t_blank t)) = 0;
  te_bh : forall i c, (b_width (t_bh t i c) <= bw)%Q;
  te_bv : forall i c, (0 <= b_width (t_bv t i c))%Q;
  te_widths : Forall (fun q => 0 <= q)%Q (t_widths t);
  te_total : (qsum (t_widths t) <= 1)%Q }.
Hypothesis ok : table_ok.

Definition m_in (el : incell) : nat :=
  match el with New c => size (c_elem c) | Blank => 0 | Cont d => m (d_state d) end.
Definition dcell_ok (i : nat) (d : dcell) : Prop := d_rowspan d <= 1 /\ d_row d <= i /\ style_ok (d_style d) /\ inv (d_state d).
Definition el_ok (i : nat) (el : incell) : Prop := match el with New c => cell_ok c | Blank => True | Cont d => dcell_ok i d end.
Definition wait (dl : ndict dcell) (c : nat) : nat := match nget c dl with Some d => m (d_state d) | None => 0 end.
Definition sum {A} (f : A -> nat) (l : list A) : nat := list_sum (map f l).
Lemma sum_cons {A} (f : A -> nat) a l : sum f (a :: l) = f a + sum f l.
Proof. reflexivity. Qed.
Definition row_size (row : list (@cell E F)) : nat := sum (fun c => size (c_elem c)) (seen 0 row).

Lemma clear_0 dl : forall n col k, clear k (map (cell_at dl) (seq col n)) col dl -> clear 0 (map (cell_at dl) (seq col n)) col dl.
Proof.
  induction n as [|n IH]; intros col k H; cbn [seq map TableTokens.clear] in *; [exact I|]. destruct k as [|k]; [exact H|].
  destruct H as [H1 H2]. unfold TableTokens.cell_at at 1. rewrite H1. cbn [colspan_of]. destruct (te_blank ok) as (_ & -> & _). exact (IH _ _ H2).
Qed.
Lemma cells_sum dl : forall n k col, clear k (map (cell_at dl) (seq col n)) col dl ->
  sum m_in (visible k (map (cell_at dl) (seq col n))) = sum (wait dl) (seq col n).
Proof.
  induction n as [|n IH]; intros k col H; cbn [seq map TableTokens.visible] in *; [destruct k; reflexivity|]. rewrite sum_cons. destruct k as [|k]; cbn [TableTokens.clear] in H; cbn [TableTokens.visible].
  - rewrite sum_cons, IH by exact H. f_equal. unfold TableTokens.cell_at, wait. destruct (nget col dl); reflexivity.
  - destruct H as [H1 H2]. unfold wait at 1. rewrite H1. rewrite IH by exact H2. reflexivity.
Qed.
Lemma visible_new : forall row k, sum m_in (visible k (map New row)) = sum (fun c => size (c_elem c)) (seen k row).
Proof. induction row as [|c row IH]; intros [|k]; cbn [map TableTokens.visible seen]; auto. rewrite !sum_cons. f_equal. apply IH. Qed.
Lemma nget_nil {V} (dl : ndict V) : (forall c, nget c dl = None) -> dl = [].
Proof. destruct dl as [|[k v] dl]; [reflexivity|]. intros H. specialize (H k). cbn [nget] in H. rewrite Nat.eqb_refl in H. discriminate. Qed.
Lemma wait_none dl l : (forall c, In c l -> nget c dl = None) -> sum (wait dl) l = 0.
Proof.
  induction l as [|c l IH]; intros H; [reflexivity|]. rewrite sum_cons. unfold wait at 1. rewrite (H c) by now left. apply IH. intros c' Hc'. apply H. now right.
Qed.

Lemma qsum_part : forall l, Forall (fun q => 0 <= q)%Q l -> forall a n, (0 <= qsum (firstn n (skipn a l)) /\ qsum (firstn n (skipn a l)) <= qsum l)%Q.
Proof.
  assert (K0 : forall l, Forall (fun q => 0 <= q)%Q l -> (0 <= qsum l)%Q) by (induction 1; cbn [qsum]; lra).
  assert (K1 : forall l, Forall (fun q => 0 <= q)%Q l -> forall n, (0 <= qsum (firstn n l) /\ qsum (firstn n l) <= qsum l)%Q).
  { induction 1 as [|q l Hq Hl IH]; intros [|n]; cbn [firstn qsum]; try lra; [pose proof (K0 _ Hl); lra|]. specialize (IH n). lra. }
  induction 1 as [|q l Hq Hl IH]; intros [|a] n.
  - cbn [skipn]. destruct n; cbn [firstn qsum]; lra.
  - cbn [skipn]. destruct n; cbn [firstn qsum]; lra.
  - cbn [skipn]. apply K1. now constructor.
  - cbn [skipn]. specialize (IH a n). cbn [qsum]. lra.
Qed.

Section Run.
Variable x y width height : Q.
Notation scan := (scan start crun t x width).
Notation row_ok := (row_ok start crun t x y width height).
Notation trace := (trace start crun t x y width height).
Notation run := (run start crun b_eqb t x y width height).
Definition big (rm : Q) : Prop := (Hc + (bw + pm) <= rm /\ width <= W0)%Q.

Lemma el_style i el : el_ok i el -> style_ok (style_of t el) /\ rowspan_of t el <= 1 /\ row_of i el <= i.
Proof.
  destruct el as [c| |d]; cbn [el_ok style_of rowspan_of row_of].
  - intros (K1 & K2 & _). auto.
  - intros _. destruct (te_blank ok) as ((K1 & K2 & _) & _). auto.
  - intros (K1 & K2 & K3 & _). auto.
Qed.
Lemma el_begins i el : el_ok i el -> exists w, begins start t el = Ok w /\ inv w /\ m w <= m_in el.
Proof.
  destruct el as [c| |d]; cbn [el_ok begins m_in].
  - intros (_ & _ & K). exact (start_ok _ K).
  - intros _. destruct (te_blank ok) as ((_ & _ & K) & _ & K2). destruct (start_ok _ K) as (w & H1 & H2 & H3). exists w. rewrite K2 in H3. auto.
  - intros (_ & _ & _ & K). exists (d_state d). auto.
Qed.
Lemma event_ends i first ya rm col el e : event_of start crun t x width i first ya rm col el e -> el_ok i el ->
  (e_fin e = false -> dcell_ok i (rest_of e) /\ m (e_out e) <= m_in el /\ (big rm -> m (e_out e) < m_in el)) /\ (rows_left t i el <= 0)%Z.
Proof.
  intros [H1 H2 H3 _ _ Hw Hh Hin Hrun Hneed] Hok. destruct (el_style _ _ Hok) as (S1 & S2 & S3).
  destruct (el_begins _ _ Hok) as (w0 & B1 & B2 & B3). rewrite B1 in Hin. injection Hin as Hin. rewrite Hin in *. clear B1.
  split; [|unfold rows_left; lia]. intros Hf.
  destruct (crun_ok (e_in e) (e_x e) (e_y e) (e_w e) (e_h e) B2) as (o' & ht & fin & ps & R1 & R2). rewrite R1 in Hrun. injection Hrun as -> -> -> ->.
  destruct (R2 Hf) as (R3 & R4 & R5). split; [|split; [lia|]].
  - unfold TableProofs.rest_of, dcell_ok. cbn [d_rowspan d_row d_style d_state]. rewrite H1, H3. auto.
  - intros [Hr Hwd]. assert (m (e_out e) < m (e_in e)); [|lia]. destruct S1 as (T1 & T2 & T3). apply R5.
    + rewrite Hh. unfold pad_top, pad_bottom. pose proof (te_bh ok i col) as K1. pose proof (te_bh ok (Z.to_nat (Z.of_nat i + rows_left t i el + 1)) col) as K2.
      revert K1 K2. generalize (b_width (t_bh t i col)) (b_width (t_bh t (Z.to_nat (Z.of_nat i + rows_left t i el + 1)) col)). intros q1 q2 K1 K2.
      assert (q1 / 2 == q1 * (1 # 2))%Q as -> by reflexivity. assert (q2 / 2 == q2 * (1 # 2))%Q as -> by reflexivity. lra.
    + rewrite Hw. unfold pad_left, pad_right. pose proof (te_bv ok i col) as K1. pose proof (te_bv ok i (col + colspan_of t el)) as K2.
      revert K1 K2. generalize (b_width (t_bv t i col)) (b_width (t_bv t i (col + colspan_of t el))). intros q1 q2 K1 K2.
      assert (q1 / 2 == q1 * (1 # 2))%Q as -> by reflexivity. assert (q2 / 2 == q2 * (1 # 2))%Q as -> by reflexivity.
      unfold sum_widths. destruct (qsum_part _ (te_widths ok) col (col + colspan_of t el - col)) as [Q1 Q2]. pose proof (te_total ok) as Q3.
      revert Q1 Q2. generalize (qsum (firstn (col + colspan_of t el - col) (skipn col (t_widths t)))). intros s Q1 Q2.
      assert (s * width <= W0)%Q; [|lra]. apply Qle_trans with (s * W0)%Q.
      * rewrite (Qmult_comm s width), (Qmult_comm s W0). apply Qmult_le_compat_r; assumption.
      * setoid_replace W0 with (1 * W0)%Q at 2 by ring. apply Qmult_le_compat_r; [lra|exact W0_pos].
Qed.

(** ** A row *)
Lemma scan_ends i first del ya rm r col row r' evs : scan i first del ya rm r col row r' evs ->
  (forall c, nget c (r_span r) = None) -> Forall (el_ok i) row -> clear (Z.to_nat (r_colspan r)) row col (r_delayed r) ->
  sum (wait (r_delayed r')) (seq col (length row)) <= sum m_in (visible (Z.to_nat (r_colspan r)) row) /\
  (forall c, c < col \/ col + length row <= c -> nget c (r_delayed r') = nget c (r_delayed r)) /\
  (forall c, nget c (r_span r') = None) /\
  (forall c d, col <= c < col + length row -> nget c (r_delayed r') = Some d -> dcell_ok i d) /\
  clear (Z.to_nat (r_colspan r)) (map (cell_at (r_delayed r')) (seq col (length row))) col (r_delayed r') /\
  (big rm -> (forall c, col <= c < col + length row -> nget c (r_delayed r') = None) \/
             sum (wait (r_delayed r')) (seq col (length row)) < sum m_in (visible (Z.to_nat (r_colspan r)) row)).
Proof.
  induction 1 as [r col|r col el row r1 r2 evs Hsk Hs Hsc IH|r col el row e r1 r2 evs Hsk He Hp Hsc IH]; intros Hsp Hok Hcl.
  - split; [cbn; lia|]. split; [auto|]. split; [exact Hsp|]. split; [cbn [length]; intros; lia|]. split; [cbn; destruct (Z.to_nat (r_colspan r)); exact I|].
    intros _. left. cbn [length]. intros; lia.
  - inversion Hok as [|? ? Ho Hok']; subst. unfold skips in Hsk. rewrite Hsp in Hsk. apply Z.ltb_lt in Hsk.
    destruct Hs as [_ _ _ _ _ S1 _ S2 S3 S4 _]. unfold span_after, max_after, colspan_after in S1, S2, S3. rewrite Hsp in S1, S2, S3.
    destruct (Z.to_nat (r_colspan r)) as [|k] eqn:Ek; [lia|]. cbn [TableTokens.clear] in Hcl. destruct Hcl as [C1 C2].
    assert (Ek1 : Z.to_nat (r_colspan r1) = k) by (rewrite S3; lia). rewrite Ek1 in IH.
    destruct IH as (I1 & I2 & I3 & I4 & I5 & I6); [intros c; rewrite S1; apply Hsp|exact Hok'|rewrite S4; exact C2|].
    assert (Hc' : nget col (r_delayed r2) = None) by (rewrite I2 by lia; rewrite S4; exact C1).
    cbn [length seq map TableTokens.visible TableTokens.clear]. rewrite sum_cons. unfold wait at 1 3. rewrite Hc'. cbn [Nat.add].
    split; [exact I1|]. split; [|split; [exact I3|split; [|split; [split; [first [exact Hc'|reflexivity]|exact I5]|]]]].
    + intros c Hc2. rewrite I2 by lia. now rewrite S4.
    + intros c d Hr Hd. destruct (Nat.eq_dec c col) as [->|]; [congruence|]. apply (I4 c d); [lia|exact Hd].
    + intros Hb. destruct (I6 Hb) as [K|K]; [left|right; exact K]. intros c Hr. destruct (Nat.eq_dec c col) as [->|]; [exact Hc'|]. apply K. lia.
  - inversion Hok as [|? ? Ho Hok']; subst. unfold skips in Hsk. rewrite Hsp in Hsk. apply Z.ltb_ge in Hsk.
    destruct (event_ends _ _ _ _ _ _ _ He Ho) as (V1 & V3).
    destruct Hp as [_ _ _ _ _ S1 _ S2 S3 S4 _]. assert (Hrl : (0 <? rows_left t i el)%Z = false) by (apply Z.ltb_ge; lia). rewrite Hrl in S1, S2. cbv zeta in S2.
    assert (Ek : Z.to_nat (r_colspan r) = 0) by lia. rewrite Ek in *. cbn [TableTokens.clear] in Hcl.
    assert (Ek1 : Z.to_nat (r_colspan r1) = colspan_of t el - 1) by (rewrite S3; lia). rewrite Ek1 in IH.
    assert (Hsame : forall c, c <> col -> nget c (r_delayed r1) = nget c (r_delayed r)).
    { intros c Hn. rewrite S4. destruct (e_fin e); [apply nget_npop_other|apply nget_nset_other]; exact Hn. }
    destruct IH as (I1 & I2 & I3 & I4 & I5 & I6);
      [intros c; rewrite S1; apply Hsp|exact Hok'|refine (clear_same _ _ _ _ _ _ _ Hcl); intros c Hc'; symmetry; apply Hsame; lia|].
    assert (Hc' : nget col (r_delayed r2) = if e_fin e then None else Some (rest_of e)).
    { rewrite I2 by lia. rewrite S4. destruct (e_fin e); [apply nget_npop_same|apply nget_nset_same]. }
    assert (Hw : wait (r_delayed r2) col <= m_in el /\ (big rm -> nget col (r_delayed r2) = None \/ wait (r_delayed r2) col < m_in el)).
    { unfold wait. rewrite Hc'. destruct (e_fin e); [split; [lia|auto]|]. destruct (V1 eq_refl) as (K1 & K2 & K3). cbn [TableProofs.rest_of d_state]. auto. }
    destruct Hw as [Hw1 Hw2].
    cbn [length seq map TableTokens.visible TableTokens.clear]. rewrite !sum_cons.
    split; [lia|split; [|split; [exact I3|split; [|split]]]].
    + intros c Hc2. rewrite I2 by lia. apply Hsame. lia.
    + intros c d Hr Hd. destruct (Nat.eq_dec c col) as [->|]; [|apply (I4 c d); [lia|exact Hd]].
      rewrite Hc' in Hd. destruct (e_fin e); [discriminate|]. injection Hd as <-. apply (V1 eq_refl).
    + unfold TableTokens.cell_at at 1. rewrite Hc'. destruct (e_fin e).
      * cbn [colspan_of]. destruct (te_blank ok) as (_ & -> & _). exact (clear_0 _ _ _ _ I5).
      * cbn [colspan_of TableProofs.rest_of d_colspan]. destruct He as [_ _ He _ _ _ _ _ _ _]. rewrite He. exact I5.
    + intros Hb. destruct (Hw2 Hb) as [K|K]; [|right; lia]. destruct (I6 Hb) as [K'|K']; [left|right; lia].
      intros c Hr. destruct (Nat.eq_dec c col) as [->|]; [exact K|]. apply K'. lia.
Qed.

Definition rec_size (rr : rowrec) : nat := S (sum m_in (visible 0 (rr_row rr))).
Definition can_start (r : rstate) (rr : rowrec) : Prop :=
  (forall c, nget c (r_span r) = None) /\ Forall (el_ok (rr_index rr)) (rr_row rr) /\ clear 0 (rr_row rr) 0 (r_delayed r) /\
  (forall c, t_cols t <= c -> nget c (r_delayed r) = None).
Definition ends (i : nat) (r : rstate) : Prop :=
  (forall c, nget c (r_span r) = None) /\ (forall c d, nget c (r_delayed r) = Some d -> c < t_cols t /\ dcell_ok i d) /\
  clear 0 (delayed_row t (r_delayed r)) 0 (r_delayed r).
Definition owed (dl : ndict dcell) : nat := match dl with [] => 0 | _ => S (sum (wait dl) (seq 0 (t_cols t))) end.

Lemma row_ends r rr go r1 : row_ok r rr go r1 -> can_start r rr ->
  ends (rr_index rr) r1 /\ (go = true -> r_delayed r1 = []) /\ owed (r_delayed r1) <= rec_size rr /\
  (big (height - r_height r) -> owed (r_delayed r1) < rec_size rr).
Proof.
  intros [Hlen (r2 & Hs & Hh & Hgo & _ & _ & Hd & Hsp & _ & _ & _ & Hrh)] (C1 & C2 & C3 & C4).
  destruct (scan_ends _ _ _ _ _ _ _ _ _ _ Hs C1 C2 C3) as (I1 & I2 & I3 & I4 & I5 & I6).
  cbn [reset r_colspan r_max Z.to_nat r_delayed] in *. rewrite Hlen in *. rewrite Hd. cbn [Nat.add] in *.
  assert (Hout : forall c, t_cols t <= c -> nget c (r_delayed r2) = None) by (intros c Hc1; rewrite I2 by lia; apply C4, Hc1).
  split; [|split; [|split]].
  - split; [intros c; rewrite Hsp; apply I3|]. rewrite Hd. split; [|exact I5]. intros c d Hg.
    assert (c < t_cols t). { destruct (Nat.lt_ge_cases c (t_cols t)); [assumption|]. rewrite Hout in Hg by assumption. discriminate. }
    split; [assumption|]. apply (I4 c); [lia|exact Hg].
  - intros ->. symmetry in Hgo. exact (go_true _ _ I3 Hgo).
  - unfold owed, rec_size. destruct (r_delayed r2); [lia|]. lia.
  - intros Hb. unfold rec_size. destruct (I6 Hb) as [K|K].
    + rewrite (nget_nil (r_delayed r2)); [cbn [owed]; lia|]. intros c. destruct (Nat.lt_ge_cases c (t_cols t)); [apply K; lia|apply Hout; assumption].
    + unfold owed. destruct (r_delayed r2) eqn:Ed; [lia|]. rewrite <- Ed in *. lia.
Qed.

Lemma new_start (r : rstate) rr : (forall c, nget c (r_span r) = None) -> r_delayed r = [] -> content_row t rr -> can_start r rr.
Proof.
  intros H1 H2 (_ & row & Hn & Hr). split; [exact H1|]. rewrite H2. split; [|split; [apply clear_nil|reflexivity]]. rewrite Hr. apply Forall_forall. intros el Hi.
  apply in_map_iff in Hi as (c & <- & Hc'). cbn [el_ok]. exact (te_cells ok _ _ (nth_error_In _ _ Hn) Hc').
Qed.
Lemma trace_ends r recs r' : trace r recs r' -> forall rr recs', recs = rr :: recs' -> can_start r rr -> Forall (content_row t) recs' ->
  (exists rr', In rr' recs /\ ends (rr_index rr') r') /\ owed (r_delayed r') <= sum rec_size recs /\
  (big (height - r_height r) -> owed (r_delayed r') < sum rec_size recs).
Proof.
  induction 1 as [r|r rr0 go r1 Hr|r rr0 r1 recs r2 Hr Ht IH]; intros rr recs' Heq Hst Hcs; [discriminate| |].
  - injection Heq as <- <-. destruct (row_ends _ _ _ _ Hr Hst) as (K1 & K2 & K3 & K4). rewrite sum_cons. change (sum rec_size []) with 0. rewrite Nat.add_0_r.
    split; [exists rr0; split; [now left|exact K1]|]. auto.
  - injection Heq as <- <-. destruct (row_ends _ _ _ _ Hr Hst) as (K1 & K2 & K3 & K4). specialize (K2 eq_refl). rewrite sum_cons.
    assert (Hp : 0 < rec_size rr0) by (unfold rec_size; lia).
    destruct recs as [|rr1 recs].
    + inversion Ht; subst. rewrite K2. cbn [owed]. split; [exists rr0; split; [now left|exact K1]|]. split; [lia|]. intros _. lia.
    + inversion Hcs as [|? ? Hc1 Hcs']; subst. destruct (IH rr1 recs eq_refl) as ((rr' & L2 & L2') & L3 & _);
        [apply new_start; [apply K1|exact K2|exact Hc1]|exact Hcs'|].
      split; [exists rr'; split; [now right|exact L2']|]. split; [lia|]. intros _. lia.
Qed.

(** ** A run *)
Definition rows_size (rows : list (list (@cell E F))) : nat := sum (fun row => S (row_size row)) rows.
Definition state_size (s : tstate) : nat :=
  (if t_first s then 1 else 0) + owed (t_delayed s) + rows_size (skipn (match t_delayed s with [] => t_index s | _ => S (t_index s) end) (t_rows t)).
Record state_ok (s : tstate) : Prop := mkStateOk {
  so_fin : t_finished s = false;
  so_ready : ready s;
  so_index : t_index s <= length (t_rows t);
  so_cells : forall c d, nget c (t_delayed s) = Some d -> c < t_cols t /\ dcell_ok (t_index s) d;
  so_clear : clear 0 (delayed_row t (t_delayed s)) 0 (t_delayed s) }.
Lemma dcell_ok_le i j d : i <= j -> dcell_ok i d -> dcell_ok j d.
Proof. intros H (H1 & H2 & H3). split; [exact H1|]. split; [lia|exact H3]. Qed.
Lemma skipn_S {A} (l : list A) i a : nth_error l i = Some a -> skipn i l = a :: skipn (S i) l.
Proof. revert i; induction l as [|b l IH]; intros [|i]; cbn; try discriminate; [congruence|apply IH]. Qed.
Lemma recs_size : forall recs i, Forall (content_row t) recs -> map (@rr_index E W P F) recs = seq i (length recs) ->
  rows_size (skipn i (t_rows t)) = sum rec_size recs + rows_size (skipn (i + length recs) (t_rows t)).
Proof.
  induction recs as [|rr recs IH]; intros i Hcr Hi; cbn [length map seq] in *; [now rewrite Nat.add_0_r|].
  inversion Hcr as [|? ? (_ & row & Hn & Hr) Hcs]; subst. injection Hi as H1 H2. rewrite H1 in Hn. rewrite (skipn_S _ _ _ Hn). unfold rows_size at 1. rewrite !sum_cons.
  fold (rows_size (skipn (S i) (t_rows t))). rewrite (IH (S i) Hcs H2). replace (S i + length recs) with (i + S (length recs)) by lia.
  assert (rec_size rr = S (row_size row)); [|lia]. unfold rec_size, row_size. rewrite Hr. f_equal. apply visible_new.
Qed.
Lemma recs_bound : forall recs i, Forall (content_row t) recs -> map (@rr_index E W P F) recs = seq i (length recs) -> recs <> [] -> i + length recs <= length (t_rows t).
Proof.
  induction recs as [|rr recs IH]; intros i Hcr Hi Hn; [congruence|]. cbn [length map seq] in *. injection Hi as H1 H2.
  inversion Hcr as [|? ? (_ & row & Hr & _) Hcs]; subst. assert (rr_index rr < length (t_rows t)) by (apply nth_error_Some; congruence).
  destruct recs as [|rr1 recs]; [cbn; lia|]. specialize (IH _ Hcs H2 ltac:(discriminate)). cbn [length] in *. lia.
Qed.

Lemma run_ends s s' o : state_ok s -> run s = Ok (s', o) -> t_finished s' = false ->
  state_ok s' /\ state_size s' <= state_size s /\ (big height -> state_size s' < state_size s).
Proof.
  intros [Hfin Hready Hindex Hcells Hclear] Hrun Hfin'.
  destruct (run_cases start crun b_eqb t x y width height s s' o Hready Hrun) as [(Hcan & Hcc)|(Hcan & recs & r1 & Ha)].
  - destruct Hcc as (Hd & Hf & row & r1 & evs & Hn & Hlen & Hs & Hmax & _ & _ & _ & _ & ->). cbn [t_finished] in *.
    assert (Hin : In row (t_rows t)) by exact (nth_error_In _ _ Hn).
    destruct (scan_ends _ _ _ _ _ _ _ _ _ _ Hs) as (I1 & I2 & I3 & I4 & I5 & I6).
    { intros c. reflexivity. }
    { apply Forall_forall. intros el Hi. apply in_map_iff in Hi as (c & <- & Hc1). exact (te_cells ok _ _ Hin Hc1). }
    { apply clear_nil. }
    rewrite map_length, Hlen in *. cbn [reset empty_run r_colspan Z.to_nat r_delayed Nat.add] in *. rewrite visible_new in I1.
    assert (Hsz : state_size (mkT (t_index s) (r_delayed r1) false false) < state_size s).
    { unfold state_size. cbn [t_first t_delayed t_index]. rewrite Hd, Hf. cbn [owed]. rewrite (skipn_S _ _ _ Hn).
      unfold rows_size at 2. rewrite sum_cons. fold (rows_size (skipn (S (t_index s)) (t_rows t))). unfold row_size.
      unfold owed. destruct (r_delayed r1) eqn:Ed; [|rewrite <- Ed in *; cbn [skipn] in *; lia].
      rewrite (skipn_S _ _ _ Hn). unfold rows_size at 1. rewrite sum_cons. fold (rows_size (skipn (S (t_index s)) (t_rows t))). unfold row_size. lia. }
    rewrite Hfin. split; [|split; [lia|intros _; exact Hsz]].
    constructor; cbn [t_finished t_index t_delayed]; auto.
    + intros K. cbn in K. discriminate.
    + intros c d Hg. assert (c < t_cols t). { destruct (Nat.lt_ge_cases c (t_cols t)); [assumption|]. rewrite I2 in Hg by lia. discriminate. }
      split; [assumption|]. apply (I4 c); [lia|exact Hg].
  - destruct Ha as [Htr HP HE HH _ HD Hi Hfr Hco Hfi _ _ Hend HF]. rewrite Hfin, orb_false_r in HF.
    assert (Hleft : recs <> [] -> exists rr recs', recs = rr :: recs' /\ can_start (empty_run t (t_delayed s)) rr /\ Forall (content_row t) recs' /\
      sum rec_size recs + rows_size (skipn (t_index s + length recs) (t_rows t)) <= state_size s /\ t_index s + length recs <= S (length (t_rows t)) /\ t_index s + length recs - 1 <= length (t_rows t)).
    { intros Hn. destruct (t_delayed s) as [|kv dl] eqn:Ed.
      - specialize (Hfr eq_refl). destruct recs as [|rr recs]; [congruence|]. exists rr, recs. split; [reflexivity|].
        pose proof (recs_bound _ _ Hfr Hi Hn) as Hb.
        split; [apply new_start; [intros c; reflexivity|reflexivity|now inversion Hfr]|]. split; [now inversion Hfr|]. split; [|lia].
        unfold state_size. rewrite Ed. rewrite (recs_size _ _ Hfr Hi). lia.
      - destruct Hco as (rr & recs' & -> & Hdel & Hrow & Hcs); [discriminate|]. exists rr, recs'. split; [reflexivity|].
        cbn [map length seq] in Hi. injection Hi as Hi1 Hi2.
        assert (Hst : can_start (empty_run t (kv :: dl)) rr).
        { split; [intros c; reflexivity|]. split; [|split; [rewrite Hrow; exact Hclear|]].
          - rewrite Hrow. apply Forall_forall. intros el He. unfold delayed_row in He.
            apply in_map_iff in He as (c & <- & Hc1). apply in_seq in Hc1. destruct (nget c (kv :: dl)) as [d|] eqn:Eg; cbn [el_ok]; [|exact I].
            rewrite Hi1. apply (Hcells c). exact Eg.
          - intros c Hc1. cbn [empty_run r_delayed]. destruct (nget c (kv :: dl)) as [d|] eqn:Eg; [|reflexivity]. apply Hcells in Eg. lia. }
        split; [exact Hst|]. split; [exact Hcs|]. cbn [length]. replace (t_index s + S (length recs')) with (S (t_index s) + length recs') by lia. split.
        + unfold state_size. rewrite Ed. rewrite sum_cons, (recs_size recs' (S (t_index s)) Hcs Hi2). unfold owed, rec_size at 1.
          rewrite Hrow. unfold delayed_row. fold (cell_at (kv :: dl)). change (fun i : nat => match nget i (kv :: dl) with Some c => Cont c | None => Blank end) with (cell_at (kv :: dl)).
          rewrite cells_sum by exact Hclear. lia.
        + destruct recs' as [|rr1 recs']; [cbn [length]; lia|]. pose proof (recs_bound _ _ Hcs Hi2 ltac:(discriminate)). lia. }
    destruct recs as [|rr0 recs0] eqn:Er.
    + inversion Htr; subst r1. destruct Hend as [(E1 & E2 & _)|(_ & rr & r0 & recs' & K & _)]; [|destruct recs'; discriminate].
      cbn [length] in E1. rewrite Nat.add_0_r in E1. specialize (E2 Hindex).
      assert (Hds : t_delayed s = []). { destruct (t_delayed s) as [|kv dl] eqn:Ed; [reflexivity|]. destruct Hco as (rr & recs' & K & _); [discriminate|discriminate K]. }
      cbn [empty_run r_delayed] in HD. rewrite Hds in HD. rewrite HD in HF. assert (Hlb : (length (t_rows t) <=? t_index s') = true) by (apply Nat.leb_le; exact E2).
      rewrite Hlb in HF. cbn [andb] in HF. congruence.
    + rewrite <- Er in *. assert (Hne : recs <> []) by (rewrite Er; discriminate).
      assert (Hfi' : t_first s' = false) by (rewrite Hfi; reflexivity).
      destruct (Hleft Hne) as (rr & recs' & Hrecs & Hst & Hcs & Hl & Hb1 & Hb2).
      destruct (trace_ends _ _ _ Htr rr recs' Hrecs Hst Hcs) as ((rrl & T2 & T2') & T3 & T4). cbn [empty_run r_height] in T4.
      assert (Hlast : S (rr_index rrl) <= t_index s + length recs).
      { assert (Hin : In (rr_index rrl) (map (@rr_index E W P F) recs)) by (apply in_map; exact T2). rewrite Hi in Hin. apply in_seq in Hin. lia. }
      rewrite HD in *. destruct Hend as [(E1 & E2 & E3)|(E1 & rr2 & r0 & recs2 & E2 & E3 & E4)].
      * specialize (E2 Hindex). destruct (E3 Hne) as (rr2 & r0 & recs2 & F1 & F2 & F3).
        assert (Hd' : r_delayed r1 = []) by (apply (go_true t); [apply T2'|exact (row_go _ _ _ _ _ _ _ _ _ _ _ F3)]).
        rewrite Hd' in *. assert (Hlb : (length (t_rows t) <=? t_index s') = true) by (apply Nat.leb_le; exact E2).
        rewrite Hlb in HF. cbn [andb] in HF. congruence.
      * assert (Hd' : r_delayed r1 <> []) by exact (go_false _ _ (te_cols ok) (row_go _ _ _ _ _ _ _ _ _ _ _ E4)).
        assert (Hm : forall A (a b : A), match r_delayed r1 with [] => a | _ :: _ => b end = b) by (intros A a b; destruct (r_delayed r1); congruence).
        assert (Hs' : state_size s' = owed (r_delayed r1) + rows_size (skipn (t_index s + length recs) (t_rows t))).
        { unfold state_size. rewrite HD, Hm, Hfi', E1. reflexivity. }
        split; [|split].
        -- destruct T2' as (T5 & T6 & T7). constructor; [exact Hfin'| |lia| |].
           ++ intros K. congruence.
           ++ rewrite HD. intros c d Hg. destruct (T6 c d Hg) as [T8 T9]. split; [exact T8|]. apply (dcell_ok_le (rr_index rrl)); [lia|exact T9].
           ++ rewrite HD. exact T7.
        -- lia.
        -- intros [Hb3 Hb4]. assert (owed (r_delayed r1) < sum rec_size recs) by (apply T4; split; [lra|exact Hb4]). lia.
Qed.

(** ** No run fails *)
Lemma add_cell_total i first del ya rm r col el : el_ok i el -> exists r', add_cell start crun b_eqb t x width i first del ya rm r col el = Ok r'.
Proof.
  intros He. unfold add_cell. destruct (is_span r col _ _ del) as [[[skip r1] bl] bt]. cbv zeta.
  destruct skip; [eauto|]. destruct (el_begins _ _ He) as (w & B1 & B2 & _). unfold begins in B1.
  destruct el as [c| |d]; rewrite B1; cbn [bind];
    match goal with |- context [crun w ?a ?b ?c ?d] => destruct (crun_ok w a b c d B2) as (o' & ht & fin & ps & -> & _) end; cbn [bind]; eauto.
Qed.
Lemma add_cells_total i first del ya rm : forall row r col, Forall (el_ok i) row -> exists r', add_cells start crun b_eqb t x width i first del ya rm r col row = Ok r'.
Proof.
  induction row as [|el row IH]; intros r col Hok; cbn [add_cells]; [eauto|]. inversion Hok as [|? ? He Hok']; subst.
  destruct (add_cell_total i first del ya rm r col el He) as (r1 & ->). cbn [bind]. apply IH, Hok'.
Qed.
Lemma add_row_total i first del r row : length row = t_cols t -> Forall (el_ok i) row -> exists a r', add_row start crun b_eqb t x y width height i first del r row = Ok (a, r').
Proof.
  intros Hl Hok. unfold add_row. rewrite Hl, Nat.eqb_refl. cbn [negb]. cbv zeta.
  match goal with |- context [add_cells _ _ _ _ _ _ i first del ?ya ?rm ?r0 0 row] => destruct (add_cells_total i first del ya rm row r0 0 Hok) as (r1 & ->) end. cbn [bind].
  destruct (first && Qeq_bool (r_max r1) 0); [eauto|]. destruct (flush_fills _ _ _) as [fm fs]. eauto.
Qed.
Lemma add_rows_total : forall rows i first r, (forall row, In row rows -> In row (t_rows t)) ->
  exists a r' i' f', add_rows start crun b_eqb t x y width height i first r rows = Ok (a, r', i', f').
Proof.
  induction rows as [|row rows IH]; intros i first r Hin; cbn [add_rows]; [eauto 6|].
  assert (Hr : In row (t_rows t)) by (apply Hin; now left).
  destruct (add_row_total i first false r (map New row)) as (a & r1 & ->).
  { rewrite map_length. exact (te_rows ok _ Hr). }
  { apply Forall_forall. intros el Hel. apply in_map_iff in Hel as (c & <- & Hc1). exact (te_cells ok _ _ Hr Hc1). }
  cbn [bind]. destruct a; eauto 6. apply IH. intros row' Hr'. apply Hin. now right.
Qed.
Lemma In_skipn {A} (a : A) : forall n l, In a (skipn n l) -> In a l.
Proof. induction n as [|n IH]; intros [|b l] H; cbn [skipn] in H; auto. right. now apply IH. Qed.
Lemma run_total s : state_ok s -> exists s' o, run s = Ok (s', o).
Proof.
  intros [_ _ _ Hcells _]. unfold Table.run. destruct (t_delayed s) as [|kv dl] eqn:Ed.
  - destruct (add_rows_total (skipn (t_index s) (t_rows t)) (t_index s) (t_first s) (empty_run t [])) as (a & r1 & i & f & ->); [intros row; apply In_skipn|].
    cbn [bind]. destruct a; now eauto.
  - rewrite <- Ed in *. destruct (add_row_total (t_index s) (t_first s) true (empty_run t (t_delayed s)) (delayed_row t (t_delayed s))) as (a & r1 & ->).
    { unfold delayed_row. rewrite map_length, seq_length. reflexivity. }
    { apply Forall_forall. intros el He. unfold delayed_row in He. apply in_map_iff in He as (c & <- & Hc1).
      destruct (nget c (t_delayed s)) as [d|] eqn:Eg; cbn [el_ok]; [|exact I]. apply (Hcells c). exact Eg. }
    cbn [bind]. destruct a; cbn [bind]; [|now eauto|now eauto].
    destruct (add_rows_total (tl (skipn (t_index s) (t_rows t))) (S (t_index s)) false r1) as (a & r2 & i & f & ->).
    { intros row Hr. apply (In_skipn row (t_index s)). destruct (skipn (t_index s) (t_rows t)); [destruct Hr|now right]. }
    cbn [bind]. destruct a; now eauto.
Qed.
End Run.

Lemma fresh_ends : state_ok (mkT 0 [] true false) /\ state_size (mkT 0 [] true false) = S (rows_size (t_rows t)).
Proof.
  split; [|reflexivity]. constructor; cbn [t_finished t_index t_delayed]; [reflexivity|intros _; reflexivity|lia|intros c d K; discriminate K|apply clear_nil].
Qed.
End Ends.
