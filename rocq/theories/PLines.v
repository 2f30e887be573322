(** Tables: the lines of the borders (property C61). *)
From Coq Require Import QArith ZArith Lia Lqa FinFun.
From Verif Require Import Py Table TableProofs TableGeom TableSpan TableChain TableLines TableEdges PTable.
Open Scope list_scope.
Open Scope nat_scope.

Lemma nodup_app {T} (a b : list T) : NoDup a -> NoDup b -> (forall e, In e a -> In e b -> False) -> NoDup (a ++ b).
Proof.
  induction 1 as [|e a He Ha IH]; intros Hb Hd; cbn [app]; [exact Hb|]. constructor.
  - intros K. apply in_app_or in K as [K|K]; [contradiction|]. exact (Hd e (or_introl eq_refl) K).
  - apply IH; [exact Hb|]. intros e' K1 K2. exact (Hd e' (or_intror K1) K2).
Qed.

Section Lines.
Context {E W P F B : Type}.
Variable start : E -> res W.
Variable crun : W -> Q -> Q -> Q -> Q -> res (W * Q * bool * list P).
Variable b_eqb : B -> B -> bool.
Variable t : @table E F B.
Notation border := (@border B).
Notation line := (@line B).

(** ** Specification *)
(** The edge above row [k] at column [c] (below the last row when [k] is the
    number of rows), the edge at the left of column [c] in row [k] (at the right
    of the table when [c] is the number of columns).  Rows are counted from the
    first one of the run. *)
Inductive edge := Above (k c : nat) | Left (k c : nat).
(** A straight line above row [k], over the columns from [a] to before [b]; or
    at the left of column [c], over the rows from [a] to before [b]. *)
Inductive seg := Hor (k a b : nat) | Ver (c a b : nat).
Definition edges (g : seg) : list edge :=
  match g with Hor k a b => map (Above k) (seq a (b - a)) | Ver c a b => map (fun k => Left k c) (seq a (b - a)) end.
Section Spec.
(** The rows and the cells of the run (as in C46), the row where the next run
    begins, the heights of the rows. *)
Variable rows : list (list (@incell E W F)).
Variable base next : nat.
Variable A : nat -> nat -> bool.
Variable hs : list Q.
Definition n_rows : nat := List.length hs.
(** The border that the table has for an edge. *)
Definition border_of (e : edge) : border :=
  match e with Above k c => t_bh t (if k =? n_rows then next else base + k) c | Left k c => t_bv t (base + k) c end.
(** Both places are taken by the same cell. *)
Definition same_cell (i c i' c' : nat) : Prop := exists i0 c0, A i0 c0 = true /\ covers t rows base i0 c0 i c /\ covers t rows base i0 c0 i' c'.
Definition on_table (e : edge) : Prop :=
  match e with Above k c => k <= n_rows /\ c < t_cols t | Left k c => k < n_rows /\ c <= t_cols t end.
Definition inside_cell (e : edge) : Prop :=
  match e with
  | Above k c => 0 < k < n_rows /\ same_cell (k - 1) c k c
  | Left k c => 0 < c < t_cols t /\ same_cell k (c - 1) k c
  end.
Definition visible (e : edge) : Prop := on_table e /\ ~ inside_cell e /\ (0 < b_width (border_of e))%Q.
(** The line is where the edges are, and looks like the border of each; its
    ends may go further by half of [M], to meet the lines that cross it. *)
Definition level (y : Q) (k : nat) : Q := (y - qsum (firstn k hs))%Q.
Definition column (x width : Q) (c : nat) : Q := (x + left_of t c * width)%Q.
Definition drawn (x y width M : Q) (g : seg) (l : line) : Prop :=
  (forall e, In e (edges g) -> alike b_eqb (l_border l) (border_of e)) /\
  match g with
  | Hor k a b => a < b /\ (l_y1 l == level y k /\ l_y2 l == level y k /\
      column x width a - M / 2 <= l_x1 l <= column x width a /\ column x width b <= l_x2 l <= column x width b + M / 2)%Q
  | Ver c a b => a < b /\ (l_x1 l == column x width c /\ l_x2 l == column x width c /\
      level y a <= l_y1 l <= level y a + M / 2 /\ level y b - M / 2 <= l_y2 l <= level y b)%Q
  end.
(** No cell of a single column takes three rows or more; or there are no cells
    of several columns. *)
Definition narrow_cells_short : Prop :=
  (forall i c el, A i c = true -> at_pos rows i c = Some el -> colspan_of t el = 1 -> (rows_left t (base + i) el <= 1)%Z) \/
  (forall i c el, A i c = true -> at_pos rows i c = Some el -> colspan_of t el = 1).
End Spec.

(** ** Proofs *)
Lemma shown_rows x y width height s s' o recs r1 : adds start crun t x y width height s s' o recs r1 ->
  (forall j rr, nth_error recs j = Some rr -> nth_error (to_show t s) j = Some (rr_row rr) /\ (rr_del rr = true -> j = 0)) /\
  List.length recs <= List.length (to_show t s).
Proof.
  intros Ha. destruct Ha as [Ht _ Hev _ _ _ Hidx Hf Hc _ _ _ Hend _].
  assert (Hrows : forall j rr, nth_error recs j = Some rr -> nth_error (to_show t s) j = Some (rr_row rr) /\ (rr_del rr = true -> j = 0)).
  { assert (Hcont : forall lo (l : list (@rowrec E W P F)), map (@rr_index E W P F) l = seq lo (List.length l) -> Forall (content_row t) l ->
      forall j rr, nth_error l j = Some rr -> nth_error (map (map New) (skipn lo (t_rows t))) j = Some (rr_row rr) /\ rr_del rr = false).
    { intros lo l Hl Hl2 j rr Hj. pose proof (proj1 (Forall_forall _ _) Hl2 rr (nth_error_In _ _ Hj)) as [K1 (row & K2 & K3)]. split; [|exact K1].
      assert (K4 : nth_error (map (@rr_index E W P F) l) j = nth_error (seq lo (List.length l)) j) by (now rewrite Hl).
      assert (Hjl : j < List.length l) by (apply nth_error_Some; congruence).
      rewrite nth_error_map, Hj, (nth_error_nth' _ 0) in K4 by (rewrite seq_length; exact Hjl). rewrite seq_nth in K4 by exact Hjl. cbn in K4. injection K4 as K4.
      rewrite nth_error_map, nth_skipn, <- K4, K2. cbn. now rewrite K3. }
    unfold to_show. destruct (t_delayed s) as [|d0 dl] eqn:Ed.
    - specialize (Hf eq_refl). intros j rr Hj. destruct (Hcont _ _ Hidx Hf j rr Hj) as [K1 K2]. split; [exact K1|congruence].
    - destruct Hc as (rr0 & recs' & -> & K1 & K2 & K3); [discriminate|]. cbn [map List.length seq] in Hidx. injection Hidx as _ Hidx.
      intros [|j] rr Hj; cbn in Hj; [injection Hj as <-; split; [cbn; now rewrite K2|reflexivity]|].
      destruct (Hcont _ _ Hidx K3 j rr Hj) as [Q1 Q2]. split; [exact Q1|congruence]. }
  split; [exact Hrows|].
  destruct recs as [|rr0 recs'] eqn:E0; [cbn; lia|]. rewrite <- E0 in *. assert (Hl : 0 < List.length recs) by (rewrite E0; cbn; lia).
  destruct (nth_error recs (List.length recs - 1)) as [rr|] eqn:En; [|apply nth_error_None in En; lia]. destruct (Hrows _ _ En) as [K _].
  assert (List.length recs - 1 < List.length (to_show t s)) by (apply nth_error_Some; congruence). lia.
Qed.
(** What the lines of one level, or of one column, give; put together. *)
Section Collect.
Variable D : seg -> line -> Prop.
Variable V : edge -> Prop.
Variable C : Prop.
Definition group (own : edge -> Prop) (ls : list line) : Prop :=
  exists segs, Forall2 D segs ls /\ NoDup (flat_map edges segs) /\ (forall e, In e (flat_map edges segs) -> own e /\ V e) /\
    (C -> forall e, own e -> V e -> In e (flat_map edges segs)).
Lemma group_app (own1 own2 : edge -> Prop) ls1 ls2 : (forall e, own1 e -> own2 e -> False) -> group own1 ls1 -> group own2 ls2 -> group (fun e => own1 e \/ own2 e) (ls1 ++ ls2).
Proof.
  intros Hd (g1 & A1 & A2 & A3 & A4) (g2 & B1 & B2 & B3 & B4). exists (g1 ++ g2). rewrite flat_map_app. split; [apply Forall2_app; assumption|]. split; [|split].
  - apply nodup_app; [exact A2|exact B2|]. intros e K1 K2. exact (Hd e (proj1 (A3 e K1)) (proj1 (B3 e K2))).
  - intros e He. apply in_app_or in He as [He|He]; [destruct (A3 e He)|destruct (B3 e He)]; auto.
  - intros HC e [He|He] HV; apply in_or_app; auto.
Qed.
Lemma group_concat (own : nat -> edge -> Prop) (ks : list nat) lss : NoDup ks -> (forall k k' e, own k e -> own k' e -> k = k') ->
  Forall2 (fun k ls => group (own k) ls) ks lss -> group (fun e => exists k, In k ks /\ own k e) (List.concat lss).
Proof.
  intros Hn Hd H. induction H as [|k ls ks lss H1 H2 IH].
  - exists []. cbn. split; [constructor|]. split; [constructor|]. split; [intros e []|intros _ e (k & [] & _)].
  - inversion Hn as [|? ? N1 N2]; subst. cbn [List.concat]. destruct (group_app (own k) (fun e => exists k, In k ks /\ own k e) ls (List.concat lss)) as (g & G1 & G2 & G3 & G4); [|exact H1|exact (IH N2)|].
    + intros e K (k' & K1 & K2). assert (k = k') by exact (Hd _ _ _ K K2). subst. contradiction.
    + exists g. do 2 (split; [assumption|]). split.
      * intros e He. destruct (G3 e He) as [[K|(k' & K1 & K2)] K3]; (split; [|exact K3]); [exists k|exists k']; cbn; auto.
      * intros HC e (k' & [<-|K1] & K2) HV; apply G4; auto. right. eauto.
Qed.
End Collect.
Lemma fm_map {S T U} (f : T -> list U) (g : S -> T) l : flat_map f (map g l) = flat_map (fun a => f (g a)) l.
Proof. induction l as [|a l IH]; cbn; [reflexivity|now rewrite IH]. Qed.
Lemma map_fm {S T U} (f : T -> U) (g : S -> list T) l : map f (flat_map g l) = flat_map (fun a => map f (g a)) l.
Proof. induction l as [|a l IH]; cbn; [reflexivity|now rewrite map_app, IH]. Qed.

Lemma n_rows_map recs : n_rows (map (@rr_height E W P F) recs) = List.length recs.
Proof. apply map_length. Qed.
Lemma column_X x width c : (X t x width c == column x width c)%Q.
Proof. unfold X, column. rewrite (proj1 (sum_widths_ok t c 0)). reflexivity. Qed.
Lemma covers_prev_row (rows : list (list (@incell E W F))) base i0 c0 i c : covers t rows base i0 c0 i c -> i0 < i -> covers t rows base i0 c0 (i - 1) c.
Proof. intros (el & H1 & H2 & H3 & H4) Hi. exists el. split; [exact H1|]. split; [lia|]. split; [lia|exact H4]. Qed.
Lemma covers_prev_col (rows : list (list (@incell E W F))) base i0 c0 i c : covers t rows base i0 c0 i c -> c0 < c -> covers t rows base i0 c0 i (c - 1).
Proof. intros (el & H1 & H2 & H3 & H4) Hi. exists el. split; [exact H1|]. split; [lia|]. split; [exact H3|lia]. Qed.

Theorem C61_lines_partial x y width height s s' o A M : ready s -> run start crun b_eqb t x y width height s = Ok (s', o) -> o_cancel o = false ->
  tiling t (to_show t s) (t_index s) (List.length (to_show t s)) A ->
  (forall b, b_eqb b b = true) -> List.length (t_widths t) = t_cols t -> (qsum (t_widths t) == 1)%Q ->
  (forall i c, 0 <= b_width (t_bv t i c) <= M /\ 0 <= b_width (t_bh t i c) <= M)%Q ->
  exists hs segs,
    (* The heights of the rows, and the cells in them. *)
    (o_height o == qsum hs)%Q /\
    (t_index s' = t_index s + List.length hs \/ S (t_index s') = t_index s + List.length hs) /\
    (forall e, In e (o_events o) -> exists k, e_row e = t_index s + k /\ k < List.length hs /\ (e_y e == level hs y k - above t e)%Q) /\
    (* The lines. *)
    let V := visible (to_show t s) (t_index s) (t_index s') A hs in
    Forall2 (drawn (t_index s) (t_index s') hs x y width M) segs (o_lines o) /\
    NoDup (flat_map edges segs) /\
    (forall e, In e (flat_map edges segs) -> V e) /\
    (narrow_cells_short (to_show t s) (t_index s) A -> forall e, V e -> In e (flat_map edges segs)).
Proof.
  intros Hr H Hcan HA Hrefl Hws Hsum Hb.
  assert (Hbv : forall i c, (0 <= b_width (t_bv t i c) <= M)%Q) by (intros; apply Hb).
  assert (Hbh : forall i c, (0 <= b_width (t_bh t i c) <= M)%Q) by (intros; apply Hb).
  destruct (run_cases_full _ _ _ _ _ _ _ _ _ _ _ Hr H) as [[K _]|[_ (recs & r1 & [Hadd Hlines] & Ha)]]; [congruence|].
  destruct (shown_rows _ _ _ _ _ _ _ _ _ Ha) as [Hrows Hlen].
  pose proof (ad_trace _ _ _ _ _ _ _ _ _ _ _ _ Ha) as Ht. pose proof (ad_index _ _ _ _ _ _ _ _ _ _ _ _ Ha) as Hidx.
  pose proof (ad_height _ _ _ _ _ _ _ _ _ _ _ _ Ha) as Hh. pose proof (ad_events _ _ _ _ _ _ _ _ _ _ _ _ Ha) as Hev. pose proof (ad_end _ _ _ _ _ _ _ _ _ _ _ _ Ha) as Hend.
  set (hs := map (@rr_height E W P F) recs). set (Y := level hs y). set (rows := to_show t s) in *. set (base := t_index s) in *. set (m := List.length recs) in *.
  assert (Hhs : List.length hs = m) by apply map_length.
  pose proof (trace_heights _ _ _ _ _ _ _ _ _ _ Ht) as Hth. cbn [empty_run r_height] in Hth.
  destruct (added_step start crun b_eqb t rows base (List.length rows) A HA Hrefl M Hbv Hbh x y width height Hws Hsum Y m recs _ r1 Hadd 0) as (K1 & K2 & K3).
  - exact Hlen.
  - cbn. fold m. lia.
  - rewrite Nat.add_0_r. exact Hidx.
  - intros j rr Hj Hdel. cbn. exact (proj2 (Hrows j rr Hj) Hdel).
  - intros j rr Hj. cbn. exact (proj1 (Hrows j rr Hj)).
  - intros j Hj. cbn [Nat.add empty_run r_height]. unfold Y, level, hs. lra.
  - apply span_inv_empty. reflexivity.
  - split; [cbn; now rewrite repeat_length|]. intros c' Hc'. change (c' <? 0) with false. cbn [empty_run r_vert].
    unfold nth_vert. rewrite nth_repeat_lt by lia. exists (fun _ => false). split; [apply line_inv_nil|intros k Hk; lia].
  - exists []. split; [reflexivity|constructor].
  - cbn [Nat.add] in K1, K2, K3. fold m in K1, K2, K3.
    destruct (last_step b_eqb t rows base A Hrefl M Hbv Hbh x y width Hws Hsum Y m (t_index s') r1 K1 K2 K3) as (lss & bot & vss & E1 & L1 & L2 & L3).
    set (V := visible rows base (t_index s') A hs). set (D := drawn base (t_index s') hs x y width M). set (C := narrow_cells_short rows base A).
    assert (G1 : group D V C (fun e => exists k, In k (seq 0 m) /\ (exists c, e = Above k c /\ c < t_cols t)) (List.concat lss)).
    { apply (group_concat D V C (fun k e => exists c, e = Above k c /\ c < t_cols t)).
      - apply seq_NoDup.
      - intros k k' e (c & -> & _) (c' & [= <- _] & _). reflexivity.
      - assert (Hk : forall k, In k (seq 0 m) -> k < m) by (intros k K; apply in_seq in K; lia).
        clear E1. revert Hk. induction L1 as [|k ls ks lss' HL L1 IH]; intros Hk; constructor; [|apply IH; intros k' K; apply Hk; now right].
        specialize (Hk k (or_introl eq_refl)). destruct HL as (p & (segs & Q1 & Q2) & Q3).
        assert (Ed : flat_map edges (map (fun ab => Hor k (fst ab) (snd ab)) segs) = map (Above k) (filter p (seq 0 (t_cols t)))).
        { rewrite <- Q1, fm_map, map_fm. reflexivity. }
        assert (HV : forall c, c < t_cols t -> (V (Above k c) <-> vis_top t rows base A k c)).
        { intros c Hc. unfold V, visible, on_table, inside_cell, border_of, n_rows, vis_top. rewrite Hhs. replace (k =? m) with false by (symmetry; apply Nat.eqb_neq; lia).
          split; intros K.
          - destruct K as (_ & K4 & K5). split; [|exact K5]. intros (i0 & c0 & J1 & J2 & J3). apply K4. split; [lia|]. exists i0, c0. split; [exact J1|].
            split; [exact (covers_prev_row _ _ _ _ _ _ J3 J2)|exact J3].
          - destruct K as [K4 K5]. split; [lia|]. split; [|exact K5]. intros [Hk0 (i0 & c0 & J1 & J2 & J3)]. apply K4. exists i0, c0. split; [exact J1|]. split; [|exact J3].
            destruct J2 as (el & _ & J4 & _). lia. }
        exists (map (fun ab => Hor k (fst ab) (snd ab)) segs). rewrite Ed. split; [|split; [|split]].
        + try clear E1; clear Q1 Ed. induction Q2 as [|[a b] l segs ls' Hs Q2 IHs]; cbn [map]; [constructor|constructor; [|exact IHs]].
          destruct Hs as (S1 & S2 & S3 & S4 & S5 & S6). cbn [fst snd]. split.
          * intros e He. cbn [edges] in He. apply in_map_iff in He as (c & <- & Hc). apply in_seq in Hc. destruct (S2 c ltac:(lia)) as (bd & T1 & _ & T3).
            unfold border_of, n_rows. rewrite Hhs. replace (k =? m) with false by (symmetry; apply Nat.eqb_neq; lia). injection T1 as <-. exact T3.
          * rewrite !column_X in S5, S6. auto.
        + apply FinFun.Injective_map_NoDup; [intros a b [= ->]; reflexivity|]. apply NoDup_filter, seq_NoDup.
        + intros e He. apply in_map_iff in He as (c & <- & Hc). apply filter_In in Hc as [Hc Hp]. apply in_seq in Hc. split; [exists c; split; [reflexivity|lia]|].
          apply HV; [lia|]. apply (Q3 c); [lia|exact Hp].
        + intros HC e (c & -> & Hc) HVe. apply in_map, filter_In. split; [apply in_seq; lia|]. apply (Q3 c Hc); [exact HC|]. apply HV; assumption. }
    assert (G2 : group D V C (fun e => exists c, e = Above m c /\ c < t_cols t) bot).
    { destruct L2 as (p & (segs & Q1 & Q2) & Q3).
      assert (Ed : flat_map edges (map (fun ab => Hor m (fst ab) (snd ab)) segs) = map (Above m) (filter p (seq 0 (t_cols t)))).
      { rewrite <- Q1, fm_map, map_fm. reflexivity. }
      assert (HV : forall c, c < t_cols t -> (V (Above m c) <-> (0 < b_width (t_bh t (t_index s') c))%Q)).
      { intros c Hc. unfold V, visible, on_table, inside_cell, border_of, n_rows. rewrite Hhs, Nat.eqb_refl. split; [intros (_ & _ & K); exact K|].
        intros K. split; [lia|]. split; [intros [? _]; lia|exact K]. }
      exists (map (fun ab => Hor m (fst ab) (snd ab)) segs). rewrite Ed. split; [|split; [|split]].
      - try clear E1; clear Q1 Ed. induction Q2 as [|[a b] l segs ls' Hs Q2 IHs]; cbn [map]; [constructor|constructor; [|exact IHs]].
        destruct Hs as (S1 & S2 & S3 & S4 & S5 & S6). cbn [fst snd]. split.
        + intros e He. cbn [edges] in He. apply in_map_iff in He as (c & <- & Hc). apply in_seq in Hc. destruct (S2 c ltac:(lia)) as (bd & T1 & _ & T3).
          unfold border_of, n_rows. rewrite Hhs, Nat.eqb_refl. injection T1 as <-. exact T3.
        + rewrite !column_X in S5, S6. auto.
      - apply FinFun.Injective_map_NoDup; [intros a b [= ->]; reflexivity|]. apply NoDup_filter, seq_NoDup.
      - intros e He. apply in_map_iff in He as (c & <- & Hc). apply filter_In in Hc as [Hc Hp]. apply in_seq in Hc. split; [exists c; split; [reflexivity|lia]|].
        apply HV; [lia|]. apply (Q3 c); [lia|exact Hp].
      - intros _ e (c & -> & Hc) HVe. apply in_map, filter_In. split; [apply in_seq; lia|]. apply (Q3 c Hc). apply HV; assumption. }
    assert (G3 : group D V C (fun e => exists c, In c (seq 0 (S (t_cols t))) /\ (exists k, e = Left k c /\ k < m)) (List.concat vss)).
    { apply (group_concat D V C (fun c e => exists k, e = Left k c /\ k < m)).
      - apply seq_NoDup.
      - intros k k' e (c & -> & _) (c' & [= _ <-] & _). reflexivity.
      - assert (Hk : forall c, In c (seq 0 (S (t_cols t))) -> c <= t_cols t) by (intros k K; apply in_seq in K; lia).
        clear E1. revert Hk. induction L3 as [|c ls ks lss' HL L3 IH]; intros Hk; constructor; [|apply IH; intros k' K; apply Hk; now right].
        specialize (Hk c (or_introl eq_refl)). destruct HL as (p & (segs & Q1 & Q2) & Q3).
        assert (Ed : flat_map edges (map (fun ab => Ver c (fst ab) (snd ab)) segs) = map (fun k => Left k c) (filter p (seq 0 m))).
        { rewrite <- Q1, fm_map, map_fm. reflexivity. }
        assert (HV : forall k, k < m -> (V (Left k c) <-> vis_v t rows base A k c)).
        { intros k Hkm. unfold V, visible, on_table, inside_cell, border_of, n_rows, vis_v. rewrite Hhs.
          split; intros K.
          - destruct K as (_ & K4 & K5). split; [|exact K5]. intros Hc (i0 & c0 & J1 & J2 & J3). apply K4. split; [lia|]. exists i0, c0. split; [exact J1|].
            split; [exact (covers_prev_col _ _ _ _ _ _ J3 J2)|exact J3].
          - destruct K as [K4 K5]. split; [lia|]. split; [|exact K5]. intros [Hk0 (i0 & c0 & J1 & J2 & J3)]. apply (K4 ltac:(lia)). exists i0, c0. split; [exact J1|]. split; [|exact J3].
            destruct J2 as (el & _ & _ & _ & J4). lia. }
        exists (map (fun ab => Ver c (fst ab) (snd ab)) segs). rewrite Ed. split; [|split; [|split]].
        + try clear E1; clear Q1 Ed. induction Q2 as [|[a b] l segs ls' Hs Q2 IHs]; cbn [map]; [constructor|constructor; [|exact IHs]].
          destruct Hs as (S1 & S2 & S3 & S4 & S5 & S6). cbn [fst snd]. split.
          * intros e He. cbn [edges] in He. apply in_map_iff in He as (k & <- & Hc). apply in_seq in Hc. destruct (S2 k ltac:(lia)) as (bd & T1 & _ & T3).
            unfold border_of. injection T1 as <-. exact T3.
          * rewrite !column_X in S3, S4. auto.
        + apply FinFun.Injective_map_NoDup; [intros a b [= ->]; reflexivity|]. apply NoDup_filter, seq_NoDup.
        + intros e He. apply in_map_iff in He as (k & <- & Hc). apply filter_In in Hc as [Hc Hp]. apply in_seq in Hc. split; [exists k; split; [reflexivity|lia]|].
          apply HV; [lia|]. apply (Q3 k); [lia|exact Hp].
        + intros HC e (k & -> & Hkm) HVe. apply (in_map (fun k => Left k c)), filter_In. split; [apply in_seq; lia|]. apply (Q3 k Hkm). apply HV; assumption. }
    assert (G12 : group D V C (fun e => (exists k, In k (seq 0 m) /\ (exists c, e = Above k c /\ c < t_cols t)) \/ (exists c, e = Above m c /\ c < t_cols t)) (List.concat lss ++ bot)).
    { apply group_app; [|exact G1|exact G2]. intros e (k & K4 & c & -> & _) (c' & [= -> _] & _); apply in_seq in K4; lia. }
    match goal with G : group D V C ?o1 (_ ++ bot), G' : group D V C ?o2 (List.concat vss) |- _ => assert (Hdis : forall e, o1 e -> o2 e -> False) end.
    { intros e [(k & _ & c & -> & _)|(c & -> & _)] (c' & _ & k' & K5 & _); discriminate. }
    destruct (group_app D V C _ _ _ _ Hdis G12 G3) as (segs & S1 & S2 & S3 & S4).
    exists hs, segs. split; [rewrite Hh, Hth; unfold hs, TableGeom.hs; lra|]. split; [rewrite Hhs; destruct Hend as [(K & _)|(K & _)]; [left|right]; exact K|]. split.
    + intros e He. rewrite Hev, (proj1 (trace_events _ _ _ _ _ _ _ _ _ _ Ht)) in He. cbn [empty_run r_events app] in He.
      apply in_flat_map in He as (rr & Hrr & He). apply in_split in Hrr as (ra & rb & Er).
      assert (Hdel : Forall (fun rr => rr_del rr = false) (tl recs)).
      { destruct recs as [|r0 recs0]; [constructor|]. cbn [tl]. apply Forall_forall. intros rr0 Hin. apply In_nth_error in Hin as (j & Hj).
        destruct (rr_del rr0) eqn:Ed; [|reflexivity]. destruct (Hrows (S j) rr0 Hj) as [_ K]. specialize (K Ed). discriminate. }
      destruct (trace_fits _ _ _ _ _ _ _ _ _ _ Ht Hdel ra rr rb Er) as (y0 & Hy0 & _ & Hf). cbn [empty_run r_height] in Hy0. destruct (Hf e He) as (Ke & _).
      assert (Ke_row : e_row e = rr_index rr) by apply Ke.
      assert (Hi : rr_index rr = base + List.length ra).
      { assert (K : nth_error (map (@rr_index E W P F) recs) (List.length ra) = nth_error (seq base m) (List.length ra)) by (now rewrite Hidx).
        rewrite nth_error_map, Er in K. rewrite nth_error_app2, Nat.sub_diag in K by lia. cbn in K.
        assert (Hl : List.length ra < m) by (unfold m; rewrite Er, app_length; cbn; lia).
        rewrite (nth_error_nth' _ 0) in K by (rewrite seq_length; exact Hl). rewrite seq_nth in K by exact Hl. congruence. }
      exists (List.length ra). split; [congruence|]. split; [rewrite Hhs; unfold m; rewrite Er, app_length; cbn; lia|].
      rewrite <- Ke_row in *. assert (Hy : (e_y e == y - y0 - above t e)%Q) by (destruct Ke as [_ _ _ _ -> _ _ _ _ _]; reflexivity).
      rewrite Hy. unfold level, hs. rewrite Er, map_app, firstn_app, map_length, Nat.sub_diag, firstn_O, app_nil_r.
      rewrite <- (map_length (@rr_height E W P F) ra), firstn_all. rewrite Hy0. unfold TableGeom.hs. lra.
    + cbv zeta. rewrite Hlines, E1. rewrite app_assoc. do 2 (split; [assumption|]). split; [intros e He; apply S3; exact He|].
      intros HC e HVe. apply S4; [exact HC| |exact HVe]. pose proof HVe as [Hon _]. destruct e as [k c|k c]; cbn in Hon; unfold n_rows in Hon; rewrite Hhs in Hon.
      * left. destruct (Nat.eq_dec k m) as [->|Hne]; [right; exists c; split; [reflexivity|lia]|left]. exists k. split; [apply in_seq; lia|]. exists c. split; [reflexivity|lia].
      * right. exists c. split; [apply in_seq; lia|]. exists k. split; [reflexivity|lia].
Qed.
End Lines.
Print Assumptions C61_lines_partial.

(** ** Cases *)
Definition lb : @border nat := mkB 1 0.
Definition lb2 : @border nat := mkB 2 7.
Definition line_table (cols : nat) (rows : list (list (@cell Q unit))) : table Q unit nat :=
  mkTable rows cols (repeat (1 / inject_Z (Z.of_nat cols))%Q cols) (ex_cell 1 1 0)
    (fun _ c => if c =? 1 then lb2 else lb) (fun _ _ => lb) (fun _ _ => None).
(** The table of C46, with borders; the one at the left of the second column is
    not like the others. *)
Definition lt1 := line_table 3 (t_rows t1).
Definition lshow := to_show lt1 (@fresh_table Q unit).
Example C61_applies : exists s' o, run ex_start ex_run Nat.eqb lt1 0 100 300 100 fresh_table = Ok (s', o) /\ o_cancel o = false /\
  tiling lt1 lshow 0 (List.length lshow) A1 /\ narrow_cells_short lt1 lshow 0 A1 /\
  List.length (t_widths lt1) = t_cols lt1 /\ (qsum (t_widths lt1) == 1)%Q /\
  (forall i c, 0 <= b_width (t_bv lt1 i c) <= 2 /\ 0 <= b_width (t_bh lt1 i c) <= 2)%Q /\
  map (fun l => (Qred (l_x1 l), Qred (l_y1 l), Qred (l_x2 l), Qred (l_y2 l))) (o_lines o) =
    [(-1 # 2, 100, 601 # 2, 100); (-1 # 2, 89, 401 # 2, 89); (-1 # 2, 68, 601 # 2, 68);
     (0, 201 # 2, 0, 135 # 2); (100, 179 # 2, 100, 135 # 2); (200, 201 # 2, 200, 135 # 2); (300, 201 # 2, 300, 135 # 2)]%Q.
Proof.
  do 2 eexists. split; [vm_compute; reflexivity|]. split; [reflexivity|]. split; [|split; [|split; [reflexivity|split; [reflexivity|split; [|vm_compute; reflexivity]]]]].
  - split.
    + intros [|[|i]] [|[|[|c]]] H; try discriminate H; eexists; (split; [reflexivity|]); cbn; lia.
    + change (List.length lshow) with 2. change (t_cols lt1) with 3. intros i c Hi Hc.
      assert (Hu : forall i0 c0 i c, A1 i0 c0 = true -> covers lt1 lshow 0 i0 c0 i c ->
        (i0 = 0 /\ c0 = 0 /\ i = 0 /\ c < 2) \/ (i0 = 0 /\ c0 = 2 /\ i <= 1 /\ c = 2) \/ (i0 = 1 /\ c0 = 0 /\ i = 1 /\ c = 0) \/ (i0 = 1 /\ c0 = 1 /\ i = 1 /\ c = 1)).
      { clear. intros [|[|i0]] [|[|[|c0]]] i c HA (el & E1 & E2 & E3 & E4); try discriminate HA; cbn in E1; injection E1 as <-; cbn in E3, E4; lia. }
      assert (Hex : exists i0 c0, A1 i0 c0 = true /\ covers lt1 lshow 0 i0 c0 i c).
      { destruct i as [|[|i]]; [| |lia]; destruct c as [|[|[|c]]]; try lia;
          [exists 0, 0|exists 0, 0|exists 0, 2|exists 1, 0|exists 1, 1|exists 0, 2]; (split; [reflexivity|]); eexists; (split; [reflexivity|]); cbn; lia. }
      destruct Hex as (i0 & c0 & H1 & H2). exists i0, c0. split; [exact H1|]. split; [exact H2|]. intros i1 c1 H3 H4.
      pose proof (Hu _ _ _ _ H1 H2). pose proof (Hu _ _ _ _ H3 H4). lia.
  - left. intros [|[|i]] [|[|[|c]]] el HA He; try discriminate HA; cbn in He; injection He as <-; cbn; lia.
  - intros i c. cbn. destruct (c =? 1); cbn; lra.
Qed.

(** A cell of one column over three rows, and at its right in the second row a
    cell over two columns: the edge above the second of these columns has a
    border and is not inside any cell, but no line goes along it. *)
Definition lt2 := line_table 3 [[ex_cell 1 3 10; ex_cell 1 1 10; ex_cell 1 1 10]; [ex_cell 1 1 10; ex_cell 2 1 10; ex_cell 1 1 10];
  [ex_cell 1 1 10; ex_cell 1 1 10; ex_cell 1 1 10]].
Definition A2 (i c : nat) : bool := match i, c with 0, 0 | 0, 1 | 0, 2 | 1, 1 | 2, 1 | 2, 2 => true | _, _ => false end.
Definition lshow2 := to_show lt2 (@fresh_table Q unit).
Theorem C61_stale_refuted : exists s' o, run ex_start ex_run Nat.eqb lt2 0 100 300 100 fresh_table = Ok (s', o) /\ o_cancel o = false /\
  tiling lt2 lshow2 0 (List.length lshow2) A2 /\
  visible lt2 lshow2 0 (t_index s') A2 [11; 11; 11]%Q (Above 1 2) /\
  map (fun e => (e_row e, e_col e, Qred (e_y e))) (o_events o) = [(0, 0, (199 # 2)%Q); (0, 1, (199 # 2)%Q); (0, 2, (199 # 2)%Q); (1, 1, (177 # 2)%Q); (2, 1, (155 # 2)%Q); (2, 2, (155 # 2)%Q)] /\
  (forall l, In l (o_lines o) -> ~ (l_y1 l == 89 /\ l_y2 l == 89 /\ l_x1 l <= 250 <= l_x2 l)%Q).
Proof.
  assert (Hu : forall i0 c0 i c, A2 i0 c0 = true -> covers lt2 lshow2 0 i0 c0 i c ->
    (i0 = 0 /\ c0 = 0 /\ i <= 2 /\ c = 0) \/ (i0 = 0 /\ c0 = 1 /\ i = 0 /\ c = 1) \/ (i0 = 0 /\ c0 = 2 /\ i = 0 /\ c = 2) \/
    (i0 = 1 /\ c0 = 1 /\ i = 1 /\ 1 <= c <= 2) \/ (i0 = 2 /\ c0 = 1 /\ i = 2 /\ c = 1) \/ (i0 = 2 /\ c0 = 2 /\ i = 2 /\ c = 2)).
  { intros [|[|[|i0]]] [|[|[|c0]]] i c HA (el & E1 & E2 & E3 & E4); try discriminate HA; cbn in E1; injection E1 as <-; cbn in E3, E4; lia. }
  do 2 eexists. split; [vm_compute; reflexivity|]. split; [reflexivity|]. split; [|split; [|split; [vm_compute; reflexivity|]]].
  - split.
    + intros [|[|[|i]]] [|[|[|c]]] H; try discriminate H; eexists; (split; [reflexivity|]); cbn; lia.
    + change (List.length lshow2) with 3. change (t_cols lt2) with 3. intros i c Hi Hc.
      assert (Hex : exists i0 c0, A2 i0 c0 = true /\ covers lt2 lshow2 0 i0 c0 i c).
      { destruct i as [|[|[|i]]]; [| | |lia]; destruct c as [|[|[|c]]]; try lia;
          [exists 0, 0|exists 0, 1|exists 0, 2|exists 0, 0|exists 1, 1|exists 1, 1|exists 0, 0|exists 2, 1|exists 2, 2];
          (split; [reflexivity|]); eexists; (split; [reflexivity|]); cbn; lia. }
      destruct Hex as (i0 & c0 & H1 & H2). exists i0, c0. split; [exact H1|]. split; [exact H2|]. intros i1 c1 H3 H4.
      pose proof (Hu _ _ _ _ H1 H2). pose proof (Hu _ _ _ _ H3 H4). lia.
  - split; [cbn; lia|]. split; [|reflexivity]. intros [_ (i0 & c0 & H1 & H2 & H3)]. pose proof (Hu _ _ _ _ H1 H2). pose proof (Hu _ _ _ _ H1 H3). lia.
  - intros l Hl. cbn in Hl. repeat (destruct Hl as [<-|Hl]; [cbn; intros K; vm_compute in K; intuition discriminate|]). destruct Hl.
Qed.
(** A cell over two columns that is finished, at the left of one that goes on
    in the next page: there the line between the two columns of the finished
    cell is drawn, and in the first page it is not. *)
Definition lt3 := line_table 3 [[ex_cell 2 1 5; ex_cell 1 1 10; ex_cell 1 1 30]].
Theorem C61_continued_refuted : exists s1 o1 s2 o2,
  run ex_start ex_run Nat.eqb lt3 0 100 300 20 fresh_table = Ok (s1, o1) /\ run ex_start ex_run Nat.eqb lt3 0 100 300 80 s1 = Ok (s2, o2) /\
  t_finished s2 = true /\
  (forall l, In l (o_lines o1) -> ~ (l_x1 l == 100 /\ l_x2 l == 100)%Q) /\
  exists l, In l (o_lines o2) /\ (l_x1 l == 100 /\ l_x2 l == 100)%Q.
Proof.
  do 4 eexists. split; [vm_compute; reflexivity|]. split; [vm_compute; reflexivity|]. split; [reflexivity|]. split.
  - intros l Hl. cbn in Hl. repeat (destruct Hl as [<-|Hl]; [cbn; intros K; vm_compute in K; intuition discriminate|]). destruct Hl.
  - cbn [o_lines]. eexists. split; [do 3 right; left; reflexivity|]. split; reflexivity.
Qed.
Print Assumptions C61_stale_refuted.
Print Assumptions C61_continued_refuted.
