(** Tables: properties C42-C46. *)
From Coq Require Import QArith ZArith Lia Lqa Sorted.
From Verif Require Import Py Table TableProofs TableGeom TableSpan TableChain TableHeight.
Open Scope list_scope.
Open Scope nat_scope.

(** ** C44: columns *)
Section Columns.
Context {E W P F B : Type}.
Variable start : E -> res W.
Variable crun : W -> Q -> Q -> Q -> Q -> res (W * Q * bool * list P).
Variable b_eqb : B -> B -> bool.
Variable t : @table E F B.
(** Where column [c] begins, as a part of the width of the table. *)
Definition left_of (c : nat) : Q := qsum (firstn c (t_widths t)).
Lemma sum_widths_ok c n : (sum_widths t 0 c == left_of c)%Q /\ (sum_widths t c (c + n) == left_of (c + n) - left_of c)%Q.
Proof.
  unfold sum_widths, left_of. rewrite Nat.sub_0_r, skipn_O. split; [reflexivity|]. replace (c + n - c) with n by lia.
  generalize (t_widths t) as l. induction c as [|c IH]; intros l; cbn [Nat.add firstn skipn]; [rewrite ?skipn_O; cbn [qsum]; lra|].
  destruct l as [|a l]; [rewrite firstn_nil; cbn [qsum]; lra|]. cbn [qsum]. specialize (IH l). cbn [Nat.add] in IH. lra.
Qed.
Theorem C44_columns cols given ws : 0 < cols -> col_widths cols given = Ok ws ->
  List.length ws = cols /\ (qsum ws == 1)%Q /\
  match given with
  | Some l => List.length l = cols /\ ~ (qsum l == 0)%Q /\ forall i, i < cols -> (nth i ws 0 * qsum l == nth i l 0)%Q
  | None => forall i, i < cols -> (nth i ws 0 * inject_Z (Z.of_nat cols) == 1)%Q
  end.
Proof.
  intros Hc H. destruct (col_widths_ok cols given ws H Hc) as (K1 & K2 & K3). split; [exact K1|]. split; [exact K2|].
  unfold col_widths in H. destruct given as [g|].
  - destruct (List.length g =? cols) eqn:El; [|discriminate]. apply Nat.eqb_eq in El. cbn [negb] in H.
    destruct (Qeq_bool (qsum g) 0) eqn:Es; [discriminate|]. apply Qeq_bool_neq in Es. split; [exact El|]. split; [exact Es|].
    intros i Hi. rewrite (K3 i Hi). field. exact Es.
  - assert (Hn : ~ (inject_Z (Z.of_nat cols) == 0)%Q) by (intros K; change 0%Q with (inject_Z 0) in K; rewrite inject_Z_injective in K; lia).
    intros i Hi. rewrite (K3 i Hi). field. exact Hn.
Qed.
Theorem C44_cells x y width height s s' o : (t_first s = true -> t_delayed s = []) -> run start crun b_eqb t x y width height s = Ok (s', o) ->
  forall e, In e (o_events o) ->
    let col := e_col e in let cs := colspan_of t (e_what e) in let st := style_of t (e_what e) in
    (e_x e == x + left_of col * width + (b_width (t_bv t (e_row e) col) / 2 + m_left st))%Q /\
    (e_x e + e_w e == x + left_of (col + cs) * width - (b_width (t_bv t (e_row e) (col + cs)) / 2 + m_right st))%Q.
Proof.
  intros Hr H e He. cbv zeta.
  assert (Hev : exists index first ya rm, event_of start crun t x width index first ya rm (e_col e) (e_what e) e).
  { destruct (run_cases _ _ _ _ _ _ _ _ _ _ _ Hr H) as [[_ Hc]|[_ (recs & r1 & Ha)]].
    - destruct Hc as (_ & _ & row & r1 & evs & _ & _ & Hs & _ & _ & _ & _ & Hev & _). rewrite Hev in He. do 4 eexists. exact (proj1 (scan_in _ _ _ _ _ _ _ _ _ _ _ _ _ _ _ Hs e He)).
    - destruct Ha as [Ht _ Hev _ _ _ _ _ _ _ _ _ _ _]. rewrite (proj1 (trace_events _ _ _ _ _ _ _ _ _ _ Ht)) in Hev. cbn [empty_run r_events app] in Hev. rewrite Hev in He.
      clear Hev. induction Ht as [|r rr go r1 H1|r rr r1 recs r2 H1 H2 IH]; cbn [flat_map] in He.
      + destruct He.
      + rewrite app_nil_r in He. destruct H1 as [_ (r2 & Hs & _)]. do 4 eexists. exact (proj1 (scan_in _ _ _ _ _ _ _ _ _ _ _ _ _ _ _ Hs e He)).
      + apply in_app_or in He as [He|He]; [|exact (IH He)]. destruct H1 as [_ (r3 & Hs & _)]. do 4 eexists. exact (proj1 (scan_in _ _ _ _ _ _ _ _ _ _ _ _ _ _ _ Hs e He)). }
  destruct Hev as (index & first & ya & rm & [-> _ _ -> _ -> _ _ _ _]). unfold pad_left, pad_right.
  destruct (sum_widths_ok (e_col e) (colspan_of t (e_what e))) as [E1 E2]. rewrite E1, E2. split; [lra|]. ring.
Qed.

(** ** C45: heights *)
(** A row of a run: its height and the cells processed in it. *)
Definition heights (rows : list (Q * list (@event E W P F))) : Q := qsum (map fst rows).
(** Half of the border and the margin, above and below the content of a cell
    that takes [1 + k] rows. *)
Definition above (e : @event E W P F) : Q := pad_top t (e_row e) (e_col e) (e_what e).
Definition below (e : @event E W P F) : Q := pad_bottom t (e_row e) (e_col e) (e_what e).
Theorem C45_rows x y width height s s' o : (t_first s = true -> t_delayed s = []) -> run start crun b_eqb t x y width height s = Ok (s', o) ->
  (o_cancel o = true -> (o_height o == 0)%Q /\ o_parts o = []) /\
  (o_cancel o = false -> exists rows, o_events o = flat_map snd rows /\ (o_height o == heights rows)%Q /\
    forall a h evs b, rows = a ++ (h, evs) :: b ->
      (0 <= h)%Q /\
      (* no row is higher than it has to be *)
      ((h == 0)%Q \/ exists a' h' evs' b' e, a ++ [(h, evs)] = a' ++ (h', evs') :: b' /\ In e evs' /\
         match b' with [] => (rows_left t (e_row e) (e_what e) <= 0)%Z | _ => rows_left t (e_row e) (e_what e) = Z.of_nat (List.length b') end /\
         (heights ((h', evs') :: b') == e_height e + (if qlt 0 (e_height e) then above e + below e else if t_first s && (List.length a' =? 0) then 0 else 4))%Q) /\
      forall e, In e evs -> let left := rows_left t (e_row e) (e_what e) in
        e_row e = t_index s + List.length a /\
        (e_y e == y - heights a - above e)%Q /\ (e_h e == height - heights a - above e - below e)%Q /\
        ((left <= 0)%Z -> (0 < e_height e)%Q -> (e_height e + above e + below e <= h)%Q) /\
        (forall k, left = Z.of_nat (S k) -> S k <= List.length b ->
           (0 < e_height e)%Q -> (e_height e + above e + below e <= h + heights (firstn (S k) b))%Q)).
Proof.
  intros Hr H. destruct (run_cases _ _ _ _ _ _ _ _ _ _ _ Hr H) as [[Hcan Hc]|[Hcan (recs & r1 & Ha)]]; (split; [|congruence]) || (split; [congruence|]); intros _.
  - destruct Hc as (_ & _ & row & r1 & evs & _ & _ & _ & _ & Hp & _ & Hh & _). rewrite Hh, Hp. split; reflexivity.
  - destruct Ha as [Ht _ Hev Hh _ _ Hidx Hf Hcont _ Hfirst _ _ _]. rewrite (proj1 (trace_events _ _ _ _ _ _ _ _ _ _ Ht)) in Hev. cbn [empty_run r_events app] in Hev.
    pose proof (trace_heights _ _ _ _ _ _ _ _ _ _ Ht) as Hhs. cbn [empty_run r_height] in Hhs.
    assert (Hdel : Forall (fun rr => rr_del rr = false) (tl recs)).
    { destruct (t_delayed s) as [|d0 dl] eqn:Ed.
      - specialize (Hf eq_refl). destruct recs as [|rr recs]; [constructor|]. apply Forall_inv_tail in Hf. eapply Forall_impl; [|exact Hf]. intros ? [K _]. exact K.
      - destruct Hcont as (rr & recs' & -> & _ & _ & K); [discriminate|]. cbn. eapply Forall_impl; [|exact K]. intros ? [K' _]. exact K'. }
    pose proof (trace_fits _ _ _ _ _ _ _ _ _ _ Ht Hdel) as Hfits. cbn [empty_run r_height] in Hfits.
    set (f := fun rr : @rowrec E W P F => (rr_height rr, rr_evs rr)).
    assert (Hhf : forall l, heights (map f l) = qsum (hs l)) by (intros l; unfold heights, hs; rewrite map_map; reflexivity).
    exists (map f recs). split; [rewrite Hev; clear; induction recs as [|rr recs IH]; [reflexivity|]; cbn; now rewrite IH|].
    split; [rewrite Hh, Hhs, Hhf; lra|]. intros a h evs b Eab. destruct (map_eq_app _ _ _ _ Eab) as (ra & rb0 & Erec & Era & Erb).
    destruct rb0 as [|rr rb]; [discriminate|]. cbn [map] in Erb. injection Erb as Eh Eevs Erb. subst a b evs h. destruct (Hfits _ _ _ Erec) as (y0 & Hy0 & Hfit1 & Hfit2).
    split; [exact Hfit1|]. split.
    { destruct (trace_tight _ _ _ _ _ _ _ _ _ _ Ht [] (fun c k w K => ltac:(discriminate K))) with (a := ra) (rr := rr) (b := rb) as [K|K]; [|exact Erec|left; exact K|right].
      - destruct recs as [|r0 recs0]; [exact I|]. split; [intros _ c; reflexivity|]. exact Hdel.
      - destruct K as (a1 & rr1 & b1 & e & E1 & E2 & E3 & E4). cbn [app] in E1.
        assert (Erec1 : recs = a1 ++ rr1 :: b1 ++ rb).
        { rewrite Erec. change (rr :: rb) with ([rr] ++ rb). rewrite app_assoc, E1, <- app_assoc. reflexivity. }
        assert (Hev1 : e_need e = (e_height e + (if qlt 0 (e_height e) then above e + below e else if rr_first rr1 then 0 else 4))%Q /\ e_row e = rr_index rr1).
        { destruct (Hfits _ _ _ Erec1) as (y1 & _ & _ & Hf1). destruct (Hf1 e E2) as (Ke & _). unfold above, below.
          destruct Ke as [-> _ _ _ _ _ _ _ _ ->]. split; reflexivity. }
        destruct Hev1 as [Hneed1 Hrow1].
        assert (Hfst : rr_first rr1 = (t_first s && (List.length (map f a1) =? 0))%bool).
        { rewrite Erec1 in Hfirst. rewrite map_app in Hfirst. cbn [map] in Hfirst. rewrite map_length. destruct a1 as [|r0 a1]; cbn [map app List.length] in *.
          - injection Hfirst as -> _. cbn. now rewrite andb_true_r.
          - injection Hfirst as _ Hfirst. cbn. rewrite andb_false_r. clear -Hfirst.
            assert (K : In (rr_first rr1) (repeat false (List.length (a1 ++ rr1 :: b1 ++ rb)))) by (rewrite <- Hfirst; apply in_or_app; right; left; reflexivity).
            exact (repeat_spec _ _ _ K). }
        exists (map f a1), (rr_height rr1), (rr_evs rr1), (map f b1), e.
        split; [change [(rr_height rr, rr_evs rr)] with (map f [rr]); rewrite <- map_app, E1, map_app; reflexivity|]. split; [exact E2|].
        rewrite Hrow1, map_length. split; [destruct b1; exact E3|].
        rewrite <- Hfst, <- Hneed1. change ((rr_height rr1, rr_evs rr1) :: map f b1) with (map f (rr1 :: b1)). rewrite Hhf. symmetry. exact E4. }
    intros e He. destruct (Hfit2 e He) as (Ke & K1 & K2). cbv zeta.
    assert (Hrow : e_row e = rr_index rr) by apply Ke.
    assert (Hi : rr_index rr = t_index s + List.length ra).
    { assert (K : nth_error (map (@rr_index E W P F) recs) (List.length ra) = nth_error (seq (t_index s) (List.length recs)) (List.length ra)) by (now rewrite Hidx).
      rewrite nth_error_map, Erec in K. rewrite nth_error_app2, Nat.sub_diag in K by lia. cbn in K.
      assert (Hl : List.length ra < List.length recs) by (rewrite Erec, app_length; cbn; lia).
      rewrite (nth_error_nth' _ 0) in K by (rewrite seq_length, <- Erec; exact Hl). rewrite seq_nth in K by (rewrite <- Erec; exact Hl). congruence. }
    rewrite <- Hrow in *. assert (Hneed : e_need e = (e_height e + (if qlt 0 (e_height e) then above e + below e else if rr_first rr then 0 else 4))%Q).
    { destruct Ke as [_ _ _ _ _ _ _ _ _ ->]. reflexivity. }
    assert (Hy : (e_y e == y - y0 - above e)%Q) by (destruct Ke as [_ _ _ _ -> _ _ _ _ _]; reflexivity).
    assert (Hhh : (e_h e == height - y0 - (above e + below e))%Q) by (destruct Ke as [_ _ _ _ _ _ -> _ _ _]; reflexivity).
    rewrite map_length, Hhf. split; [congruence|]. split; [rewrite Hy, Hy0; lra|]. split; [rewrite Hhh, Hy0; lra|]. split.
    + intros Hz Hpos. specialize (K1 Hz). rewrite Hneed in K1. assert (Eq : qlt 0 (e_height e) = true) by (apply qlt_true; exact Hpos). rewrite Eq in K1. lra.
    + intros k Hk Hl Hpos. rewrite map_length in Hl. specialize (K2 k Hk Hl). rewrite Hneed in K2. rewrite firstn_map, Hhf.
      assert (Eq : qlt 0 (e_height e) = true) by (apply qlt_true; exact Hpos). rewrite Eq in K2. lra.
Qed.
End Columns.

(** ** C46: spans *)
Section Spans.
Context {E W P F B : Type}.
Variable start : E -> res W.
Variable crun : W -> Q -> Q -> Q -> Q -> res (W * Q * bool * list P).
Variable b_eqb : B -> B -> bool.
Variable t : @table E F B.
(** The rows that a run adds, as long as there is room: first those that are to
    be continued, with blank cells for the others. *)
Definition to_show (s : @tstate W F) : list (list (@incell E W F)) :=
  match t_delayed s with
  | [] => map (map New) (skipn (t_index s) (t_rows t))
  | d => delayed_row t d :: map (map New) (skipn (S (t_index s)) (t_rows t))
  end.
(** If the cells at the positions [A] tile the rows, those are the ones that
    are processed, from left to right and from top to bottom. *)
Theorem C46_cells x y width height s s' o A : ready s -> run start crun b_eqb t x y width height s = Ok (s', o) -> o_cancel o = false ->
  tiling t (to_show s) (t_index s) (List.length (to_show s)) A ->
  exists n, n <= List.length (to_show s) /\ t_index s' <= t_index s + n <= S (t_index s') /\
    map (fun e => (e_row e, e_col e)) (o_events o) =
    flat_map (fun i => map (fun c => (t_index s + i, c)) (filter (A i) (seq 0 (t_cols t)))) (seq 0 n).
Proof.
  intros Hr H Hcan HA. destruct (run_cases _ _ _ _ _ _ _ _ _ _ _ Hr H) as [[K _]|[_ (recs & r1 & Ha)]]; [congruence|].
  destruct Ha as [Ht _ Hev _ _ _ Hidx Hf Hc _ _ _ Hend _]. exists (List.length recs).
  assert (Hrows : forall j rr, nth_error recs j = Some rr -> nth_error (to_show s) j = Some (rr_row rr) /\ (rr_del rr = true -> j = 0)).
  { assert (Hcont : forall lo (l : list (@rowrec E W P F)), map (@rr_index E W P F) l = seq lo (List.length l) -> Forall (content_row t) l ->
      forall j rr, nth_error l j = Some rr -> nth_error (map (map New) (skipn lo (t_rows t))) j = Some (rr_row rr) /\ rr_del rr = false).
    { intros lo l Hl Hl2 j rr Hj. pose proof (proj1 (Forall_forall _ _) Hl2 rr (nth_error_In _ _ Hj)) as [K1 (row & K2 & K3)]. split; [|exact K1].
      assert (K4 : nth_error (map (@rr_index E W P F) l) j = nth_error (seq lo (List.length l)) j) by (now rewrite Hl).
      assert (Hjl : j < List.length l) by (apply nth_error_Some; congruence).
      rewrite nth_error_map, Hj, (nth_error_nth' _ 0) in K4 by (rewrite seq_length; exact Hjl). rewrite seq_nth in K4 by exact Hjl. cbn in K4. injection K4 as K4.
      rewrite nth_error_map, nth_skipn, <- K4, K2. cbn. now rewrite K3. }
    unfold to_show. destruct (t_delayed s) as [|d0 dl] eqn:Ed.
    - specialize (Hf eq_refl). intros j rr Hj. destruct (Hcont _ _ Hidx Hf j rr Hj) as [K1 K2]. split; [exact K1|congruence].
    - destruct Hc as (rr0 & recs' & -> & K1 & K2 & K3); [discriminate|]. cbn [map List.length seq] in Hidx. injection Hidx as _ Hidx.
      intros [|j] rr Hj; cbn in Hj; [injection Hj as <-; split; [cbn; now rewrite K2|reflexivity]|].
      destruct (Hcont _ _ Hidx K3 j rr Hj) as [Q1 Q2]. split; [exact Q1|congruence]. }
  assert (Hlen : List.length recs <= List.length (to_show s)).
  { destruct recs as [|rr0 recs'] eqn:E0; [cbn; lia|]. rewrite <- E0 in *. assert (Hl : 0 < List.length recs) by (rewrite E0; cbn; lia).
    destruct (nth_error recs (List.length recs - 1)) as [rr|] eqn:En; [|apply nth_error_None in En; lia]. destruct (Hrows _ _ En) as [K _].
    assert (List.length recs - 1 < List.length (to_show s)) by (apply nth_error_Some; congruence). lia. }
  split; [exact Hlen|]. split; [destruct Hend as [(K & _)|(K & _)]; lia|].
  rewrite Hev, (proj1 (trace_events _ _ _ _ _ _ _ _ _ _ Ht)). cbn [empty_run r_events app].
  refine (trace_positions start crun t (to_show s) (t_index s) _ A HA x y width height recs 0 _ _ Ht Hlen _ _ _ _).
  - rewrite Nat.add_0_r. exact Hidx.
  - intros j rr Hj Hdel. cbn. exact (proj2 (Hrows j rr Hj) Hdel).
  - intros j rr Hj. cbn. exact (proj1 (Hrows j rr Hj)).
  - apply span_inv_empty. reflexivity.
Qed.

(** ** C43: rows in order, cells continued *)
Theorem C43_partial rects l : 0 < t_cols t -> runs start crun b_eqb t fresh_table rects = Ok l ->
  let evs := all_events l in let sl := last_state fresh_table l in
  (* Each cell shows what it holds, from where it was left. *)
  (forall e, In e evs -> begins start t (e_what e) = Ok (e_in e) /\
     crun (e_in e) (e_x e) (e_y e) (e_w e) (e_h e) = Ok (e_out e, e_height e, e_fin e, e_parts e) /\
     forall c, e_what e = New c -> exists row, nth_error (t_rows t) (e_row e) = Some row /\ nth_error row (e_col e) = Some c) /\
  (* In each column, a cell that is not finished comes next. *)
  (forall c, chained t None (at_col c evs) (nget c (t_delayed sl))) /\
  (* What is drawn is what the cells draw, except in a run that is cancelled. *)
  (forall so, In so l -> o_parts (snd so) = if o_cancel (snd so) then [] else flat_map (@e_parts E W P F) (o_events (snd so))) /\
  (no_cancel l ->
     (* Cells are begun in order, once. *)
     StronglySorted lt_pos (begun evs) /\
     (* When the table is finished each place was taken, and nothing is pending. *)
     (t_finished sl = true -> t_delayed sl = [] /\ forall i c, i < List.length (t_rows t) -> c < t_cols t ->
        In (i, c) (begun evs) \/ exists so e, In so l /\ In e (o_events (snd so)) /\ takes t e i c)).
Proof.
  intros Hc H. cbv zeta. assert (Hr : ready (@fresh_table W F)) by (intros _; reflexivity). split; [|split; [|split]].
  - exact (runs_events start crun b_eqb t rects fresh_table l Hr H).
  - intros c. exact (runs_chain start crun b_eqb t rects fresh_table l Hr H c).
  - exact (runs_parts start crun b_eqb t rects fresh_table l Hr H).
  - intros Hn. destruct (runs_placed start crun b_eqb t Hc rects fresh_table l Hr eq_refl H Hn) as (K1 & K2 & K3 & K4 & K5). split; [exact K2|].
    intros Hf. destruct (K5 Hf) as [K6 K7]. split; [exact K7|]. intros i c Hi Hci. apply K4; [|exact Hci]. rewrite K6. unfold next_row at 1. cbn. lia.
Qed.

(** ** C42: checkpoints *)
Theorem C42_restore_partial (s s' : @tstate W F) : let '(i, d) := get_state s in
  let r := set_state (Some i) (Some d) s' in
  t_index r = t_index s /\ t_first r = t_first s' /\ t_finished r = t_finished s' /\ t_delayed r = t_delayed s' /\
  t_delayed (set_state None (Some d) s') = t_delayed s.
Proof. cbn. repeat split. Qed.
End Spans.

(** ** Cases *)
(** Contents that are a height to fill; what is drawn are the heights. *)
Definition ex_start (q : Q) : res Q := Ok q.
Definition ex_run (q x y w h : Q) : res (Q * Q * bool * list Q) :=
  if Qle_bool q h then Ok (0%Q, q, true, [q]) else let d := if Qle_bool 0 h then Qred h else 0%Q in Ok (Qred (q - d)%Q, d, false, [d]).
Definition ex_style : @cstyle unit := mkCS 0 0 0 0 None.
Definition ex_cell (cs rs : nat) (q : Q) : @cell Q unit := mkCell cs rs ex_style q.
Definition ex_border : @border unit := mkB 0 tt.
Definition ex_eqb (a b : unit) : bool := true.
Definition ex_table (cols : nat) (rows : list (list (@cell Q unit))) : table Q unit unit :=
  mkTable rows cols (repeat (1 / inject_Z (Z.of_nat cols))%Q cols) (ex_cell 1 1 0) (fun _ _ => ex_border) (fun _ _ => ex_border) (fun _ _ => None).
Notation ex_runs := (runs ex_start ex_run ex_eqb).

(** Three columns: a cell over two columns, one over two rows. *)
Definition t1 := ex_table 3 [[ex_cell 2 1 10; ex_cell 1 1 5; ex_cell 1 2 30]; [ex_cell 1 1 20; ex_cell 1 1 8; ex_cell 1 1 5]].
Definition A1 (i c : nat) : bool := match i, c with 0, 0 | 0, 2 | 1, 0 | 1, 1 => true | _, _ => false end.
Definition ex_show := to_show t1 (@fresh_table Q unit).
Example C46_cells_applies : exists s' o, run ex_start ex_run ex_eqb t1 0 100 300 100 fresh_table = Ok (s', o) /\ o_cancel o = false /\
  tiling t1 (ex_show) 0 (List.length (ex_show)) A1 /\
  map (fun e => (e_row e, e_col e)) (o_events o) = [(0, 0); (0, 2); (1, 0); (1, 1)] /\ t_finished s' = true.
Proof.
  do 2 eexists. split; [vm_compute; reflexivity|]. split; [reflexivity|]. split; [|split; reflexivity]. split.
  - intros [|[|i]] [|[|[|c]]] H; try discriminate H; eexists; (split; [reflexivity|]); cbn; lia.
  - change (List.length (ex_show)) with 2. change (t_cols t1) with 3. intros i c Hi Hc.
    assert (Hu : forall i0 c0 i c, A1 i0 c0 = true -> covers t1 (ex_show) 0 i0 c0 i c ->
      (i0 = 0 /\ c0 = 0 /\ i = 0 /\ c < 2) \/ (i0 = 0 /\ c0 = 2 /\ i <= 1 /\ c = 2) \/ (i0 = 1 /\ c0 = 0 /\ i = 1 /\ c = 0) \/ (i0 = 1 /\ c0 = 1 /\ i = 1 /\ c = 1)).
    { clear. intros [|[|i0]] [|[|[|c0]]] i c HA (el & E1 & E2 & E3 & E4); try discriminate HA; cbn in E1; injection E1 as <-; cbn in E3, E4; lia. }
    assert (Hex : exists i0 c0, A1 i0 c0 = true /\ covers t1 (ex_show) 0 i0 c0 i c).
    { destruct i as [|[|i]]; [| |lia]; destruct c as [|[|[|c]]]; try lia;
        [exists 0, 0|exists 0, 0|exists 0, 2|exists 1, 0|exists 1, 1|exists 0, 2]; (split; [reflexivity|]); eexists; (split; [reflexivity|]); cbn; lia. }
    destruct Hex as (i0 & c0 & H1 & H2). exists i0, c0. split; [exact H1|]. split; [exact H2|]. intros i1 c1 H3 H4.
    pose proof (Hu _ _ _ _ H1 H2). pose proof (Hu _ _ _ _ H3 H4). lia.
Qed.
Example C44_applies : col_widths 3 (Some [1; 2; 1]%Q) = Ok [1 / 4; 2 / 4; 1 / 4]%Q.
Proof. reflexivity. Qed.
Example C45_applies : exists s' o, run ex_start ex_run ex_eqb t1 0 100 300 100 fresh_table = Ok (s', o) /\ o_cancel o = false /\
  (o_height o == 30)%Q /\ map (@e_height Q Q Q unit) (o_events o) = [10; 30; 20; 8]%Q.
Proof. do 2 eexists. split; [vm_compute; reflexivity|]. repeat split. Qed.
(** Over three pages. *)
Example C43_applies : exists l, ex_runs t1 fresh_table [(0, 100, 300, 8); (0, 100, 300, 15); (0, 100, 300, 100)]%Q = Ok l /\ no_cancel l /\
  t_finished (last_state fresh_table l) = true /\ List.length l = 3 /\
  map (fun e => (e_row e, e_col e, e_height e, e_fin e)) (at_col 2 (all_events l)) =
    [(0, 2, 8%Q, false); (0, 2, 15%Q, false); (1, 2, 7%Q, true)].
Proof.
  eexists. split; [vm_compute; reflexivity|]. split; [|split; [reflexivity|split; reflexivity]].
  intros so [<-|[<-|[<-|[]]]]; reflexivity.
Qed.

(** ** What does not hold *)
(** C42: the cells that are to be continued are not restored (table.py 246-249
    has [elif]): one run, a checkpoint, another run; going back to the
    checkpoint and running again, the second half of the cell is not shown. *)
Definition t2 := ex_table 1 [[ex_cell 1 1 20]; [ex_cell 1 1 5]].
Theorem C42_restore_refuted : exists s1 o1 s2 o2 s3 o3,
  run ex_start ex_run ex_eqb t2 0 100 300 12 fresh_table = Ok (s1, o1) /\ run ex_start ex_run ex_eqb t2 0 100 300 50 s1 = Ok (s2, o2) /\
  let back := set_state (Some (fst (get_state s1))) (Some (snd (get_state s1))) s2 in
  t_delayed back <> t_delayed s1 /\
  run ex_start ex_run ex_eqb t2 0 100 300 50 back = Ok (s3, o3) /\ o_parts o2 = [8; 5]%Q /\ o_parts o3 = [20; 5]%Q.
Proof. do 6 eexists. split; [vm_compute; reflexivity|]. split; [vm_compute; reflexivity|]. cbv zeta. split; [discriminate|]. split; [vm_compute; reflexivity|]. split; reflexivity. Qed.
(** C43: a first row where only cells over several rows show something is
    cancelled: what they showed is dropped, and not shown later. *)
Definition t3 := ex_table 2 [[ex_cell 1 2 20; ex_cell 1 2 10]; [ex_cell 1 1 5; ex_cell 1 1 5]].
Theorem C43_cancel_refuted : exists l, ex_runs t3 fresh_table [(0, 100, 300, 12); (0, 100, 300, 100)]%Q = Ok l /\
  t_finished (last_state fresh_table l) = true /\ map (fun so => o_cancel (snd so)) l = [true; false] /\
  map (@e_parts Q Q Q unit) (all_events l) = [[12]; [10]; [8]; [0]; [5]]%Q /\
  map (fun so => o_parts (snd so)) l = [[]; [8; 0; 5]]%Q.
Proof. eexists. split; [vm_compute; reflexivity|]. repeat split. Qed.
(** C46: after a page break the rows that a finished cell still covers are
    forgotten: the cell below it (in the second row, first column) is
    processed. *)
Definition t4 := ex_table 2 [[ex_cell 1 2 5; ex_cell 1 1 20]; [ex_cell 1 1 7; ex_cell 1 1 5]].
Theorem C46_page_break_refuted : exists l, ex_runs t4 fresh_table [(0, 100, 300, 12); (0, 100, 300, 100)]%Q = Ok l /\
  t_finished (last_state fresh_table l) = true /\ no_cancel l /\
  map (fun e => (e_row e, e_col e)) (all_events l) = [(0, 0); (0, 1); (0, 0); (0, 1); (1, 0); (1, 1)] /\
  exists e so, In so l /\ In e (o_events (snd so)) /\ takes t4 e 1 0 /\ (e_row e, e_col e) = (0, 0).
Proof.
  eexists. split; [vm_compute; reflexivity|]. split; [reflexivity|]. split; [intros so [<-|[<-|[]]]; reflexivity|]. split; [reflexivity|].
  do 2 eexists. split; [left; reflexivity|]. cbn [snd o_events]. split; [left; reflexivity|]. split; [|reflexivity]. unfold takes. cbn. lia.
Qed.

Print Assumptions C42_restore_partial.
Print Assumptions C42_restore_refuted.
Print Assumptions C43_partial.
Print Assumptions C43_cancel_refuted.
Print Assumptions C44_columns.
Print Assumptions C44_cells.
Print Assumptions C45_rows.
Print Assumptions C46_cells.
Print Assumptions C46_page_break_refuted.
