(** Tables: the colours behind the cells (property C62). *)
From Coq Require Import QArith ZArith Lia Lqa.
From Verif Require Import Py Table TableProofs TableGeom TableSpan TableChain TableFills PTable PLines.
Open Scope list_scope.
Open Scope nat_scope.

Section Fills.
Context {E W P F B : Type}.
Variable start : E -> res W.
Variable crun : W -> Q -> Q -> Q -> Q -> res (W * Q * bool * list P).
Variable b_eqb : B -> B -> bool.
Variable t : @table E F B.

(** ** Specification *)
Section Spec.
(** The rows of the run, the number of the first one, the heights. *)
Variable rows : list (list (@incell E W F)).
Variable base : nat.
Variable hs : list Q.
(** The colour of a cell: its own, or the one the table has for its place. *)
Definition colour (i c : nat) (el : @incell E W F) : option F :=
  match s_fill (style_of t el) with Some f => Some f | None => t_fills t (base + i) c end.
Definition coloured (i c : nat) : Prop := exists el, at_pos rows i c = Some el /\ colour i c el <> None.
(** The row after the last one that the cell takes. *)
Definition after (i : nat) (el : @incell E W F) : nat := i + 1 + Z.to_nat (rows_left t (base + i) el).
(** The rectangle has the colour of the cell and goes over its columns and over
    its rows in this run. *)
Definition filled (x y width : Q) (ic : nat * nat) (f : @fill F) : Prop :=
  let '(i, c) := ic in exists el, at_pos rows i c = Some el /\ colour i c el = Some (f_color f) /\
  (f_x f == column t x width c)%Q /\ (f_x f + f_w f == column t x width (c + colspan_of t el))%Q /\
  (f_y f == level hs y (Nat.min (after i el) (List.length hs)))%Q /\ (f_y f + f_h f == level hs y i)%Q.
End Spec.

(** ** Proof *)
Theorem C62_fills_partial x y width height s s' o A : ready s -> run start crun b_eqb t x y width height s = Ok (s', o) -> o_cancel o = false ->
  tiling t (to_show t s) (t_index s) (List.length (to_show t s)) A ->
  exists hs cells,
    (o_height o == qsum hs)%Q /\
    (t_index s' = t_index s + List.length hs \/ S (t_index s') = t_index s + List.length hs) /\
    (forall e, In e (o_events o) -> exists k, e_row e = t_index s + k /\ k < List.length hs /\ (e_y e == level hs y k - above t e)%Q) /\
    Forall2 (filled (to_show t s) (t_index s) hs x y width) cells (o_fills o) /\
    NoDup cells /\
    (forall i c, In (i, c) cells -> A i c = true /\ i < List.length hs /\ coloured (to_show t s) (t_index s) i c) /\
    (* all of them, but a cell with more rows than the table has left *)
    (forall i c, A i c = true -> c < t_cols t -> i < List.length hs -> coloured (to_show t s) (t_index s) i c ->
       In (i, c) cells \/
       (t_index s' = t_index s + List.length hs /\ exists el, at_pos (to_show t s) i c = Some el /\ List.length hs < after (t_index s) i el)).
Proof.
  intros Hr H Hcan HA.
  destruct (run_cases _ _ _ _ _ _ _ _ _ _ _ Hr H) as [[K _]|[_ (recs & r1 & Ha)]]; [congruence|].
  destruct (shown_rows _ _ _ _ _ _ _ _ _ _ _ _ Ha) as [Hrows Hlen].
  pose proof (ad_trace _ _ _ _ _ _ _ _ _ _ _ _ Ha) as Ht. pose proof (ad_index _ _ _ _ _ _ _ _ _ _ _ _ Ha) as Hidx.
  pose proof (ad_height _ _ _ _ _ _ _ _ _ _ _ _ Ha) as Hh. pose proof (ad_events _ _ _ _ _ _ _ _ _ _ _ _ Ha) as Hev. pose proof (ad_end _ _ _ _ _ _ _ _ _ _ _ _ Ha) as Hend.
  pose proof (ad_fills _ _ _ _ _ _ _ _ _ _ _ _ Ha) as Hfl.
  set (hs := map (@rr_height E W P F) recs). set (Y := level hs y). set (rows := to_show t s) in *. set (base := t_index s) in *. set (m := List.length recs) in *.
  assert (Hhs : List.length hs = m) by apply map_length.
  pose proof (trace_heights _ _ _ _ _ _ _ _ _ _ Ht) as Hth. cbn [empty_run r_height] in Hth.
  assert (HD : (can_go t r1 = true \/ m = 0 -> dinv t rows base x width Y m (over t rows base A m) r1) /\
               (can_go t r1 = false -> 0 < m -> dinv t rows base x width Y m (begun t rows base A m) r1)).
  { destruct (Nat.eq_dec m 0) as [Hm0|Hm0].
    - assert (Hn : forall r, trace start crun t x y width height r recs r1 -> r1 = r) by (intros r K; inversion K; subst; [reflexivity|cbn in m; unfold m in Hm0; lia|cbn in m; unfold m in Hm0; lia]).
      split; [|lia]. intros _. rewrite Hm0. apply Hn in Ht. rewrite Ht. apply dinv_empty. reflexivity.
    -
      assert (K : if can_go t r1 then dinv t rows base x width Y m (over t rows base A m) r1 else dinv t rows base x width Y m (begun t rows base A m) r1).
      { apply (trace_fills start crun t rows base (List.length rows) A HA x y width height Y m recs 0 _ r1 Ht).
        - intros K. apply Hm0. unfold m. now rewrite K.
        - exact Hlen.
        - reflexivity.
        - rewrite Nat.add_0_r. exact Hidx.
        - intros j rr Hj Hdel. cbn. exact (proj2 (Hrows j rr Hj) Hdel).
        - intros j rr Hj. cbn. exact (proj1 (Hrows j rr Hj)).
        - unfold Y, level. cbn. lra.
        - intros j rr Hj. cbn [Nat.add]. unfold Y, level.
          assert (K : nth_error hs j = Some (rr_height rr)) by (unfold hs; rewrite nth_error_map, Hj; reflexivity).
          clear -K. revert j K. induction hs as [|a l IH]; intros [|j] K; try discriminate; cbn [nth_error] in K.
          + injection K as ->. cbn. lra.
          + specialize (IH j K). change (firstn (S (S j)) (a :: l)) with (a :: firstn (S j) l). change (firstn (S j) (a :: l)) with (a :: firstn j l). cbn [qsum]. lra.
        - apply span_inv_empty. reflexivity.
        - apply finv_empty. reflexivity.
        - apply dinv_empty. reflexivity. }
      split; [intros [Hg|Hg]; [rewrite Hg in K; exact K|contradiction]|intros Hg _; rewrite Hg in K; exact K]. }
  assert (Hfin : exists cells, NoDup cells /\ Forall2 (rect t rows base x width Y m) cells (r_fills r1) /\
    (forall i c, In (i, c) cells -> begun t rows base A m i c) /\
    (forall i c, begun t rows base A m i c -> In (i, c) cells \/ (t_index s' = base + m /\ exists el, at_pos rows i c = Some el /\ m < after base i el))).
  { assert (Hsub : forall i c, over t rows base A m i c -> begun t rows base A m i c).
    { intros i c (K1 & K2 & el & K3 & K4 & K5). split; [exact K1|]. split; [exact K2|]. split; [unfold reach in K5; lia|eauto]. }
    destruct Hend as [(K1 & _ & K2)|(K1 & K2)].
    - assert (Hg : can_go t r1 = true \/ m = 0).
      { destruct (Nat.eq_dec m 0) as [Hm0|Hm0]; [now right|left]. destruct K2 as (rr & r0 & recs' & _ & _ & K2); [intros K; apply Hm0; unfold m; now rewrite K|]. symmetry. exact (can_go_row start crun t x y width height _ _ _ _ K2). }
      destruct (proj1 HD Hg) as (cells & D1 & D2 & D3). exists cells. split; [exact D1|]. split; [exact D2|]. split; [intros i c K; apply Hsub, D3, K|].
      intros i c (Q1 & Q2 & Q3 & el & Q4 & Q5). destruct (le_lt_dec m (reach t base i el)) as [Hge|Hlt].
      + right. split; [exact K1|]. exists el. split; [exact Q4|]. unfold after. unfold reach in Hge. lia.
      + left. apply D3. split; [exact Q1|]. split; [exact Q2|]. eauto.
    - destruct K2 as (rr & r0 & recs' & Er & _ & K2). assert (Hm : 0 < m) by (unfold m; rewrite Er, app_length; cbn; lia).
      assert (Hg : can_go t r1 = false) by (symmetry; exact (can_go_row start crun t x y width height _ _ _ _ K2)).
      destruct (proj2 HD Hg Hm) as (cells & D1 & D2 & D3). exists cells. split; [exact D1|]. split; [exact D2|]. split; [intros i c K; apply D3, K|]. intros i c K. left. apply D3, K. }
  destruct Hfin as (cells & D1 & D2 & D3 & D4). exists hs, cells. rewrite Hhs. split; [rewrite Hh, Hth; unfold hs, TableGeom.hs; lra|].
  split; [destruct Hend as [(K & _)|(K & _)]; [left|right]; exact K|]. split; [|split; [|split; [exact D1|split]]].
  - intros e He. rewrite Hev, (proj1 (trace_events _ _ _ _ _ _ _ _ _ _ Ht)) in He. cbn [empty_run r_events app] in He.
    apply in_flat_map in He as (rr & Hrr & He). apply in_split in Hrr as (ra & rb & Er).
    assert (Hdel : Forall (fun rr => rr_del rr = false) (tl recs)).
    { destruct recs as [|r0 recs0]; [constructor|]. cbn [tl]. apply Forall_forall. intros rr0 Hin. apply In_nth_error in Hin as (j & Hj).
      destruct (rr_del rr0) eqn:Ed; [|reflexivity]. destruct (Hrows (S j) rr0 Hj) as [_ K]. specialize (K Ed). discriminate. }
    destruct (trace_fits _ _ _ _ _ _ _ _ _ _ Ht Hdel ra rr rb Er) as (y0 & Hy0 & _ & Hf). cbn [empty_run r_height] in Hy0. destruct (Hf e He) as (Ke & _).
    assert (Ke_row : e_row e = rr_index rr) by apply Ke.
    assert (Hi : rr_index rr = base + List.length ra).
    { assert (K : nth_error (map (@rr_index E W P F) recs) (List.length ra) = nth_error (seq base m) (List.length ra)) by (now rewrite Hidx).
      rewrite nth_error_map, Er in K. rewrite nth_error_app2, Nat.sub_diag in K by lia. cbn in K.
      assert (Hl : List.length ra < m) by (unfold m; rewrite Er, app_length; cbn; lia).
      rewrite (nth_error_nth' _ 0) in K by (rewrite seq_length; exact Hl). rewrite seq_nth in K by exact Hl. congruence. }
    exists (List.length ra). split; [congruence|]. split; [unfold m; rewrite Er, app_length; cbn; lia|].
    rewrite <- Ke_row in *. assert (Hy : (e_y e == y - y0 - above t e)%Q) by (destruct Ke as [_ _ _ _ -> _ _ _ _ _]; reflexivity).
    rewrite Hy. unfold level, hs. rewrite Er, map_app, firstn_app, map_length, Nat.sub_diag, firstn_O, app_nil_r.
    rewrite <- (map_length (@rr_height E W P F) ra), firstn_all. rewrite Hy0. unfold TableGeom.hs. lra.
  - rewrite Hfl. clear -D2 Hhs. induction D2 as [|[i c] f cells fs D D2 IH]; constructor; [|exact IH].
    destruct D as (el & Q1 & Q2 & Q3 & Q4 & Q5 & Q6). exists el. split; [exact Q1|]. split; [exact Q2|].
    pose proof (proj1 (sum_widths_ok t c 0)) as S1. pose proof (proj2 (sum_widths_ok t c (colspan_of t el))) as S2. rewrite S1 in Q3. rewrite S2 in Q4.
    replace (after base i el) with (S (reach t base i el)) by (unfold after, reach; lia). rewrite Hhs. unfold column.
    split; [exact Q3|]. split; [rewrite Q3, Q4; ring|]. split; [exact Q5|]. rewrite Q5, Q6. unfold Y. ring.
  - intros i c K. destruct (D3 i c K) as (Q1 & Q2 & Q3 & el & Q4 & Q5). split; [exact Q1|]. split; [exact Q3|]. exists el. auto.
  - intros i c Q1 Q2 Q3 (el & Q4 & Q5). apply D4. split; [exact Q1|]. split; [exact Q2|]. split; [exact Q3|]. exists el. auto.
Qed.
End Fills.
Print Assumptions C62_fills_partial.

(** ** Cases *)
(** The table of C46: the second row is of colour 3, the cell over two columns
    has its own colour. *)
Definition fcell (cs rs : nat) (q : Q) (f : option nat) : @cell Q nat := mkCell cs rs (mkCS 0 0 0 0 f) q.
Definition fill_table (cols : nat) (rows : list (list (@cell Q nat))) (fills : nat -> nat -> option nat) : table Q nat unit :=
  mkTable rows cols (repeat (1 / inject_Z (Z.of_nat cols))%Q cols) (fcell 1 1 0 None) (fun _ _ => ex_border) (fun _ _ => ex_border) fills.
Definition ft1 := fill_table 3 [[fcell 2 1 10 (Some 7); fcell 1 1 5 None; fcell 1 2 30 (Some 8)]; [fcell 1 1 20 None; fcell 1 1 8 None; fcell 1 1 5 None]]
  (fun i _ => if i =? 1 then Some 3 else None).
Definition fshow := to_show ft1 (@fresh_table Q nat).
Example C62_applies : exists s' o, run ex_start ex_run ex_eqb ft1 0 100 300 100 fresh_table = Ok (s', o) /\ o_cancel o = false /\
  tiling ft1 fshow 0 (List.length fshow) A1 /\
  map (fun f => (Qred (f_x f), Qred (f_y f), Qred (f_w f), Qred (f_h f), f_color f)) (o_fills o) =
    [(0%Q, 90%Q, 200%Q, 10%Q, 7); (200%Q, 70%Q, 100%Q, 30%Q, 8); (0%Q, 70%Q, 100%Q, 20%Q, 3); (100%Q, 70%Q, 100%Q, 20%Q, 3)].
Proof.
  do 2 eexists. split; [vm_compute; reflexivity|]. split; [reflexivity|]. split; [|vm_compute; reflexivity].
  split.
  - intros [|[|i]] [|[|[|c]]] H; try discriminate H; eexists; (split; [reflexivity|]); cbn; lia.
  - change (List.length fshow) with 2. change (t_cols ft1) with 3. intros i c Hi Hc.
    assert (Hu : forall i0 c0 i c, A1 i0 c0 = true -> covers ft1 fshow 0 i0 c0 i c ->
      (i0 = 0 /\ c0 = 0 /\ i = 0 /\ c < 2) \/ (i0 = 0 /\ c0 = 2 /\ i <= 1 /\ c = 2) \/ (i0 = 1 /\ c0 = 0 /\ i = 1 /\ c = 0) \/ (i0 = 1 /\ c0 = 1 /\ i = 1 /\ c = 1)).
    { clear. intros [|[|i0]] [|[|[|c0]]] i c HA (el & E1 & E2 & E3 & E4); try discriminate HA; cbn in E1; injection E1 as <-; cbn in E3, E4; lia. }
    assert (Hex : exists i0 c0, A1 i0 c0 = true /\ covers ft1 fshow 0 i0 c0 i c).
    { destruct i as [|[|i]]; [| |lia]; destruct c as [|[|[|c]]]; try lia;
        [exists 0, 0|exists 0, 0|exists 0, 2|exists 1, 0|exists 1, 1|exists 0, 2]; (split; [reflexivity|]); eexists; (split; [reflexivity|]); cbn; lia. }
    destruct Hex as (i0 & c0 & H1 & H2). exists i0, c0. split; [exact H1|]. split; [exact H2|]. intros i1 c1 H3 H4.
    pose proof (Hu _ _ _ _ H1 H2). pose proof (Hu _ _ _ _ H3 H4). lia.
Qed.
(** A cell with a colour that takes more rows than the table has: it is shown,
    nothing is filled. *)
Definition ft2 := fill_table 2 [[fcell 1 2 10 (Some 7); fcell 1 1 10 None]] (fun _ _ => None).
Theorem C62_fills_refuted : exists s' o, run ex_start ex_run ex_eqb ft2 0 100 300 100 fresh_table = Ok (s', o) /\ o_cancel o = false /\
  t_finished s' = true /\ o_parts o = [10; 10]%Q /\ o_fills o = [].
Proof. do 2 eexists. split; [vm_compute; reflexivity|]. repeat split; reflexivity. Qed.
Print Assumptions C62_fills_refuted.
