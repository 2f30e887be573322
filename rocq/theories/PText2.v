(** Theorems for C24, C35-C38 and C59: what a paragraph shows, and where. *)
From Coq Require Import String QArith Qabs Lqa Lia.
From Verif Require Import Py PyStr Gfx TextLayout TextProofs TextWords TextOrder TextFit TextWidth TextEmit TextMarks TextPaint TextTerm TextApart TextRound PText.
Open Scope list_scope.

Lemma Forall2_mono {A B} (P Q : A -> B -> Prop) l m : (forall x y, P x y -> Q x y) -> Forall2 P l m -> Forall2 Q l m.
Proof. intros H. induction 1; constructor; auto. Qed.

Section Text.
Variable round3 : Q -> Q.
Variable text_w : fkey -> str -> Q.
Variable space_w : fkey -> Q.
Variable fref : fkey -> str.
Notation run := (run round3 text_w space_w fref).
Notation runs := (runs round3 text_w space_w fref).
Notation width_of := (width_of text_w space_w).

(** A paragraph between two runs: [ds] are the states after the runs made so
    far. *)
Definition between (c : config) (ds : list dyn) (d : dyn) : Prop :=
  (exists rects, runs c (fresh c) rects = Ok ds) /\ d = last ds (fresh c) /\ d_fin d = false.
Lemma last_cons {A} (rest : list A) x d : last (x :: rest) d = last rest x.
Proof. revert x d. induction rest as [|z rest IH]; intros x d; [reflexivity|]. change (last (x :: z :: rest) d) with (last (z :: rest) d). rewrite !IH. reflexivity. Qed.
Lemma runs_paused c : forall rects done d ds, paused c done d -> runs c d rects = Ok ds -> d_fin (last ds d) = false ->
  paused c (done ++ placed ds) (last ds d).
Proof.
  induction rects as [|[w h] rects IH]; intros done d ds Hd E Hf; cbn [TextLayout.runs] in E.
  - injection E as <-. cbn. rewrite app_nil_r. exact Hd.
  - destruct (run c d w h) as [d1|e] eqn:Er; [|discriminate]. cbn [bind] in E.
    pose proof (run_order _ _ _ _ c done d w h d1 Hd Er) as HF. destruct HF as [[Hf1 HF]|(Hf1 & HF & H1 & H2)]; rewrite Hf1 in E.
    + injection E as <-. cbn in Hf. congruence.
    + destruct (runs c d1 rects) as [rest|e] eqn:Err; [|discriminate]. cbn [bind] in E. injection E as <-.
      rewrite last_cons in *. cbn [placed flat_map]. fold (placed rest). rewrite app_assoc. apply (IH _ _ _ ) with (2 := Err); [|exact Hf].
      repeat split; try assumption; apply HF.
Qed.
Lemma between_paused c ds d : between c ds d -> paused c (placed ds) d.
Proof. intros ((rects & E) & -> & Hf). exact (runs_paused c rects [] (fresh c) ds (paused_fresh c) E Hf). Qed.

Hypothesis round3_proper : forall x y, (x == y)%Q -> (round3 x == round3 y)%Q.

(** C24: executing the operators of a run shows the parts of its lines that
    have text, in order, each with its own font, size, rise and word spacing
    and, if it has a colour, with it; before them only the list text is
    shown.  Whatever the reader's state was. *)
Definition line_parts (lk : line * mark) : list (lpart * Q) :=
  map (fun p => (p, k_factor (snd lk))) (filter (fun p => nonempty (part_text p)) (l_parts (fst lk))).
Definition shows_own (ctm : matrix) (want : lpart * Q) (p : paint) : Prop :=
  let st := y_state (lp_style (fst want)) in
  match p with
  | PShow m (Some (font, size)) fill rise spacing _ s =>
      m = ctm /\ s = part_text (fst want) /\ font = fref (t_font st) /\ (size == round3 (t_size st))%Q /\
      (rise == round3 (t_rise st))%Q /\ (forall col, t_color st = Some col -> rgb_eq fill (round_rgb round3 col)) /\
      (spacing == round3 (spw space_w (lp_style (fst want)) * (snd want - 1)))%Q
  | _ => False
  end.
Lemma wants_parts pos lks : forall bef,
  flat_map line_parts lks = map (fun x => let '(p, f, _) := x in (p, f)) (wants_at pos bef lks).
Proof.
  induction lks as [|[l k] r IH]; intros bef; cbn [flat_map wants_at]; [reflexivity|].
  rewrite map_app, <- IH. f_equal. unfold line_parts, line_wants. cbn [fst snd]. rewrite map_map. reflexivity.
Qed.
Theorem C24_text_state : forall c d w h d' r, run c d w h = Ok d' -> r_line r <> None ->
  exists r' pre qs, execs (e_text (d_em d')) r = (r', pre ++ qs) /\
    (c_list c = None -> pre = []) /\ Forall (is_list_show c) pre /\
    Forall2 (shows_own (g_ctm (r_gs r))) (flat_map line_parts (combine (d_lines d') (d_marks d'))) qs /\
    List.length (d_marks d') = List.length (d_lines d').
Proof.
  intros c d w h d' r E Hr. destruct (r_line r) as [[a b]|] eqn:El; [|congruence].
  destruct (run_emit round3 text_w space_w fref round3_proper c d w h d' r a b E El) as [L _ _ _ _ X].
  destruct X as (r' & pre & qs & X1 & X2 & X3 & X4 & _).
  exists r', pre, qs. split; [exact X1|]. split.
  { intros Hl. destruct pre as [|x pre]; [reflexivity|]. apply Forall_cons_iff in X2 as [X2 _]. unfold is_list_show in X2. rewrite Hl in X2. contradiction. }
  split; [exact X2|]. split; [|exact L].
  rewrite (wants_parts (rpos round3 c round3 a b 0) _ []). clear - X4. induction X4 as [|x y xs ys H _ IH]; cbn [map]; constructor; [|exact IH].
  destruct x as [[p f] pos]. unfold shows_part in H. destruct y as [| |m font fill rise spacing line s|]; try contradiction.
  destruct H as (H1 & (H2 & H3 & H4) & H5 & _ & H6). unfold shows_own. cbn [fst snd].
  destruct font as [[f0 sz]|]; [|contradiction]. destruct H2 as [H2 H2']. repeat split; assumption.
Qed.

(** A part shown as wanted, at most [tol] away from where it should be. *)
Definition shows_near (tol : Q) (ctm : matrix) (want : lpart * Q * (Q * Q)) (p : paint) : Prop :=
  shows_own ctm (fst want) p /\ match p with PShow _ _ _ _ _ line _ => near tol line (snd want) | _ => False end.
Lemma shows_near_of (gx gy : Prop) tol ctm u v p : gx -> gy -> same_near tol u v -> shows_part round3 space_w fref gx gy ctm v p -> shows_near tol ctm u p.
Proof.
  intros Hx Hy [H1 H2] H. destruct u as [[pa f] pos], v as [[pb g] pos']. cbn [fst snd] in *. injection H1 as <- <-.
  unfold shows_part in H. destruct p as [| |m font fill rise spacing [lx ly] s|]; try contradiction.
  destruct H as (G1 & (G2 & G3 & G4) & G5 & [G6 G7] & G8). specialize (G6 Hx). specialize (G7 Hy). destruct font as [[f0 sz]|]; [|contradiction].
  destruct G2 as [G2 G2']. split; [repeat split; assumption|]. cbn [snd]. unfold near in *. cbn [fst snd] in *. rewrite G6, G7. exact H2.
Qed.
Lemma Forall2_through {A B C} (P : A -> B -> Prop) (Q : B -> C -> Prop) (R : A -> C -> Prop) l m n :
  (forall x y z, P x y -> Q y z -> R x z) -> Forall2 P l m -> Forall2 Q m n -> Forall2 R l n.
Proof. intros H F. revert n. induction F; intros n G; inversion G; subst; constructor; eauto. Qed.

(** C38: every part is shown on a line that starts [k_x] to the right of the
    left edge of the paragraph and under the lines before it, where [k_x] is
    the indent for the first line of the paragraph and 0 for the others, plus
    the free space of the line, or half of it, if it is right-aligned or
    centered.  Because the moves from line to line are rounded, in a run with
    [n] lines they are off by up to [n] times the error [eps] of one rounding.
    The link rectangles, backgrounds and underlines start from the same [k_x]
    (C59).  Not for list texts; with an indent, only for left-aligned and
    justified text and not for a continuation after a page with a single
    line. *)
Theorem C38_left_edge_partial : forall c ds d w h d' r a b eps, (forall q, (Qabs (round3 q - q) <= eps)%Q) -> c_list c = None ->
  (c_indent c == 0)%Q \/ (c_align c <> ACenter /\ c_align c <> ARight /\ d_correct d = d_first d) ->
  between c ds d -> run c d w h = Ok d' -> r_line r = Some (a, b) ->
  let off := (inject_Z (Z.of_nat (List.length (d_lines d'))) * eps)%Q in
  (exists r' qs, execs (e_text (d_em d')) r = (r', qs) /\
     Forall2 (shows_near off (g_ctm (r_gs r))) (wants c a b [] (combine (d_lines d') (d_marks d'))) qs) /\
  (forall i l k, nth_error (d_lines d') i = Some l -> nth_error (d_marks d') i = Some k ->
     (k_x k == line_start text_w space_w c (d_first d && (i =? 0)%nat) w l)%Q).
Proof.
  intros c ds d w h d' r a b eps Hex Hl Hind Hbt E Hr off. split.
  - destruct (run_emit round3 text_w space_w fref round3_proper c d w h d' r a b E Hr) as [L _ _ _ _ X].
    destruct X as (r' & pre & qs & X1 & X2 & _ & X4 & _).
    assert (Hpre : pre = []).
    { destruct pre as [|x pre]; [reflexivity|]. apply Forall_cons_iff in X2 as [X2 _]. unfold is_list_show in X2. rewrite Hl in X2. contradiction. }
    subst pre. exists r', qs. split; [exact X1|].
    assert (Hx : x_ok c d).
    { split; [exact Hl|]. destruct Hind as [H|(H1 & H2 & H3)]; [left; exact H|right].
      split; [destruct (c_align c); try reflexivity; congruence|exact H3]. }
    pose proof (wants_near round3 eps Hex c round3 a b 0 (combine (d_lines d') (d_marks d')) Hex []) as HN. cbn [app map] in HN.
    assert (HL : List.length (combine (d_lines d') (d_marks d')) = List.length (d_lines d')) by (rewrite combine_length; lia).
    rewrite HL in HN. change (times (List.length (d_lines d')) eps) with off in HN.
    assert (HB : Forall2 (same_near off) (wants c a b [] (combine (d_lines d') (d_marks d')))
                   (wants_at (rpos round3 c round3 a b 0) [] (combine (d_lines d') (d_marks d')))).
    { revert HN. generalize (wants_at (rpos round3 c round3 a b 0) [] (combine (d_lines d') (d_marks d'))).
      assert (G : forall lks bef m, Forall2 (same_near off) (wants c a (b - 0) bef lks) m -> Forall2 (same_near off) (wants c a b bef lks) m).
      { clear. induction lks as [|[l k] lks IH]; intros bef m H; cbn [wants] in *; [exact H|].
        apply Forall2_app_inv_l in H as (m1 & m2 & F1 & F2 & ->). apply Forall2_app; [|apply IH, F2]. clear F2 IH.
        unfold line_wants in *. revert m1 F1. induction (filter _ _) as [|p ps IH]; intros m1 F1; cbn [map] in *; inversion F1 as [|? v ? vs [A1 A2] Fr]; subst; constructor.
        - split; [exact A1|]. unfold near, line_pos in *. cbn [fst snd] in *.
          setoid_replace (b - total_height c (bef ++ [l]))%Q with (b - 0 - total_height c (bef ++ [l]))%Q by ring. exact A2.
        - apply IH, Fr. }
      intros m. apply G. }
    exact (Forall2_through _ _ _ _ _ _ (fun u v p => shows_near_of _ _ off _ u v p Hx Hl) HB X4).
  - intros i l k Hi Hk. exact (lk_x _ _ _ _ _ _ _ _ _ (run_line round3 text_w space_w fref c (placed ds) d w h d' i l k Hl (between_paused _ _ _ Hbt) E Hi Hk)).
Qed.

(** C59: the graphics operators of a run paint the backgrounds and underlines
    of the parts that show something, in order, from where the part starts to
    where it ends, with its own colours; and the rectangles of the ids of
    these parts cover them.  A part starts where the part before it on its
    line ends, and the first one at the start of the line. *)
Theorem C59_marks_at_text : forall c ds d w h d' r, c_list c = None -> between c ds d -> r_path r = [] ->
  run c d w h = Ok d' ->
  let ss := line_spots text_w space_w c [] (combine (d_lines d') (d_marks d')) in
  Forall2 (box_of round3) (wanted_boxes ss) (e_ids (d_em d')) /\
  exists r' ps, execs (e_gfx (d_em d')) r = (r', ps) /\
    Forall2 (paints round3 (g_ctm (r_gs r))) (flat_map wanted_marks ss) ps.
Proof.
  intros c ds d w h d' r Hl Hb Hp E.
  destruct (run_paint round3 text_w space_w fref round3_proper c (placed ds) d w h d' r Hl (between_paused _ _ _ Hb) Hp E) as [_ _ _ [A (r' & ps & X1 & X2 & _)]].
  split; [exact A|]. exists r', ps. split; assumption.
Qed.

(** The whole stream of the paragraph (utils.get_paragraph_stream): graphics
    are painted under a translation to the corner of the paragraph, then the
    text is shown with the page's own matrix, from that corner. *)
Theorem C59_stream : forall c ds d w h d' r x y, c_list c = None -> between c ds d -> r_path r = [] ->
  run c d w h = Ok d' ->
  exists r' ps qs, execs (paragraph_stream round3 x y (e_text (d_em d')) (e_gfx (d_em d'))) r = (r', ps ++ qs) /\
    Forall2 (paints round3 (mult (mkMat 1 0 0 1 (round3 x) (round3 y)) (g_ctm (r_gs r))))
      (flat_map wanted_marks (line_spots text_w space_w c [] (combine (d_lines d') (d_marks d')))) ps /\
    Forall2 (shows_own (g_ctm (r_gs r))) (flat_map line_parts (combine (d_lines d') (d_marks d'))) qs /\
    g_ctm (r_gs r') = g_ctm (r_gs r) /\ r_stack r' = r_stack r.
Proof.
  intros c ds d w h d' r x y Hl Hb Hp E. unfold paragraph_stream.
  set (r1 := with_line r (Some (round3 x, round3 y))).
  destruct (C24_text_state c d w h d' r1 E) as (r2 & pre & qs & T1 & T2 & _ & T3 & _); [discriminate|].
  rewrite (T2 Hl) in T1. cbn [app] in T1.
  destruct (run_emit round3 text_w space_w fref round3_proper c d w h d' r1 (round3 x) (round3 y) E eq_refl) as [_ _ _ _ _ (r2' & pre' & qs' & T1' & _ & _ & _ & _ & K1 & K2 & _)].
  rewrite T1 in T1'. injection T1' as <- _.
  assert (HT : exists r3, execs (match e_text (d_em d') with [] => [] | _ => GBegin :: GTm (round3 x) (round3 y) :: e_text (d_em d') ++ [GEnd] end) r
                = (r3, qs) /\ g_ctm (r_gs r3) = g_ctm (r_gs r) /\ r_stack r3 = r_stack r).
  { destruct (e_text (d_em d')) as [|o t] eqn:Et.
    - cbn in T1. injection T1 as _ <-. exists r. repeat split.
    - exists (with_line r2 None). split; [|split; [exact K1|exact K2]].
      replace (execs (GBegin :: GTm (round3 x) (round3 y) :: (o :: t) ++ [GEnd]) r)
        with (execs ((o :: t) ++ [GEnd]) r1).
      + rewrite execs_app, T1. cbn [execs]. destruct r2 as [[? ? ? ? ? ? ? ? ?] ? ? ?]. cbn. now rewrite app_nil_r.
      + clear. unfold r1. destruct r as [[q1 q2 q3 q4 q5 q6 q7 q8 q9] s1 s2 s3]. cbn [execs exec with_line r_gs r_stack r_path]. 
        destruct (execs ((o :: t) ++ [GEnd]) _); reflexivity. }
  destruct HT as (r3 & HT & K3 & K4).
  set (r0 := mkR (mkGS (mult (mkMat 1 0 0 1 (round3 x) (round3 y)) (g_ctm (r_gs r))) (g_fill (r_gs r)) (g_stroke (r_gs r)) (g_width (r_gs r))
                 (g_cap (r_gs r)) (g_dash (r_gs r)) (g_font (r_gs r)) (g_rise (r_gs r)) (g_spacing (r_gs r))) (r_gs r :: r_stack r) [] (r_line r)).
  destruct (run_paint round3 text_w space_w fref round3_proper c (placed ds) d w h d' r0 Hl (between_paused _ _ _ Hb) eq_refl E)
    as [_ _ _ [_ (r4 & ps & X1 & X2 & _ & G1 & G2 & G3 & G4)]].
  assert (HG : execs (match e_gfx (d_em d') with [] => [] | _ => GSave :: GConcat 1 0 0 1 (round3 x) (round3 y) :: e_gfx (d_em d') ++ [GRestore] end) r
                = (r, ps)).
  { destruct (e_gfx (d_em d')) as [|o t] eqn:Et.
    - cbn in X1. injection X1 as _ <-. reflexivity.
    - replace (execs (GSave :: GConcat 1 0 0 1 (round3 x) (round3 y) :: (o :: t) ++ [GRestore]) r)
        with (execs ((o :: t) ++ [GRestore]) r0).
      + rewrite execs_app, X1. cbn [execs]. destruct r4 as [[q1 q2 q3 q4 q5 q6 q7 q8 q9] stk pa ln]. unfold r0 in G2, G3, G4; cbn [r_stack r_path r_line] in G2, G3, G4. subst stk pa ln.
        cbn [exec r_gs r_stack r_path r_line]. rewrite app_nil_r. destruct r as [g s p0 ln]. cbn [r_path r_gs r_stack r_line] in *. now subst p0.
      + clear - Hp. destruct r as [[q1 q2 q3 q4 q5 q6 q7 q8 q9] s1 p0 s3]. cbn [r_path] in Hp. subst p0. unfold r0.
        cbn [execs exec with_gs r_gs r_stack r_path r_line g_ctm g_fill g_stroke g_width g_cap g_dash g_font g_rise g_spacing].
        destruct (execs ((o :: t) ++ [GRestore]) _); reflexivity. }
  exists r3, ps, qs. split; [rewrite execs_app, HG, HT; reflexivity|]. repeat split; assumption.
Qed.

(** C37: a line of justified text that is not marked as the last one and has a
    space ends exactly at the right edge, and if it does not end in a space
    the spaces have more than 70% of their width (the word spacing shown is
    that of C24).  Lines are marked as last only at the end of the paragraph,
    before a forced break, and when one unbreakable chunk is left. *)
Theorem C37_justified_partial : forall c ds d w h d' i l k, c_list c = None -> c_align c = AJust -> between c ds d ->
  run c d w h = Ok d' -> nth_error (d_lines d') i = Some l -> nth_error (d_marks d') i = Some k ->
  (k_last k = false -> has_space l -> (forall y, In (TSpace y) (ltoks (l_parts l)) -> 0 < spw space_w y)%Q ->
   (k_x k + width_of (k_factor k) (ltoks (l_parts l)) == w)%Q /\
   (strip (ltoks (l_parts l)) = ltoks (l_parts l) -> (7#10) < k_factor k)%Q) /\
  (k_last k = true -> k_factor k = 1%Q /\ last_stop (c_content c) (placed ds ++ lc (firstn (S i) (d_lines d')))).
Proof.
  intros c ds d w h d' i l k Hl Ha Hb E Hi Hk. apply between_paused in Hb. split.
  - intros H1 H2 H3. exact (run_justified round3 text_w space_w fref c (placed ds) d w h d' i l k Hl Ha Hb E Hi Hk H1 H2 H3).
  - intros H1. pose proof (run_line round3 text_w space_w fref c (placed ds) d w h d' i l k Hl Hb E Hi Hk) as [_ _ P _ Lt].
    split; [apply P; right; left; exact H1|]. specialize (Lt H1).
    assert (HS : firstn (S i) (d_lines d') = firstn i (d_lines d') ++ [l]).
    { clear - Hi. revert i Hi. induction (d_lines d') as [|z r IH]; intros [|i] Hi; cbn in Hi; try discriminate.
      - injection Hi as ->. reflexivity.
      - cbn [firstn app]. rewrite <- (IH i Hi). reflexivity. }
    rewrite HS. exact Lt.
Qed.

(** C35: [PDF.text] adds pages until the paragraph is finished.  The first
    rectangle may be of any size; if every line fits in the height of the
    pages that follow, no more pages are needed than the text has tokens
    (words, spaces and line breaks), plus one. *)
Theorem C35_terminates : forall c first pages M R, c_list c = None \/ text_first (c_content c) ->
  Forall (fun r => small c (snd r) M R) pages -> (List.length (all_toks (c_content c)) < List.length pages)%nat ->
  exists ds, runs c (fresh c) (first :: pages) = Ok ds /\ d_fin (last ds (fresh c)) = true.
Proof.
  intros c [w h] pages M R Hl Hs Hn.
  destruct (C31_runs round3 text_w space_w fref c ((w, h) :: pages) Hl) as [ds E]. exists ds. split; [exact E|].
  cbn [TextLayout.runs] in E. destruct (run c (fresh c) w h) as [d1|er] eqn:Er; [|discriminate]. cbn [bind] in E.
  destruct (d_fin d1) eqn:Ef; [injection E as <-; exact Ef|].
  destruct (runs c d1 pages) as [rest|er] eqn:Es; [|discriminate]. cbn [bind] in E. injection E as <-. rewrite last_cons.
  pose proof (run_order _ _ _ _ c [] (fresh c) w h d1 (paused_fresh c) Er) as [[Ho _]|(Ho & Hr & H1 & H2)]; [congruence|].
  apply (runs_finish round3 text_w space_w fref c M R pages ([] ++ lc (d_lines d1)) d1 rest Hs); [|lia|exact Es].
  repeat split; try assumption; apply Hr.
Qed.
(** C35: each page on which a line fits makes progress: more of the text is
    before the position from which the next page goes on. *)
Theorem C35_progress : forall c ds d w h d' M R, between c ds d -> small c h M R -> run c d w h = Ok d' -> d_fin d' = false ->
  (List.length (before (c_content c) (fst (get_state d)) (snd (get_state d))) <
   List.length (before (c_content c) (fst (get_state d')) (snd (get_state d'))))%nat.
Proof.
  intros c ds d w h d' M R Hb Hs E Hf.
  destruct (run_progress round3 text_w space_w fref c (placed ds) d w h d' M R Hs (between_paused _ _ _ Hb) E) as [H|[_ H]]; [congruence|exact H].
Qed.

(** C36: restoring a checkpoint taken in state [d] in any state [e] of the
    paragraph whose first line was written in both or in neither, the run
    puts the same parts in the same lines, which start at the same places and
    have the same spaces, and, unless not even one line fits, the next
    checkpoint is the same. *)
Theorem C36_replay_partial : forall c d e w h d', c_list c = None -> d_first e = d_first d -> run c d w h = Ok d' ->
  exists e', run c (set_state e (get_state d)) w h = Ok e' /\ d_lines e' = d_lines d' /\ d_marks e' = d_marks d' /\
    (d_lines d' <> [] -> get_state e' = get_state d').
Proof.
  intros c d e w h d' Hl Hf E.
  assert (HL : list_alike c d (set_state e (get_state d))) by (unfold list_alike; rewrite Hl; exact I).
  pose proof (replay round3 text_w space_w fref c d (set_state e (get_state d)) w h eq_refl eq_refl Hf HL) as H.
  rewrite E in H. destruct (run c (set_state e (get_state d)) w h) as [e'|]; [|contradiction]. exists e'. split; [reflexivity|apply H].
Qed.
End Text.
Print Assumptions C24_text_state.
Print Assumptions C38_left_edge_partial.
Print Assumptions C59_marks_at_text.
Print Assumptions C59_stream.
Print Assumptions C37_justified_partial.
Print Assumptions C35_terminates.
Print Assumptions C35_progress.
Print Assumptions C36_replay_partial.

(** ** Examples *)

Definition ex_reader : reader :=
  mkR (mkGS identity (Gray 0) (Gray 0) 1 0 ([], 0%Q) None 0 0) [] [] (Some (0%Q, 0%Q)).
Definition ex_mark (size : Q) : style := mkStyle (mkState (lit "Helvetica", lit "n") size (Some (Rgb 1 0 0)) 0) true (Some (Gray (1#2))).
Definition ex_marked : config :=
  mkCfg [CText (lit "one two ") (ex_style 1) []; CText (lit "three four") (ex_mark 2) [lit "a"]; CText (lit " five six") (ex_style 1) []]
    AJust (11#10) 2 None.
(** A paragraph whose first run writes one line and which goes on with two
    more: its second run shows 4 parts, two of them marked. *)
Definition ex_second (c : config) (w1 h1 w2 h2 : Q) (test : dyn -> dyn -> bool) : bool :=
  on_ok (ex_run c (fresh c) w1 h1) (fun d1 => negb (d_fin d1) && on_ok (ex_run c d1 w2 h2) (test d1)).
Lemma ex_second_ex c w1 h1 w2 h2 test : ex_second c w1 h1 w2 h2 test = true ->
  exists d1 d2, between (fun q => q) ex_text_w ex_space_w ex_ref c [d1] d1 /\ ex_run c d1 w2 h2 = Ok d2 /\ test d1 d2 = true.
Proof.
  intros H. apply on_ok_ex in H as (d1 & E1 & H). apply andb_true_iff in H as [H1 H]. apply negb_true_iff in H1.
  apply on_ok_ex in H as (d2 & E2 & H). exists d1, d2. split; [|split; assumption].
  split; [|split; [reflexivity|exact H1]]. exists [(w1, h1)]. cbn [runs]. rewrite E1. cbn [bind]. rewrite H1. reflexivity.
Qed.
Example C24_C59_nonvacuous : exists d1 d2, between (fun q => q) ex_text_w ex_space_w ex_ref ex_marked [d1] d1 /\
  ex_run ex_marked d1 19 30 = Ok d2 /\ d_lines d1 <> [] /\
  List.length (flat_map line_parts (combine (d_lines d2) (d_marks d2))) = 4%nat /\
  List.length (snd (execs (e_text (d_em d2)) ex_reader)) = 4%nat /\
  List.length (wanted_boxes (line_spots ex_text_w ex_space_w ex_marked [] (combine (d_lines d2) (d_marks d2)))) = 2%nat /\
  List.length (flat_map wanted_marks (line_spots ex_text_w ex_space_w ex_marked [] (combine (d_lines d2) (d_marks d2)))) = 4%nat.
Proof.
  destruct (ex_second_ex ex_marked 9 3 19 30 (fun d1 d2 => negb (List.length (d_lines d1) =? 0)%nat &&
    (List.length (flat_map line_parts (combine (d_lines d2) (d_marks d2))) =? 4)%nat &&
    (List.length (snd (execs (e_text (d_em d2)) ex_reader)) =? 4)%nat &&
    (List.length (wanted_boxes (line_spots ex_text_w ex_space_w ex_marked [] (combine (d_lines d2) (d_marks d2)))) =? 2)%nat &&
    (List.length (flat_map wanted_marks (line_spots ex_text_w ex_space_w ex_marked [] (combine (d_lines d2) (d_marks d2)))) =? 4)%nat))
    as (d1 & d2 & H1 & H2 & T).
  - vm_compute. reflexivity.
  - repeat (apply andb_true_iff in T as [T ?]). exists d1, d2. split; [exact H1|]. split; [exact H2|]. split.
    + intros E. rewrite E in T. discriminate.
    + repeat split; apply Nat.eqb_eq; assumption.
Qed.

Definition qtest (a b : Q) : bool := negb (Qle_bool b a).
Lemma qtest_lt a b : qtest a b = true -> (a < b)%Q.
Proof. unfold qtest. intros H. apply negb_true_iff in H. apply Qnot_le_lt. intros K. apply Qle_bool_iff in K. congruence. Qed.
Definition mark0 : mark := mkMark false 0 0.
Lemma nth_line (ls : list line) i : (i < List.length ls)%nat -> nth_error ls i = Some (nth i ls line0).
Proof. intros H. now apply nth_error_nth'. Qed.
Lemma nth_mark (ls : list mark) i : (i < List.length ls)%nat -> nth_error ls i = Some (nth i ls mark0).
Proof. intros H. now apply nth_error_nth'. Qed.
Definition has_space_b (l : line) : bool := existsb (fun t => match t with TSpace _ => true | _ => false end) (ltoks (l_parts l)).
Lemma has_space_iff l : has_space_b l = true -> has_space l.
Proof.
  unfold has_space_b, has_space. intros H. apply existsb_exists in H as (t & H & K). destruct t; try discriminate.
  eauto.
Qed.

(** A page of two lines: the first one is justified, and the second one as
    well although the paragraph goes on. *)
Definition ex_just (s : string) : config := mkCfg [CText (lit s) (ex_style 1) [lit "a"]] AJust (11#10) 2 None.
Example C37_nonvacuous : exists d l k, ex_run (ex_just "a bb ccc dddd ee fff gg h") (fresh (ex_just "a bb ccc dddd ee fff gg h")) 10 4 = Ok d /\
  nth_error (d_lines d) 1 = Some l /\ nth_error (d_marks d) 1 = Some k /\ k_last k = false /\ has_space l /\ (1 < k_factor k)%Q.
Proof.
  destruct (on_ok_ex (ex_run (ex_just "a bb ccc dddd ee fff gg h") (fresh (ex_just "a bb ccc dddd ee fff gg h")) 10 4) (fun d =>
    (1 <? List.length (d_lines d))%nat && (1 <? List.length (d_marks d))%nat && negb (k_last (nth 1 (d_marks d) mark0)) &&
    has_space_b (nth 1 (d_lines d) line0) && qtest 1 (k_factor (nth 1 (d_marks d) mark0)))) as (d & E & T).
  - vm_compute. reflexivity.
  - repeat (apply andb_true_iff in T as [T ?]). exists d, (nth 1 (d_lines d) line0), (nth 1 (d_marks d) mark0).
    apply Nat.ltb_lt in T, H2. split; [exact E|]. split; [now apply nth_line|]. split; [now apply nth_mark|].
    split; [now apply negb_true_iff|]. split; [now apply has_space_iff|now apply qtest_lt].
Qed.

(** C37 is false as stated.  A line that is neither the last of the paragraph
    nor followed by a break is not filled if the rest of the paragraph is one
    word. *)
Definition no_break (c : config) : Prop := ~ In CBr (c_content c).
Definition ex_pen : config := mkCfg [CText (lit "aaa bb cc") (ex_style 1) []] AJust (11#10) 0 None.
Theorem C37_penultimate_refuted : exists c w h d i l k, c_align c = AJust /\ no_break c /\ c_list c = None /\
  ex_run c (fresh c) w h = Ok d /\ d_fin d = true /\ (S i < List.length (d_lines d))%nat /\
  nth_error (d_lines d) i = Some l /\ nth_error (d_marks d) i = Some k /\ has_space l /\
  (k_x k + width_of ex_text_w ex_space_w (k_factor k) (ltoks (l_parts l)) < w)%Q.
Proof.
  destruct (on_ok_ex (ex_run ex_pen (fresh ex_pen) 7 9) (fun d => d_fin d && (1 <? List.length (d_lines d))%nat && (0 <? List.length (d_marks d))%nat &&
    has_space_b (nth 0 (d_lines d) line0) && qtest (k_x (nth 0 (d_marks d) mark0) +
      width_of ex_text_w ex_space_w (k_factor (nth 0 (d_marks d) mark0)) (ltoks (l_parts (nth 0 (d_lines d) line0)))) 7)) as (d & E & T).
  - vm_compute. reflexivity.
  - repeat (apply andb_true_iff in T as [T ?]). apply Nat.ltb_lt in H1, H2.
    exists ex_pen, 7%Q, 9%Q, d, 0%nat, (nth 0 (d_lines d) line0), (nth 0 (d_marks d) mark0).
    split; [reflexivity|]. split; [intros [K|[]]; discriminate|]. split; [reflexivity|]. split; [exact E|]. split; [exact T|].
    split; [exact H2|]. split; [apply nth_line; lia|]. split; [now apply nth_mark|]. split; [now apply has_space_iff|now apply qtest_lt].
Qed.
Print Assumptions C37_penultimate_refuted.
(** Spaces at the end of one part and at the start of the next are both kept,
    and a line that ends in them is squeezed to less than 70%. *)
Definition ex_squeeze : config :=
  mkCfg [CText (lit "aa bb ") (ex_style 1) []; CText (lit " ") (ex_style 1) []; CText (lit " cccc dd ee") (ex_style 1) []] AJust (11#10) 0 None.
Theorem C37_squeeze_refuted : exists c w h d k, c_align c = AJust /\ c_list c = None /\
  ex_run c (fresh c) w h = Ok d /\ nth_error (d_marks d) 0 = Some k /\ (k_factor k < 7#10)%Q.
Proof.
  destruct (on_ok_ex (ex_run ex_squeeze (fresh ex_squeeze) 5 9) (fun d => (0 <? List.length (d_marks d))%nat && qtest (k_factor (nth 0 (d_marks d) mark0)) (7#10))) as (d & E & T).
  - vm_compute. reflexivity.
  - repeat (apply andb_true_iff in T as [T ?]). apply Nat.ltb_lt in T. exists ex_squeeze, 5%Q, 9%Q, d, (nth 0 (d_marks d) mark0).
    split; [reflexivity|]. split; [reflexivity|]. split; [exact E|]. split; [now apply nth_mark|now apply qtest_lt].
Qed.
Print Assumptions C37_squeeze_refuted.

(** C38 is false as stated: if a paragraph with an indent continues after a
    page with exactly one line, the second line of the continuation starts
    outside the box: its text is shown to the left of the left edge. *)
Definition ex_ind : config := mkCfg [CText (lit "aaa bbb ccc ddd eee") (ex_style 1) []] ALeft (11#10) 2 None.
Definition left_of (x : Q) (p : paint) : Prop := match p with PShow _ _ _ _ _ (a, _) _ => (a < x)%Q | _ => False end.
Theorem C38_indent_refuted : exists c d1 d2 w h r x y p, c_list c = None /\ c_align c = ALeft /\ (0 < c_indent c)%Q /\
  between (fun q => q) ex_text_w ex_space_w ex_ref c [d1] d1 /\ ex_run c d1 w h = Ok d2 /\ r_line r = Some (x, y) /\
  In p (snd (execs (e_text (d_em d2)) r)) /\ left_of x p.
Proof.
  destruct (ex_second_ex ex_ind 8 (5#2) 8 9 (fun d1 d2 => existsb (fun p => match p with PShow _ _ _ _ _ (a, _) _ => qtest a 0 | _ => false end)
    (snd (execs (e_text (d_em d2)) ex_reader)))) as (d1 & d2 & H1 & H2 & T).
  - vm_compute. reflexivity.
  - apply existsb_exists in T as (p & Hp & T).
    exists ex_ind, d1, d2, 8%Q, 9%Q, ex_reader, 0%Q, 0%Q, p. split; [reflexivity|]. split; [reflexivity|]. split; [reflexivity|].
    split; [exact H1|]. split; [exact H2|]. split; [reflexivity|]. split; [exact Hp|].
    destruct p as [| |m f c0 ri sp [a b] s|]; try discriminate. cbn [left_of]. apply qtest_lt. exact T.
Qed.
Print Assumptions C38_indent_refuted.
Example C38_nonvacuous : exists d, ex_run ex_ind (fresh ex_ind) 8 9 = Ok d /\ d_correct (fresh ex_ind) = d_first (fresh ex_ind) /\
  map k_x (d_marks d) = [2; 0; 0]%Q.
Proof. eexists. split; [vm_compute; reflexivity|]. split; reflexivity. Qed.

(** C35: one word of size 1 in pages of height 1/2 never finishes, however
    many pages are added: [PDF.text] does not return. *)
Definition ex_tall : config := mkCfg [CText (lit "aaa bbb") (ex_style 1) []] ALeft (11#10) 0 None.
Theorem C35_tall_refuted : forall n, exists ds, ex_runs ex_tall (fresh ex_tall) (repeat (8, 1#2)%Q n) = Ok ds /\
  List.length ds = n /\ Forall (fun d => d_fin d = false /\ d_lines d = []) ds.
Proof.
  destruct (on_ok_ex (ex_run ex_tall (fresh ex_tall) 8 (1#2)) (fun d => negb (d_fin d) && (List.length (d_lines d) =? 0)%nat)) as (d & E & T).
  { vm_compute. reflexivity. }
  apply andb_true_iff in T as [T1 T2]. apply negb_true_iff in T1. apply Nat.eqb_eq in T2. destruct (d_lines d) eqn:T3; [clear T2|discriminate].
  assert (E2 : ex_run ex_tall d 8 (1#2) = Ok d).
  { rewrite <- E. vm_compute in E. apply Ok_inj in E. rewrite <- E. vm_compute. reflexivity. }
  assert (L : forall n, ex_runs ex_tall d (repeat (8, 1#2)%Q n) = Ok (repeat d n)).
  { induction n as [|n IH]; [reflexivity|]. cbn [repeat runs]. rewrite E2. cbn [bind]. rewrite T1, IH. reflexivity. }
  intros [|n]; [exists []; repeat split; constructor|].
  exists (repeat d (S n)). cbn [repeat runs]. rewrite E. cbn [bind]. rewrite T1, L. split; [reflexivity|].
  split; [cbn; now rewrite repeat_length|]. constructor; [now split|]. apply Forall_forall. intros x Hx. apply repeat_spec in Hx. subst x. now split.
Qed.
Print Assumptions C35_tall_refuted.
Example C35_nonvacuous : small ex_ind 4 1 0 /\ List.length (all_toks (c_content ex_ind)) = 9%nat /\
  exists ds, ex_runs ex_ind (fresh ex_ind) ((3, 1#2)%Q :: repeat (5, 4)%Q 10) = Ok ds /\
  map (fun d => List.length (d_lines d)) ds = [0; 2; 2; 1]%nat.
Proof.
  split.
  - split; [unfold ex_ind; cbn [c_lh]; lra|]. unfold styles, ex_ind. cbn [c_content flat_map app]. intros y [<-|[]]. cbn. lra.
  - split; [reflexivity|]. eexists. split; vm_compute; reflexivity.
Qed.

(** C36 is false as stated: the checkpoint says nothing about the first line
    and about being finished.  Restored in the same paragraph after its first
    run, the initial checkpoint does not give the first line its indent
    again; and a paragraph that was finished still says so after a run that
    left text out. *)
Theorem C36_first_line_refuted : exists c d1 d2 w h, c_list c = None /\ ex_run c (fresh c) w h = Ok d1 /\
  ex_run c (set_state d1 (get_state (fresh c))) w h = Ok d2 /\ map k_x (d_marks d1) <> map k_x (d_marks d2).
Proof.
  destruct (on_ok_ex (ex_run ex_ind (fresh ex_ind) 8 (5#2)) (fun d1 => on_ok (ex_run ex_ind (set_state d1 (get_state (fresh ex_ind))) 8 (5#2)) (fun d2 =>
    match d_marks d1, d_marks d2 with [a], [b] => qtest (k_x b) (k_x a) | _, _ => false end))) as (d1 & E1 & T).
  - vm_compute. reflexivity.
  - apply on_ok_ex in T as (d2 & E2 & T). exists ex_ind, d1, d2, 8%Q, (5#2)%Q. split; [reflexivity|]. split; [exact E1|]. split; [exact E2|].
    clear E1 E2. destruct (d_marks d1) as [|a [|? ?]]; try discriminate T. destruct (d_marks d2) as [|b [|? ?]]; try discriminate T.
    apply qtest_lt in T. cbn [map]. intros H. injection H as H. rewrite H in T. lra.
Qed.
Print Assumptions C36_first_line_refuted.
Theorem C36_finished_refuted : exists c d1 d2 d3 w h, ex_run c (fresh c) w h = Ok d1 /\ d_fin d1 = false /\
  ex_run c d1 w h = Ok d2 /\ d_fin d2 = true /\ ex_run c (set_state d2 (get_state (fresh c))) w h = Ok d3 /\ d_fin d3 = true /\
  (List.length (flat_map line_chunks (d_lines d3)) < List.length (chunks (all_toks (c_content c))))%nat.
Proof.
  destruct (on_ok_ex (ex_run ex_ind (fresh ex_ind) 8 (33#10)) (fun d1 => negb (d_fin d1) && on_ok (ex_run ex_ind d1 8 (33#10)) (fun d2 => d_fin d2 &&
    on_ok (ex_run ex_ind (set_state d2 (get_state (fresh ex_ind))) 8 (33#10)) (fun d3 => d_fin d3 && 
    (List.length (flat_map line_chunks (d_lines d3)) <? List.length (chunks (all_toks (c_content ex_ind))))%nat)))) as (d1 & E1 & T).
  - vm_compute. reflexivity.
  - apply andb_true_iff in T as [T1 T]. apply on_ok_ex in T as (d2 & E2 & T). apply andb_true_iff in T as [T2 T].
    apply on_ok_ex in T as (d3 & E3 & T). apply andb_true_iff in T as [T3 T]. apply negb_true_iff in T1. apply Nat.ltb_lt in T.
    exists ex_ind, d1, d2, d3, 8%Q, (33#10)%Q. split; [exact E1|]. split; [exact T1|]. split; [exact E2|]. split; [exact T2|]. split; [exact E3|]. split; [exact T3|exact T].
Qed.
Print Assumptions C36_finished_refuted.
