(** Theorem for C59 with list texts: backgrounds, underlines and link
    rectangles of list paragraphs. *)
From Coq Require Import String QArith Lqa Lia.
From Verif Require Import Py PyStr Gfx TextLayout TextProofs TextWords TextOrder TextFit TextWidth TextEmit TextMarks TextPaint TextTerm TextApart TextList PText PText2 PListLines.
Open Scope list_scope.

Section Marks.
Variable round3 : Q -> Q.
Variable text_w : fkey -> str -> Q.
Variable space_w : fkey -> Q.
Variable fref : fkey -> str.
Hypothesis round3_proper : forall x y, (x == y)%Q -> (round3 x == round3 y)%Q.
Notation run := (run round3 text_w space_w fref).
Notation width_of := (width_of text_w space_w).
Notation between := (between round3 text_w space_w fref).
Notation spots := (spots text_w space_w).
Notation line_spots := (line_spots text_w space_w).
Notation sees := (sees round3).

(** The places of parts, [q] lower. *)
Definition lower (q : Q) (s : spot) : spot := mkSpot (sp_of s) (sp_x s) (sp_y s - q) (sp_w s).

Lemma lower_spots q f : forall ps x y, map (lower q) (filter visible (spots f x y ps)) = filter visible (spots f x (y - q) ps).
Proof.
  induction ps as [|p ps IH]; intros x y; cbn [TextPaint.spots filter map]; [reflexivity|].
  change (visible (mkSpot p x (y - q) (width_of f (ptoks p)))) with (visible (mkSpot p x y (width_of f (ptoks p)))).
  destruct (visible _); cbn [map]; rewrite IH; reflexivity.
Qed.

Variable c : config.
Variable li : listinfo.
Hypothesis is_list : c_list c = Some li.
Variable y0 : style.
Variable first : bool.
Variable r : reader.
Notation extra d := (list_extra li y0 first (d_lines d)).

Record list_paint (d : dyn) : Prop := {
  lp_len : List.length (d_marks d) = List.length (d_lines d);
  lp_y : (e_y (d_em d) == - total_height c (d_lines d) - extra d)%Q;
  lp_started : e_started (d_em d) = negb (no_lines d);
  lp_first : d_first d = first && no_lines d;
  lp_sees : sees (d_em d) (g_ctm (r_gs r)) r (map (lower (extra d)) (line_spots c [] (combine (d_lines d) (d_marks d)))) }.

Lemma list_paint_line d l bl e x q f k : list_paint d -> known text_w li y0 d -> parts_ok text_w space_w (l_parts l) ->
  add_line_to_stream round3 space_w fref c d l bl = Ok (e, x, q, f, k) -> list_paint (accept c d l (mkMark bl x q) e f k).
Proof.
  intros [A B C F D] [_ K1 K2] Hp Es. unfold add_line_to_stream in Es.
  destruct (start_line round3 fref c d l bl) as [[[[[e1 x1] q1] f1] k1]|er] eqn:Est; [|discriminate]. cbn [bind] in Es.
  apply Ok_inj in Es. rewrite !pair_equal_spec in Es. destruct Es as [[[[<- <-] <-] <-] <-].
  destruct (emit_parts_keeps round3 space_w fref (l_parts l) q1 x1 e1) as (Ks & K & _).
  assert (S : e_started e1 = true /\ f1 = false /\ gcore (d_em d) = gcore e1 /\
    (e_y e1 == - total_height c (d_lines d ++ [l]) - list_extra li y0 first (d_lines d ++ [l]))%Q).
  { unfold start_line in Est. rewrite is_list, K1, K2, C in Est. cbn [bind] in Est. rewrite total_height_snoc.
    unfold no_lines in *. destruct (d_lines d) as [|l0 ls0] eqn:Ed; cbn [negb] in Est.
    - rewrite andb_true_r in F. rewrite F in Est. cbn [list_extra total_height app] in B |- *.
      destruct first; apply Ok_inj in Est; rewrite !pair_equal_spec in Est; destruct Est as [[[[<- _] _] <-] _];
        (split; [reflexivity|]; split; [try exact F; reflexivity|]; split; [reflexivity|]); unfold add_ops; cbn [e_y andb]; rewrite B; cbn [list_extra].
      + match goal with |- context [if ?t then _ else _] => destruct t end; ring.
      + ring.
    - rewrite andb_false_r in F. apply Ok_inj in Est; rewrite !pair_equal_spec in Est; destruct Est as [[[[<- _] _] <-] _].
      split; [reflexivity|]. split; [exact F|]. split; [reflexivity|]. unfold add_ops. cbn [e_y]. rewrite B. cbn [list_extra app]. ring. }
  destruct S as (S1 & -> & S3 & S4).
  constructor; cbn [accept d_lines d_marks d_em d_first].
  - rewrite !app_length. cbn. congruence.
  - rewrite K. exact S4.
  - unfold no_lines. cbn. rewrite Ks, S1. destruct (d_lines d); reflexivity.
  - rewrite accept_no_lines. now rewrite andb_false_r.
  - rewrite combine_snoc by exact A. rewrite line_spots_snoc, map_app. cbn [app k_factor k_x]. rewrite map_fst_combine by exact A.
    rewrite lower_spots. apply emit_parts_sees; [exact round3_proper|exact Hp|reflexivity|exact S4|].
    refine (sees_core round3 (d_em d) e1 _ _ _ S3 _).
    destruct (d_lines d) as [|l0 ls0] eqn:Ed; [|exact D]. destruct (d_marks d); [exact D|discriminate A].
Qed.
Lemma list_paint_core d d1 : core d = core d1 -> list_paint d -> list_paint d1.
Proof.
  unfold core. intros E. rewrite !pair_equal_spec in E. destruct E as [[[[[[[H1 H2] H3] H4] H5] H6] H7] H8].
  assert (Hn : no_lines d1 = no_lines d) by (unfold no_lines; now rewrite H6).
  intros [A B C D E]. constructor; rewrite ?Hn; rewrite <- ?H1, <- ?H2, <- ?H3, <- ?H6, <- ?H7, <- ?H8; assumption.
Qed.
Lemma list_paint_init d w h : d_first d = first -> r_path r = [] -> list_paint (init_run d w h).
Proof.
  intros Hf Hr. constructor; try reflexivity.
  - cbn. now rewrite Hf, andb_true_r.
  - cbn [init_run d_lines d_marks d_em combine TextPaint.line_spots map].
    split; [constructor|]. exists r, []. split; [reflexivity|]. split; [constructor|]. split; [|repeat split; assumption].
    repeat split; discriminate.
Qed.
End Marks.

Section Text.
Variable round3 : Q -> Q.
Variable text_w : fkey -> str -> Q.
Variable space_w : fkey -> Q.
Variable fref : fkey -> str.
Notation run := (run round3 text_w space_w fref).
Notation between := (between round3 text_w space_w fref).
Hypothesis round3_proper : forall x y, (x == y)%Q -> (round3 x == round3 y)%Q.

(** C59 for list paragraphs: the graphics operators of a run paint the
    backgrounds and underlines of the parts that show something, and the
    rectangles of their ids cover them, where C38_list_partial says that these
    parts are: [down] ([list_extra]) lower than the heights of the lines say, which is 0
    unless the list text is higher than the first line. *)
Theorem C59_list : forall c li y0 ds d w h d' r, c_list c = Some li -> first_style (c_content c) = Some y0 ->
  between c ds d -> r_path r = [] -> run c d w h = Ok d' ->
  let down := list_extra li y0 (d_first d) (d_lines d') in
  let ss := map (lower down) (line_spots text_w space_w c [] (combine (d_lines d') (d_marks d'))) in
  Forall2 (box_of round3) (wanted_boxes ss) (e_ids (d_em d')) /\
  exists r' ps, execs (e_gfx (d_em d')) r = (r', ps) /\
    Forall2 (paints round3 (g_ctm (r_gs r))) (flat_map wanted_marks ss) ps.
Proof.
  intros c li y0 ds d w h d' r Hl Hy Hbt Hr E down ss.
  pose proof (between_begins round3 text_w space_w fref c li y0 ds d Hl Hy Hbt) as Hb.
  destruct (list_run round3 text_w space_w fref c li Hl y0 Hy (placed ds) (list_paint round3 text_w space_w c li y0 (d_first d) r)
    (list_paint_core round3 text_w space_w c li y0 (d_first d) r)
    (fun s l bl e x q f k => list_paint_line round3 text_w space_w fref round3_proper c li Hl y0 (d_first d) r s l bl e x q f k)
    d w h d' (between_paused _ _ _ _ _ _ _ Hbt) Hb (list_paint_init round3 text_w space_w c li y0 (d_first d) r d w h eq_refl Hr) E) as [[_ _ _ _ [A (r' & ps & X1 & X2 & _)]] _].
  split; [exact A|]. exists r', ps. split; assumption.
Qed.
End Text.
Print Assumptions C59_list.

(** A list item with a marked part and a list text higher than its first line:
    the marks are lowered with the line. *)
Definition ex_marked_item : config :=
  mkCfg [CText (lit "aa bb ") (ex_mark 2) [lit "a"]; CBr; CText (lit "cc dd") (ex_mark 1) []] ALeft 1 1 (Some (mkList (lit "-") (Some 4%Q) big_mark)).
Example C59_list_applies : exists li y0 d, c_list ex_marked_item = Some li /\ first_style (c_content ex_marked_item) = Some y0 /\
  between (fun q => q) ex_text_w ex_space_w ex_ref ex_marked_item [] (fresh ex_marked_item) /\
  ex_run ex_marked_item (fresh ex_marked_item) 20 40 = Ok d /\ d_fin d = true /\
  (list_extra li y0 true (d_lines d) == 2)%Q /\
  List.length (flat_map wanted_marks (line_spots ex_text_w ex_space_w ex_marked_item [] (combine (d_lines d) (d_marks d)))) = 6%nat /\
  List.length (e_ids (d_em d)) = 1%nat.
Proof.
  eexists _, _, _. split; [reflexivity|]. split; [reflexivity|]. split; [split; [exists []; reflexivity|split; reflexivity]|].
  split; [vm_compute; reflexivity|]. split; [reflexivity|]. split; [vm_compute; reflexivity|]. split; [vm_compute; reflexivity|vm_compute; reflexivity].
Qed.
