(** Theorems for C60: the lines of a paragraph do not overlap. *)
From Coq Require Import String QArith Qabs Lqa Lia.
From Verif Require Import Py PyStr Gfx TextLayout TextProofs TextWords TextOrder TextFit TextWidth TextEmit TextMarks TextTerm TextApart TextRound PText PText2.
Open Scope list_scope.

(** A text that is shown takes the place from its baseline, moved by its rise,
    to its font size over that. *)
Definition text_bottom (p : paint) : Q := match p with PShow _ _ _ rise _ (_, y) _ => (y + rise)%Q | _ => 0%Q end.
Definition text_top (p : paint) : Q := match p with PShow _ (Some (_, size)) _ rise _ (_, y) _ => (y + rise + size)%Q | _ => 0%Q end.
Definition text_line (p : paint) : Q := match p with PShow _ _ _ _ _ (_, y) _ => y | _ => 0%Q end.
(** The second text is on the line of the first one, or under it, except for
    [off]. *)
Definition on_or_under (off : Q) (p q : paint) : Prop := (text_line p == text_line q \/ text_top q <= text_bottom p + off)%Q.

Section Text.
Variable round3 : Q -> Q.
Variable text_w : fkey -> str -> Q.
Variable space_w : fkey -> Q.
Variable fref : fkey -> str.
Notation run := (run round3 text_w space_w fref).
Hypothesis round3_proper : forall x y, (x == y)%Q -> (round3 x == round3 y)%Q.

(** C60: in each run, from the position (a, b) in a rectangle of height [h],
    texts are under the top and over the bottom of the rectangle, and texts of
    a line are under those of the lines before it, when the line height factor
    is at least 1 and text that goes before a line break is not lowered more
    than that.  All this except for the rounding of the numbers that are
    written: with [n] lines, [n + 2] times the error [eps] of one rounding. *)
Theorem C60_lines_apart_partial : forall c ds d w h d' r a b eps, (forall q, (Qabs (round3 q - q) <= eps)%Q) -> c_list c = None ->
  (1 <= c_lh c)%Q ->
  ~ In CBr (c_content c) \/ (forall t y ids, In (CText t y ids) (c_content c) -> - c_lh c <= t_rise (y_state y))%Q ->
  between round3 text_w space_w fref c ds d -> run c d w h = Ok d' -> r_line r = Some (a, b) ->
  let off := (inject_Z (Z.of_nat (List.length (d_lines d') + 2)) * eps)%Q in
  exists r' qs, execs (e_text (d_em d')) r = (r', qs) /\ List.length qs = List.length (flat_map line_shows (d_lines d')) /\
    Forall (fun p => text_top p <= b + off /\ b - h - off <= text_line p)%Q qs /\ ForallOrdPairs (on_or_under off) qs.
Proof.
  intros c ds d w h d' r a b eps Hex Hl Hlh Hlow Hb E Hr off. change off with (times (List.length (d_lines d') + 2) eps). clear off.
  set (n := List.length (d_lines d')).
  assert (Hoff : (times (n + 2) eps == times n eps + eps + eps)%Q).
  { replace (n + 2)%nat with (S (S n)) by lia. rewrite !times_S. reflexivity. }
  pose proof (eps_pos round3 eps Hex) as He.
  pose proof (run_tops round3 text_w space_w fref c (placed ds) d w h d' (between_paused _ _ _ _ _ _ _ Hb) E) as Hok.
  destruct (run_emit round3 text_w space_w fref round3_proper c d w h d' r a b E Hr) as [Hlen _ _ _ _ (r' & pre & qs & X & Hpre & _ & HF & _)].
  assert (Hpre0 : pre = []).
  { destruct pre as [|p pre]; [reflexivity|]. inversion Hpre as [|? ? Hp _]; subst. unfold is_list_show in Hp. rewrite Hl in Hp. destruct Hp. }
  subst pre. cbn [app] in X. exists r', qs. split; [exact X|].
  assert (Hs : forall u p, shows_part round3 space_w fref (x_ok c d) (y_ok c) (g_ctm (r_gs r)) u p ->
    (text_line p == snd (snd u) /\
     snd (snd u) + t_rise (y_state (lp_style (fst (fst u)))) - eps <= text_bottom p /\
     text_top p <= snd (snd u) + t_rise (y_state (lp_style (fst (fst u)))) + t_size (y_state (lp_style (fst (fst u)))) + eps + eps)%Q).
  { intros [[p f] [x y]] q Hq. unfold shows_part in Hq. destruct q as [| |m font fill rs sp [lx ly] s|]; try contradiction.
    destruct Hq as (_ & (H1 & _ & H2) & _ & [_ H3] & _). specialize (H3 Hl). cbn in *.
    pose proof (round_near round3 eps Hex (t_rise (y_state (lp_style p)))). pose proof (round_near round3 eps Hex (t_size (y_state (lp_style p)))).
    destruct font as [[fn fs]|]; [|contradiction]. destruct H1 as [_ H1]. repeat split; lra. }
  split; [|split].
  - assert (G : forall pos lks bef qs, Forall2 (shows_part round3 space_w fref (x_ok c d) (y_ok c) (g_ctm (r_gs r)))
        (wants_at pos bef lks) qs -> List.length qs = List.length (flat_map line_shows (map fst lks))).
    { clear. intros pos. induction lks as [|[l k] lks IH]; intros bef qs HF; cbn [wants_at map fst flat_map] in *; [inversion HF; reflexivity|].
      apply Forall2_app_inv_l in HF as (q1 & q2 & F1 & F2 & ->). rewrite !app_length, (IH _ _ F2). f_equal.
      unfold line_wants, line_shows in *.
      assert (L : forall {A B} (R : A -> B -> Prop) l m, Forall2 R l m -> List.length l = List.length m) by (clear; induction 1; cbn; congruence).
      rewrite <- (L _ _ _ _ _ F1), map_length. clear. induction (l_parts l) as [|p ps IH]; [reflexivity|]. cbn [map filter].
      destruct (nonempty (part_text p)); cbn [List.length]; congruence. }
    rewrite (G _ _ _ _ HF), map_fst_combine by exact Hlen. reflexivity.
  - pose proof (wants_at_inside round3 eps Hex c round3 a b 0 (d_lines d') (d_marks d') Hlh Hok Hlen) as Hin. fold n in Hin.
    assert (Hh : d_lines d' <> [] -> (total_height c (d_lines d') <= h)%Q).
    { destruct (run_height round3 text_w space_w fref c d w h d' E) as [_ _ H1 H2 _ _]. intros Hn. specialize (H2 Hn). lra. }
    assert (Hne : forall w, In w (wants_at (rpos round3 c round3 a b 0) [] (combine (d_lines d') (d_marks d'))) -> d_lines d' <> []).
    { intros u Hu Hn. rewrite Hn in Hu. destruct Hu. }
    clear X. induction HF as [|u p us ps Hup HF IH]; [constructor|]. inversion Hin as [|? ? H1 H2]; subst. constructor.
    + specialize (Hh (Hne u (or_introl eq_refl))). destruct (Hs _ _ Hup) as (S1 & S2 & S3). destruct u as [[q f] [x y]].
      destruct H1 as [H1 H1']. cbn [fst snd] in *. split; lra.
    + apply IH; [exact H2|]. intros v Hv. apply (Hne v). right. exact Hv.
  - assert (Hlow' : ~ In CBr (c_content c) \/ forall y, In y (styles (c_content c)) -> (- c_lh c <= t_rise (y_state y))%Q).
    { destruct Hlow as [H|H]; [left; exact H|right]. intros y Hy0. apply in_flat_map in Hy0 as (x & Hx & Hy0).
      destruct x as [|t y0 ids|]; try destruct Hy0; [subst; exact (H _ _ _ Hx)|contradiction]. }
    assert (Hc : qs = [] \/ d_lines d' <> []).
    { destruct (d_lines d'); [left|right; discriminate]. inversion HF. reflexivity. }
    destruct Hc as [->|Hc]; [constructor|].
    refine (pairs_transfer _ _ _ _ _ _ HF (wants_at_under round3 eps Hex c round3 a b 0 (d_lines d') (d_marks d') Hlh Hlow' Hok Hlen)).
    assert (Hn : (times n eps == times (pred n) eps + eps)%Q).
    { unfold n. destruct (d_lines d'); [congruence|]. cbn [List.length pred]. apply times_S. }
    fold n. intros [[p f] [x y]] [[p' f'] [x' y']] q q' H1 H2 HR. destruct (Hs _ _ H1) as (A1 & A2 & A3), (Hs _ _ H2) as (B1 & B2 & B3).
    unfold under_near in HR. cbn [fst snd] in *. unfold on_or_under. destruct HR as [HR|HR]; [left; lra|right]. lra.
Qed.
End Text.
Print Assumptions C60_lines_apart_partial.

Definition ex_rise (size rise : Q) : style := mkStyle (mkState (lit "Helvetica", lit "n") size (Some (Gray 0)) rise) false None.
(** Raised and lowered text in three lines. *)
Definition ex_apart : config :=
  mkCfg [CText (lit "aa bb ") (ex_style 2) []; CText (lit "cc ") (ex_rise 2 (-3)) []; CText (lit "dd ee") (ex_rise 1 2) []] ALeft 1 0 None.
Example C60_nonvacuous : exists d, ex_run ex_apart (fresh ex_apart) 12 40 = Ok d /\ d_fin d = true /\
  List.length (d_lines d) = 2%nat /\ between (fun q => q) ex_text_w ex_space_w ex_ref ex_apart [] (fresh ex_apart).
Proof. eexists. split; [vm_compute; reflexivity|]. split; [reflexivity|]. split; [reflexivity|]. split; [exists []; reflexivity|]. split; reflexivity. Qed.

(** Numbers are written with three decimals: a rounding like that is off by at
    most half a thousandth, and moves the lines of this text. *)
Definition thousandths (q : Q) : Q := (inject_Z (Qround.Qfloor (q * 1000 + (1#2))) / 1000)%Q.
Lemma thousandths_near q : (Qabs (thousandths q - q) <= 1#2000)%Q.
Proof.
  pose proof (Qround.Qfloor_le (q * 1000 + (1#2))) as H1. pose proof (Qround.Qlt_floor (q * 1000 + (1#2))) as H2.
  rewrite inject_Z_plus in H2. change (inject_Z 1) with 1%Q in H2. unfold thousandths. set (z := inject_Z _) in *. clearbody z.
  apply abs_iff. unfold Qdiv. change (/ 1000)%Q with (1#1000)%Q. lra.
Qed.
Lemma thousandths_proper x y : (x == y)%Q -> (thousandths x == thousandths y)%Q.
Proof. intros H. unfold thousandths. rewrite (Qround.Qfloor_comp (x * 1000 + (1#2)) (y * 1000 + (1#2))); [reflexivity|]. rewrite H. reflexivity. Qed.
Definition ex_thirds : config := mkCfg [CText (lit "aa bb") (ex_style (4#3)) []] ALeft (10#9) 0 None.
Example C60_rounding : exists d, TextLayout.run thousandths ex_text_w ex_space_w ex_ref ex_thirds (fresh ex_thirds) 4 40 = Ok d /\ d_fin d = true /\
  exists l0 l1 p q, d_lines d = [l0; l1] /\ snd (execs (e_text (d_em d)) ex_reader) = [p; q] /\
    ~ (text_line q == text_line p - line_height l1 * c_lh ex_thirds)%Q.
Proof.
  eexists. split; [vm_compute; reflexivity|]. split; [reflexivity|]. eexists _, _, _, _. split; [reflexivity|].
  split; [vm_compute; reflexivity|]. discriminate.
Qed.

(** Text that is lowered before a line break is covered by the next line: the
    room under it is forgotten (text.py 650-655). *)
Definition ex_low : config := mkCfg [CText (lit "aa") (ex_rise 1 (-3)) []; CBr; CText (lit "bb") (ex_rise 4 0) []] ALeft 1 0 None.
Theorem C60_lines_apart_refuted : exists c w h d r p q, c_list c = None /\ (1 <= c_lh c)%Q /\
  ex_run c (fresh c) w h = Ok d /\ r_line r = Some (0, 0)%Q /\
  snd (execs (e_text (d_em d)) r) = [p; q] /\ (text_line q < text_line p)%Q /\ (text_bottom p < text_top q)%Q.
Proof.
  eexists ex_low, 20%Q, 40%Q, _, ex_reader, _, _. split; [reflexivity|]. split; [discriminate|].
  split; [vm_compute; reflexivity|]. split; [reflexivity|]. split; [vm_compute; reflexivity|]. split; reflexivity.
Qed.
Print Assumptions C60_lines_apart_refuted.
