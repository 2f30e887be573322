(** Theorems for C37, C38 and C60 with list texts: where the lines of a list
    paragraph are. *)
From Coq Require Import String QArith Qabs Lqa Lia.
From Verif Require Import Py PyStr Gfx TextLayout TextProofs TextWords TextOrder TextFit TextWidth TextEmit TextMarks TextTerm TextApart TextRound TextList PText PText2 PApart.
Open Scope list_scope.

Section Text.
Variable round3 : Q -> Q.
Variable text_w : fkey -> str -> Q.
Variable space_w : fkey -> Q.
Variable fref : fkey -> str.
Notation run := (run round3 text_w space_w fref).
Notation runs := (runs round3 text_w space_w fref).
Notation width_of := (width_of text_w space_w).
Notation between := (between round3 text_w space_w fref).
Hypothesis round3_proper : forall x y, (x == y)%Q -> (round3 x == round3 y)%Q.

(** ** Between runs *)

Lemma paused_begins c li y0 : c_list c = Some li -> first_style (c_content c) = Some y0 ->
  forall rects done d ds, paused c done d -> begins text_w c li y0 d -> runs c d rects = Ok ds -> d_fin (last ds d) = false ->
  begins text_w c li y0 (last ds d).
Proof.
  intros Hl Hy. induction rects as [|[w h] rects IH]; intros done d ds Hd Hb E Hf; cbn [TextLayout.runs] in E.
  - injection E as <-. exact Hb.
  - destruct (run c d w h) as [d1|e] eqn:Er; [|discriminate]. cbn [bind] in E.
    destruct (list_run round3 text_w space_w fref c li Hl y0 Hy done (fun _ => True) (fun _ _ _ _ => I) (fun _ _ _ _ _ _ _ _ _ _ _ _ => I) d w h d1 Hd Hb I Er) as [_ Hb1].
    pose proof (run_order _ _ _ _ c done d w h d1 Hd Er) as HF. destruct HF as [[Hf1 HF]|(Hf1 & HF & H1 & H2)]; rewrite Hf1 in E.
    + injection E as <-. cbn in Hf. congruence.
    + destruct (runs c d1 rects) as [rest|e] eqn:Err; [|discriminate]. cbn [bind] in E. injection E as <-.
      rewrite last_cons in *. apply (IH (done ++ lc (d_lines d1))) with (3 := Err); [|apply Hb1; exact Hf1|exact Hf].
      repeat split; try assumption; apply HF.
Qed.
Lemma between_begins c li y0 ds d : c_list c = Some li -> first_style (c_content c) = Some y0 -> between c ds d ->
  begins text_w c li y0 d.
Proof.
  intros Hl Hy ((rects & E) & -> & Hf). exact (paused_begins c li y0 Hl Hy rects [] (fresh c) ds (paused_fresh c) (begins_fresh text_w c li Hl y0) E Hf).
Qed.

(** ** Checkpoints *)

(** C36 for list paragraphs whose first line is written: restoring a
    checkpoint of one history in another one, the run puts the same parts in
    the same lines, at the same places and with the same spaces, and, unless
    not even one line fits, the next checkpoint is the same. *)
Theorem C36_list_partial : forall c li y0 ds d es e w h d', c_list c = Some li ->
  first_style (c_content c) = Some y0 -> between c ds d -> between c es e -> d_first d = false -> d_first e = false ->
  run c d w h = Ok d' ->
  exists e', run c (set_state e (get_state d)) w h = Ok e' /\ d_lines e' = d_lines d' /\ d_marks e' = d_marks d' /\
    (d_lines d' <> [] -> get_state e' = get_state d').
Proof.
  intros c li y0 ds d es e w h d' Hl Hy Hd He Fd Fe E.
  assert (K : forall l s, between c l s -> d_first s = false -> known text_w li y0 s).
  { intros l s Hs Fs. destruct (between_begins c li y0 l s Hl Hy Hs) as [H|[H _]]; [exact H|]. destruct H. congruence. }
  pose proof (K _ _ Hd Fd) as [K1 K2 K3]. pose proof (K _ _ He Fe) as [K4 K5 K6].
  assert (HL : list_alike c d (set_state e (get_state d))).
  { unfold list_alike. rewrite Hl. cbn. repeat split; congruence. }
  assert (Hf : d_first (set_state e (get_state d)) = d_first d) by (cbn; congruence).
  pose proof (replay round3 text_w space_w fref c d (set_state e (get_state d)) w h eq_refl eq_refl Hf HL) as H.
  rewrite E in H. destruct (run c (set_state e (get_state d)) w h) as [e'|]; [|contradiction]. exists e'. split; [reflexivity|apply H].
Qed.

(** ** Positions *)

(** The list text: its own words with its own font, size, rise and colour, at
    the left edge [a]. *)
Definition shows_list (ctm : matrix) (li : listinfo) (y0 : style) (a : Q) (p : paint) : Prop :=
  let st := y_state (li_style li y0) in
  match p with
  | PShow m (Some (font, size)) fill rise _ (x, _) s =>
      m = ctm /\ s = li_text li /\ font = fref (t_font st) /\ (size == round3 (t_size st))%Q /\ (rise == round3 (t_rise st))%Q /\
      (forall col, t_color st = Some col -> rgb_eq fill (round_rgb round3 col)) /\ (x == a)%Q
  | _ => False
  end.

(** C38 for list paragraphs: the run that writes the first line shows the list
    text first, once, at the left edge; every part is shown on a line that
    starts [k_x] to the right of the left edge, and the lines are [down] lower
    than their heights say, which is 0 unless the list text is higher than the
    first line.  [k_x] is the room of the list text for every line of
    left-aligned and justified text, with the indent on the first one.  The
    moves from line to line are rounded, so that in a run with [n] lines they
    are off by up to [n] times the error [eps] of one rounding. *)
Theorem C38_list_partial : forall c li y0 ds d w h d' r a b eps, (forall q, (Qabs (round3 q - q) <= eps)%Q) -> c_list c = Some li ->
  first_style (c_content c) = Some y0 ->
  (c_indent c == 0)%Q \/ (c_align c <> ACenter /\ c_align c <> ARight /\ d_correct d = d_first d) ->
  between c ds d -> run c d w h = Ok d' -> r_line r = Some (a, b) ->
  let off := (inject_Z (Z.of_nat (List.length (d_lines d'))) * eps)%Q in
  let down := list_extra li y0 (d_first d) (d_lines d') in
  (exists r' pre qs, execs (e_text (d_em d')) r = (r', pre ++ qs) /\
     (if d_first d then match d_lines d' with [] => pre = [] | _ => exists p, pre = [p] /\ shows_list (g_ctm (r_gs r)) li y0 a p end else pre = []) /\
     Forall2 (shows_near round3 space_w fref off (g_ctm (r_gs r))) (wants c a (b - down) [] (combine (d_lines d') (d_marks d'))) qs /\
     (0 <= down)%Q /\
     (d_first d = false \/ (exists p l ls, d_lines d' = l :: ls /\ In p (l_parts l) /\
        t_size (y_state (li_style li y0)) <= t_size (y_state (lp_style p)))%Q -> 0 <= c_lh c -> (down == 0))%Q) /\
  (forall i l k, nth_error (d_lines d') i = Some l -> nth_error (d_marks d') i = Some k -> c_align c <> ACenter -> c_align c <> ARight ->
     (k_x k == list_indent text_w li y0 + (if d_first d && (i =? 0)%nat then c_indent c else 0))%Q).
Proof.
  intros c li y0 ds d w h d' r a b eps Hex Hl Hy Hind Hbt E Hr off down. subst down.
  pose proof (between_begins c li y0 ds d Hl Hy Hbt) as Hb. pose proof (between_paused _ _ _ _ _ _ _ Hbt) as Hpa.
  destruct (run_list round3 text_w space_w fref round3_proper c li Hl y0 d w r a b Hy (placed ds) h d' Hr Hpa Hb E) as [[W L S F C I M X] _].
  assert (Hx : x_good c d).
  { destruct Hind as [H|(H1 & H2 & H3)]; [left; exact H|right]. split; [destruct (c_align c); try reflexivity; congruence|exact H3]. }
  split.
  - destruct X as (r' & pre & qs & X1 & X2 & X3 & _). exists r', pre, qs.
    split; [exact X1|]. split; [|split; [|split]].
    + unfold list_pre in X2. destruct (d_lines d') as [|l ls]; [destruct (d_first d); exact X2|]. destruct (d_first d); [|exact X2].
      destruct X2 as (p & -> & Hp). exists p. split; [reflexivity|]. unfold list_show in Hp. destruct p as [| |m font fill rise sp [px py] s|]; try contradiction.
      destruct Hp as (H1 & (H2 & H3 & H4) & H5 & H6 & _). cbn. destruct font as [[fn sz]|]; [|contradiction]. destruct H2 as [H2 H2'].
      repeat split; assumption.
    + assert (Hg : forall q, (Qabs (first_move round3 d q - q) <= eps)%Q).
      { intros q. unfold first_move. destruct (d_first d); [|apply Hex]. pose proof (eps_pos round3 eps Hex). apply abs_iff. lra. }
      pose proof (wants_near round3 eps Hex c (first_move round3 d) a b (list_extra li y0 (d_first d) (d_lines d')) (combine (d_lines d') (d_marks d')) Hg []) as HN.
      cbn [app map] in HN.
      assert (HL : List.length (combine (d_lines d') (d_marks d')) = List.length (d_lines d')) by (rewrite combine_length; lia).
      rewrite HL in HN. change (times (List.length (d_lines d')) eps) with off in HN.
      exact (Forall2_through _ _ _ _ _ _ (fun u v p => shows_near_of round3 space_w fref _ _ off _ u v p Hx Logic.I) HN X3).
    + unfold list_extra. destruct (d_lines d') as [|l ls]; [lra|]. match goal with |- context [if ?t then _ else _] => destruct t eqn:Eq end; [|lra].
      apply andb_true_iff in Eq as [_ Eq]. apply qgtb_true in Eq. lra.
    + intros Hs Hlh. unfold list_extra. destruct (d_lines d') as [|l ls] eqn:Ed; [reflexivity|]. match goal with |- context [if ?t then _ else _] => destruct t eqn:Eq end; [exfalso|reflexivity].
      apply andb_true_iff in Eq as [Ef Eq]. apply qgtb_true in Eq. destruct Hs as [Hs|(p & l' & ls' & Els & Hp & Hs)]; [congruence|].
      injection Els as <- <-. destruct (max_size_ge (l_parts l)) as [M1 M2], (top_rise_ge (l_parts l)) as [T1 _]. specialize (M2 p Hp).
      pose proof (run_tops round3 text_w space_w fref c (placed ds) d w h d' Hpa E) as Hok. rewrite Ed in Hok. destruct (Hok [] l ls eq_refl) as [Ht _].
      cbn in Ht. unfold line_height in Eq. rewrite Ht in Eq. lra.
  - intros i l k Hi Hk Ha1 Ha2.
    assert (H : nth_error (combine (d_lines d') (d_marks d')) i = Some (l, k)).
    { clear - Hi Hk L. revert i Hi Hk L. generalize (d_marks d') as ks. induction (d_lines d') as [|l0 ls IH]; intros [|k0 ks] [|i] Hi Hk B;
        cbn in *; try discriminate; [congruence|]. apply IH; congruence. }
    pose proof (ll_x _ _ _ _ _ _ _ _ _ (list_lines_nth text_w space_w c li y0 w _ _ _ _ _ M H)) as Hk'. rewrite Hk'.
    unfold line_start, line_indent. destruct (c_align c); try congruence; ring.
Qed.

(** C37 for list paragraphs: a justified line that is not marked as the last
    one and has a space ends exactly at the right edge. *)
Theorem C37_list_partial : forall c li y0 ds d w h d' i l k, c_list c = Some li ->
  first_style (c_content c) = Some y0 -> c_align c = AJust -> between c ds d ->
  run c d w h = Ok d' -> nth_error (d_lines d') i = Some l -> nth_error (d_marks d') i = Some k ->
  (k_last k = false -> has_space l -> (forall y, In (TSpace y) (ltoks (l_parts l)) -> 0 < spw space_w y)%Q ->
   (k_x k + width_of (k_factor k) (ltoks (l_parts l)) == w)%Q) /\
  (k_last k = true -> k_factor k = 1%Q).
Proof.
  intros c li y0 ds d w h d' i l k Hl Hy Ha Hbt E Hi Hk.
  pose proof (between_begins c li y0 ds d Hl Hy Hbt) as Hb. pose proof (between_paused _ _ _ _ _ _ _ Hbt) as Hpa.
  destruct (run_list round3 text_w space_w fref round3_proper c li Hl y0 d w ex_reader 0%Q 0%Q Hy (placed ds) h d' eq_refl Hpa Hb E) as [[W L S F C I M X] _].
  assert (H : nth_error (combine (d_lines d') (d_marks d')) i = Some (l, k)).
  { clear - Hi Hk L. revert i Hi Hk L. generalize (d_marks d') as ks. induction (d_lines d') as [|l0 ls IH]; intros [|k0 ks] [|i] Hi Hk B;
      cbn in *; try discriminate; [congruence|]. apply IH; congruence. }
  destruct (list_lines_nth text_w space_w c li y0 w _ _ _ _ _ M H) as [A _ P Fi]. split.
  - intros Hkl Hs Hpos. destruct (gaps_pos space_w _ Hpos) as [_ G]. specialize (G Hs). apply (Fi Ha Hkl). rewrite (spaces_gaps _ _ _ A). lra.
  - intros Hkl. apply P. right. left. exact Hkl.
Qed.

(** Parts after the first line are under it. *)
Lemma wants_below eps c g x y ex l0 k0 ls (ks : list mark) : (forall q, (Qabs (round3 q - q) <= eps)%Q) ->
  (1 <= c_lh c)%Q -> TextApart.lines_ok c (l0 :: ls) -> List.length ks = List.length ls ->
  Forall (fun w : lpart * Q * (Q * Q) => let '(p, _, (_, y1)) := w in
    y1 + t_rise (y_state (lp_style p)) + t_size (y_state (lp_style p)) <= y - round3 (ex + line_height l0) + times (List.length ls) eps)%Q
    (wants_at (rpos round3 c g x y ex) [(l0, k0)] (combine ls ks)).
Proof.
  intros Hex Hlh Hok Hlen. apply Forall_forall. intros w Hw. destruct (wants_at_in _ _ _ _ Hw) as (a & l & k & b & p & Ea & -> & Hp).
  assert (E0 : ls = map fst a ++ l :: map fst b) by (rewrite <- (map_fst_combine ls ks Hlen), Ea, map_app; reflexivity).
  assert (E : l0 :: ls = (l0 :: map fst a) ++ l :: map fst b) by (rewrite E0; reflexivity).
  pose proof (cost_ge c Hlh _ Hok _ _ _ E) as H1. destruct (height_ge _ _ _ _ E) as [_ H2]. specialize (H2 p Hp).
  pose proof (top_ge0 c Hlh _ Hok _ _ _ E) as H3.
  assert (E2 : l0 :: ls = [l0] ++ map fst a ++ l :: map fst b) by exact E.
  pose proof (total_mono c Hlh _ Hok _ _ _ E2) as H4. cbn [total_height app] in *. change (rest_height c []) with 0%Q in H4.
  unfold rpos. cbn [app map fst]. rewrite map_app. cbn [map fst rtotal].
  pose proof (rrest_near round3 eps Hex c (map fst a ++ [l])) as H5.
  assert (HL : (times (List.length (map fst a ++ [l])) eps <= times (List.length ls) eps)%Q).
  { apply (times_le round3 eps Hex). rewrite E0, !app_length. cbn [List.length]. lia. }
  change (total_height c (l0 :: map fst a ++ [l])) with (line_height l0 + rest_height c (map fst a ++ [l]))%Q in *. lra.
Qed.

(** C60 for list paragraphs, when the list text is neither raised nor lowered:
    everything shown is under the top of the rectangle, texts of a line are
    under those of the lines before it and under the list text, and everything
    is over the bottom if the first line has a text at least as high as the
    list text.  All this except for the rounding of the numbers that are
    written: with [n] lines, [n + 2] times the error [eps] of one rounding. *)
Theorem C60_list_partial : forall c li y0 ds d w h d' r a b eps, (forall q, (Qabs (round3 q - q) <= eps)%Q) -> c_list c = Some li ->
  first_style (c_content c) = Some y0 -> (1 <= c_lh c)%Q -> (t_rise (y_state (li_style li y0)) == 0)%Q ->
  ~ In CBr (c_content c) \/ (forall t y ids, In (CText t y ids) (c_content c) -> - c_lh c <= t_rise (y_state y))%Q ->
  between c ds d -> run c d w h = Ok d' -> r_line r = Some (a, b) ->
  let off := (inject_Z (Z.of_nat (List.length (d_lines d') + 2)) * eps)%Q in
  exists r' qs, execs (e_text (d_em d')) r = (r', qs) /\
    Forall (fun p => text_top p <= b + off)%Q qs /\ ForallOrdPairs (on_or_under off) qs /\
    (d_first d = false \/ (exists p l ls, d_lines d' = l :: ls /\ In p (l_parts l) /\
        t_size (y_state (li_style li y0)) <= t_size (y_state (lp_style p)))%Q -> Forall (fun p => b - h - off <= text_line p)%Q qs).
Proof.
  intros c li y0 ds d w h d' r a b eps Hex Hl Hy Hlh Hrise Hlow Hbt E Hr off. change off with (times (List.length (d_lines d') + 2) eps). clear off.
  set (n := List.length (d_lines d')).
  assert (Hoff : (times (n + 2) eps == times n eps + eps + eps)%Q).
  { replace (n + 2)%nat with (S (S n)) by lia. rewrite !times_S. reflexivity. }
  pose proof (eps_pos round3 eps Hex) as He. pose proof (times_pos round3 eps Hex n) as Hn0.
  assert (Hn : d_lines d' <> [] -> (times n eps == times (pred n) eps + eps)%Q).
  { unfold n. destruct (d_lines d'); [congruence|]. intros _. cbn [List.length pred]. apply times_S. }
  pose proof (times_pos round3 eps Hex (pred n)) as Hn1.
  pose proof (between_begins c li y0 ds d Hl Hy Hbt) as Hb. pose proof (between_paused _ _ _ _ _ _ _ Hbt) as Hpa.
  pose proof (run_tops round3 text_w space_w fref c (placed ds) d w h d' Hpa E) as Hok.
  destruct (run_list round3 text_w space_w fref round3_proper c li Hl y0 d w r a b Hy (placed ds) h d' Hr Hpa Hb E) as [[_ Hlen _ _ _ _ _ X] _].
  destruct X as (r' & pre & qs & X1 & X2 & X3 & _). exists r', (pre ++ qs). split; [exact X1|]. clear X1.
  set (ex := list_extra li y0 (d_first d) (d_lines d')) in *.
  assert (Hex0 : (0 <= ex)%Q).
  { unfold ex, list_extra. destruct (d_lines d') as [|l ls]; [lra|]. match goal with |- context [if ?t then _ else _] => destruct t eqn:Eq end; [|lra].
    apply andb_true_iff in Eq as [_ Eq]. apply qgtb_true in Eq. lra. }
  assert (Hs : forall u p, shows_part round3 space_w fref (x_good c d) True (g_ctm (r_gs r)) u p ->
    (text_line p == snd (snd u) /\
     snd (snd u) + t_rise (y_state (lp_style (fst (fst u)))) - eps <= text_bottom p /\
     text_top p <= snd (snd u) + t_rise (y_state (lp_style (fst (fst u)))) + t_size (y_state (lp_style (fst (fst u)))) + eps + eps)%Q).
  { intros [[p f] [x y]] q Hq. unfold shows_part in Hq. destruct q as [| |m font fill rs sp [lx ly] s|]; try contradiction.
    destruct Hq as (_ & (H1 & _ & H2) & _ & [_ H3] & _). specialize (H3 Logic.I). cbn in *.
    pose proof (round_near round3 eps Hex (t_rise (y_state (lp_style p)))). pose proof (round_near round3 eps Hex (t_size (y_state (lp_style p)))).
    destruct font as [[fn fs]|]; [|contradiction]. destruct H1 as [_ H1]. repeat split; lra. }
  assert (Hh : d_lines d' <> [] -> (total_height c (d_lines d') <= h)%Q).
  { destruct (run_height round3 text_w space_w fref c d w h d' E) as [_ _ H1 H2 _ _]. intros Hne. specialize (H2 Hne). lra. }
  assert (Hpre : forall p, In p pre -> exists l ls, d_lines d' = l :: ls /\ (text_line p == b - round3 (ex + line_height l))%Q /\
    (text_line p - eps <= text_bottom p)%Q /\ (text_top p <= b + eps + eps + eps)%Q).
  { intros p Hp. unfold list_pre in X2. destruct (d_lines d') as [|l ls]; [subst pre; destruct Hp|]. destruct (d_first d) eqn:Ef; [|subst pre; destruct Hp].
    destruct X2 as (p' & -> & Hshow). destruct Hp as [<-|[]]. exists l, ls. split; [reflexivity|].
    unfold list_show in Hshow. destruct p' as [| |m font fill rise sp [px py] s|]; try contradiction. destruct Hshow as (_ & (H2 & _ & H4) & _ & _ & H6).
    fold ex in H6. destruct font as [[fn sz]|]; [|contradiction]. destruct H2 as [_ H2]. 
    pose proof (round_near round3 eps Hex (t_rise (y_state (li_style li y0)))). pose proof (round_near round3 eps Hex (t_size (y_state (li_style li y0)))).
    pose proof (round_near round3 eps Hex (ex + line_height l)). cbn [text_line text_bottom text_top].
    assert (Hmax : (t_size (y_state (li_style li y0)) <= ex + line_height l)%Q).
    { unfold ex, list_extra. cbn [andb]. match goal with |- context [if ?t then _ else _] => destruct t eqn:Eq end; [lra|]. apply qgtb_false in Eq. lra. }
    split; [exact H6|]. split; lra. }
  split; [|split].
  - apply Forall_app. split; [apply Forall_forall; intros p Hp; destruct (Hpre p Hp) as (l & ls & Ed & _ & _ & H); assert (Hne : d_lines d' <> []) by (rewrite Ed; discriminate); specialize (Hn Hne); lra|].
    pose proof (wants_at_inside round3 eps Hex c (first_move round3 d) a b ex (d_lines d') (d_marks d') Hlh Hok Hlen) as Hin. fold n in Hin.
    clear - X3 Hin Hs Hex0 Hoff. induction X3 as [|u p us ps Hup HF IH]; [constructor|]. inversion Hin as [|? ? H1 H2]; subst. constructor; [|apply IH, H2].
    destruct (Hs _ _ Hup) as (S1 & S2 & S3). destruct u as [[q f] [x y]]. destruct H1 as [H1 _]. cbn [fst snd] in *. lra.
  - assert (Hlow' : ~ In CBr (c_content c) \/ forall y, In y (styles (c_content c)) -> (- c_lh c <= t_rise (y_state y))%Q).
    { destruct Hlow as [H|H]; [left; exact H|right]. intros y Hy0. apply in_flat_map in Hy0 as (x & Hx & Hy0).
      destruct x as [|t y1 ids|]; try destruct Hy0; [subst; exact (H _ _ _ Hx)|contradiction]. }
    apply pairs_app.
    + unfold list_pre in X2. destruct (d_lines d') as [|l ls]; [subst pre; constructor|]. destruct (d_first d); [|subst pre; constructor].
      destruct X2 as (p & -> & _). constructor; constructor.
    + assert (Hc : qs = [] \/ d_lines d' <> []).
      { destruct (d_lines d'); [left|right; discriminate]. inversion X3. reflexivity. }
      destruct Hc as [->|Hc]; [constructor|]. specialize (Hn Hc).
      refine (pairs_transfer _ _ _ _ _ _ X3 (wants_at_under round3 eps Hex c (first_move round3 d) a b ex (d_lines d') (d_marks d') Hlh Hlow' Hok Hlen)).
      fold n. intros [[p f] [x y]] [[p' f'] [x' y']] q q' H1 H2 HR. destruct (Hs _ _ H1) as (A1 & A2 & A3), (Hs _ _ H2) as (B1 & B2 & B3).
      unfold under_near in HR. cbn [fst snd] in *. unfold on_or_under. destruct HR as [HR|HR]; [left; lra|right; lra].
    + intros p q Hp Hq. destruct (Hpre p Hp) as (l & ls & Ed & P1 & P2 & _). assert (Hc : d_lines d' <> []) by (rewrite Ed; discriminate). specialize (Hn Hc). clear Hc.
      assert (En : n = S (List.length ls)) by (unfold n; rewrite Ed; reflexivity). rewrite Ed in *. clear Ed.
      destruct (d_marks d') as [|k ks]; [discriminate Hlen|]. cbn [combine wants_at app] in X3.
      apply Forall2_app_inv_l in X3 as (q1 & q2 & F1 & F2 & ->). apply in_app_iff in Hq as [Hq|Hq].
      * left. clear - F1 Hq Hs P1. unfold line_wants, rpos in F1. cbn [map fst rtotal rrest] in F1.
        revert q1 F1 Hq. induction (filter _ _) as [|u us IH]; intros q1 F1 Hq; cbn [map] in F1; inversion F1 as [|? v ? vs Fv Fr]; subst; [destruct Hq|].
        destruct Hq as [<-|Hq]; [|exact (IH _ Fr Hq)]. destruct (Hs _ _ Fv) as (S1 & _). cbn [fst snd] in S1. lra.
      * right. pose proof (wants_below eps c (first_move round3 d) a b ex l k ls ks Hex Hlh Hok (f_equal pred Hlen)) as Hbel.
        rewrite En in Hn, Hoff |- *. cbn [pred] in Hn.
        clear - F2 Hq Hs P1 P2 Hbel Hn Hoff. revert q2 F2 Hq. induction (wants_at (rpos round3 c (first_move round3 d) a b ex) [(l, k)] (combine ls ks)) as [|u us IH]; intros q2 F2 Hq;
          inversion F2 as [|? v ? vs Fv Fr]; subst; [destruct Hq|]. inversion Hbel as [|? ? B1 B2]; subst.
        destruct Hq as [<-|Hq]; [|exact (IH B2 _ Fr Hq)]. destruct (Hs _ _ Fv) as (S1 & S2 & S3). destruct u as [[v0 f] [x y]]. cbn [fst snd] in *. lra.
  - intros Hsm.
    assert (Hz : (ex == 0)%Q).
    { unfold ex, list_extra. destruct (d_lines d') as [|l ls] eqn:Ed; [reflexivity|]. match goal with |- context [if ?t then _ else _] => destruct t eqn:Eq end; [exfalso|reflexivity].
      apply andb_true_iff in Eq as [Ef Eq]. apply qgtb_true in Eq. destruct Hsm as [Hsm|(p & l' & ls' & Els & Hp & Hsm)]; [congruence|].
      injection Els as <- <-. destruct (height_ge _ [] l ls eq_refl) as [_ Hg]. pose proof (top_ge0 c Hlh _ Hok [] l ls eq_refl).
      destruct (max_size_ge (l_parts l)) as [M1 M2], (top_rise_ge (l_parts l)) as [T1 _]. specialize (M2 p Hp). unfold line_height in Eq. lra. }
    apply Forall_app. split.
    + apply Forall_forall. intros p Hp. destruct (Hpre p Hp) as (l & ls & Ed & P1 & _). rewrite Ed in Hh, Hok.
      assert (Hne : l :: ls <> []) by discriminate. specialize (Hh Hne). pose proof (total_mono c Hlh _ Hok [l] ls [] ltac:(now rewrite app_nil_r)) as Hm.
      cbn [total_height app] in Hm, Hh. change (rest_height c []) with 0%Q in Hm.
      pose proof (round_near round3 eps Hex (ex + line_height l)). lra.
    + pose proof (wants_at_inside round3 eps Hex c (first_move round3 d) a b ex (d_lines d') (d_marks d') Hlh Hok Hlen) as Hin. fold n in Hin.
      assert (Hne : forall u, In u (wants_at (rpos round3 c (first_move round3 d) a b ex) [] (combine (d_lines d') (d_marks d'))) -> d_lines d' <> []).
      { intros u Hu Hz0. rewrite Hz0 in Hu. destruct Hu. }
      clear - X3 Hin Hs Hh Hne Hz Hoff He. revert qs X3. induction (wants_at (rpos round3 c (first_move round3 d) a b ex) [] (combine (d_lines d') (d_marks d'))) as [|u us IH]; intros qs X3;
        inversion X3 as [|? p ? ps Hup HF]; subst; constructor.
      * inversion Hin as [|? ? H1 H2]; subst. specialize (Hh (Hne u (or_introl eq_refl))). destruct (Hs _ _ Hup) as (S1 & _). destruct u as [[q f] [x y]].
        destruct H1 as [_ H1]. cbn [fst snd] in *. lra.
      * inversion Hin as [|? ? H1 H2]; subst. apply IH; [exact H2| |exact HF]. intros v Hv. apply (Hne v). right. exact Hv.
Qed.
End Text.
Print Assumptions C60_list_partial.
Print Assumptions C36_list_partial.
Print Assumptions C38_list_partial.
Print Assumptions C37_list_partial.

(** ** Examples *)

(** A list item of two lines, with a larger text beside the list text. *)
Definition ex_item : config :=
  mkCfg [CText (lit "aa bb ") (ex_style 2) []; CBr; CText (lit "cc dd ee") (ex_style 1) []] ALeft 1 1 (Some (mkList (lit "-") (Some 4%Q) (fun y => y))).
Example C60_list_applies : exists li y0 d, c_list ex_item = Some li /\ first_style (c_content ex_item) = Some y0 /\
  (t_rise (y_state (li_style li y0)) == 0)%Q /\ between (fun q => q) ex_text_w ex_space_w ex_ref ex_item [] (fresh ex_item) /\
  ex_run ex_item (fresh ex_item) 20 40 = Ok d /\ d_fin d = true /\ List.length (d_lines d) = 2%nat /\
  (exists p l ls, d_lines d = l :: ls /\ In p (l_parts l) /\ t_size (y_state (li_style li y0)) <= t_size (y_state (lp_style p)))%Q /\
  map k_x (d_marks d) = [5; 4]%Q /\ List.length (snd (execs (e_text (d_em d)) ex_reader)) = 4%nat.
Proof.
  eexists _, _, _. split; [reflexivity|]. split; [reflexivity|]. split; [reflexivity|]. split; [split; [exists []; reflexivity|split; reflexivity]|].
  split; [vm_compute; reflexivity|]. split; [reflexivity|]. split; [reflexivity|].
  split; [eexists _, _, _; split; [reflexivity|]; split; [left; reflexivity|discriminate]|]. split; reflexivity.
Qed.

(** Two histories of a list item of three lines, one stopped after the first
    line and one after the second. *)
Definition ex_three : config :=
  mkCfg [CText (lit "aa bb ") (ex_style 2) []; CBr; CText (lit "cc dd") (ex_style 1) []; CBr; CText (lit "ee") (ex_style 1) []] ALeft 1 1
    (Some (mkList (lit "-") (Some 4%Q) (fun y => y))).
Example C36_list_applies : exists (d e d' : dyn), between (fun q => q) ex_text_w ex_space_w ex_ref ex_three [d] d /\
  between (fun q => q) ex_text_w ex_space_w ex_ref ex_three [e] e /\ d_first d = false /\ d_first e = false /\ get_state d <> get_state e /\
  ex_run ex_three d 20 40 = Ok d' /\ List.length (d_lines d') = 2%nat /\ d_fin d' = true.
Proof.
  eexists _, _, _. split; [split; [exists [(20, 3)]%Q; vm_compute; reflexivity|split; reflexivity]|].
  split; [split; [exists [(20, 5)]%Q; vm_compute; reflexivity|split; reflexivity]|]. split; [reflexivity|]. split; [reflexivity|].
  split; [vm_compute; discriminate|]. split; [vm_compute; reflexivity|]. split; reflexivity.
Qed.

(** A list text higher than the first line is not counted in the height of the
    paragraph (text.py 741-745 and 857-861): the lines go below the rectangle. *)
Definition big_mark (y : style) : style := mkStyle (mkState (t_font (y_state y)) 5 (t_color (y_state y)) (t_rise (y_state y))) (y_under y) (y_bg y).
Definition ex_big : config := mkCfg [CText (lit "aa") (ex_style 1) []] ALeft 1 0 (Some (mkList (lit "-") (Some 4%Q) big_mark)).
Theorem C60_list_refuted : exists c li y0 w h d r p, c_list c = Some li /\ first_style (c_content c) = Some y0 /\ (1 <= c_lh c)%Q /\
  (t_rise (y_state (li_style li y0)) == 0)%Q /\ ex_run c (fresh c) w h = Ok d /\ d_fin d = true /\ r_line r = Some (0, 0)%Q /\
  In p (snd (execs (e_text (d_em d)) r)) /\ (text_line p < 0 - h)%Q.
Proof.
  eexists ex_big, _, _, 20%Q, 3%Q, _, ex_reader, _. split; [reflexivity|]. split; [reflexivity|]. split; [discriminate|].
  split; [reflexivity|]. split; [vm_compute; reflexivity|]. split; [reflexivity|]. split; [reflexivity|]. split; [vm_compute; right; left; reflexivity|]. reflexivity.
Qed.
Print Assumptions C60_list_refuted.

(** Right-aligned lines of a list paragraph are moved by all the free space of
    the whole width and by the room of the list text as well (text.py 825-835):
    they end beyond the right edge, though they are narrow enough. *)
Definition ex_right : config := mkCfg [CText (lit "aa bb") (ex_style 1) []] ARight 1 0 (Some (mkList (lit "-") (Some 4%Q) (fun y => y))).
Theorem C38_list_right_refuted : exists c li y0 w h d r p x s, c_list c = Some li /\ first_style (c_content c) = Some y0 /\
  c_align c = ARight /\ ex_run c (fresh c) w h = Ok d /\ d_fin d = true /\ r_line r = Some (0, 0)%Q /\
  (forall l, In l (d_lines d) -> list_indent ex_text_w li y0 + width_of ex_text_w ex_space_w 1 (ltoks (l_parts l)) <= w)%Q /\
  In p (snd (execs (e_text (d_em d)) r)) /\
  match p with PShow _ _ _ _ _ (px, _) ps => px = x /\ ps = s | _ => False end /\
  (exists l, d_lines d = [l] /\ s = part_text (hd (new_part y0 []) (l_parts l)) /\ w < x + width_of ex_text_w ex_space_w 1 (ltoks (l_parts l)))%Q.
Proof.
  eexists ex_right, _, _, 20%Q, 9%Q, _, ex_reader, _, _, _. split; [reflexivity|]. split; [reflexivity|]. split; [reflexivity|].
  split; [vm_compute; reflexivity|]. split; [reflexivity|]. split; [reflexivity|].
  split; [intros l [<-|[]]; discriminate|]. split; [vm_compute; right; left; reflexivity|]. split; [split; reflexivity|].
  eexists. split; [reflexivity|]. split; reflexivity.
Qed.
Print Assumptions C38_list_right_refuted.
