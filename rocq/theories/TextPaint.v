(** Underlines, backgrounds and link rectangles of a paragraph (C38, C59). *)
From Coq Require Import String QArith Lqa Lia.
From Verif Require Import Py PyStr Gfx TextLayout TextProofs TextWords TextOrder TextFit TextWidth TextEmit TextMarks.
Open Scope list_scope.

Section Paint.
Variable round3 : Q -> Q.
Variable text_w : fkey -> str -> Q.
Variable space_w : fkey -> Q.
Variable fref : fkey -> str.
Hypothesis round3_proper : forall x y, (x == y)%Q -> (round3 x == round3 y)%Q.
Notation run := (run round3 text_w space_w fref).
Notation width_of := (width_of text_w space_w).
Notation parts_ok := (parts_ok text_w space_w).
Notation emit_parts := (emit_parts round3 space_w fref).

(** Induction over the lines of a run, with well-formed parts. *)
Lemma run_parts_ind c done (P : dyn -> Prop) :
  (forall d d', core d = core d' -> P d -> P d') ->
  (forall d cur b e x q f k, P d -> parts_ok (l_parts (flush cur b)) ->
     add_line_to_stream round3 space_w fref c d (flush cur b) b = Ok (e, x, q, f, k) ->
     P (accept c d (flush cur b) (mkMark b x q) e f k)) ->
  forall d w h d', paused c done d -> P (init_run d w h) -> run c d w h = Ok d' -> P d'.
Proof.
  intros Hc Ha d w h d' Hpa H0 E.
  pose proof (order_ind round3 text_w space_w fref c done) as O.
  assert (R : run_ind round3 text_w space_w fref c
    (fun p d cur => order_G text_w space_w c done p d cur /\ P d)
    (fun p i d cur => order_W text_w space_w c done p i d cur /\ P d) P).
  { constructor.
    - intros p d1 cur Hp [HG HM]. split; [exact (ri_other _ _ _ _ _ _ _ _ O p d1 cur Hp HG)|exact HM].
    - intros p d1 cur go d2 Hp [HG HM] El.
      pose proof (ri_br _ _ _ _ _ _ _ _ O p d1 cur go d2 Hp HG El) as H.
      apply add_current_line_spec in El. destruct go.
      + destruct El as (e & x & q & f & k & _ & Es & ->). split; [exact H|].
        apply Ha; [apply (Hc d1); [reflexivity|exact HM]| |exact Es]. apply flush_ok. apply HG.
      + destruct El as [_ ->]. apply (Hc d1); [reflexivity|exact HM].
    - intros p d1 cur t y ids d2 cur1 Hp [HG HM] Eb. split; [exact (ri_text _ _ _ _ _ _ _ _ O p d1 cur t y ids d2 cur1 Hp HG Eb)|].
      destruct (begin_part_spec _ _ _ _ _ _ _ _ Eb) as (Hs & _). refine (Hc d1 d2 _ HM). unfold core. destruct Hs. congruence.
    - intros p i d1 cur t y ids wd st cur1 Hp Hi [HW HM] Ew.
      pose proof (ri_word _ _ _ _ _ _ _ _ O p i d1 cur t y ids wd st cur1 Hp Hi HW Ew) as H.
      destruct st as [| | |nl]; try (split; [exact H|exact HM]).
      + split; [exact H|apply (Hc d1); [reflexivity|exact HM]].
      + intros go d2 mx El Em. specialize (H go d2 mx El Em). apply add_current_line_spec in El. destruct go.
        * destruct El as (e & x & q & f & k & _ & Es & ->). split; [exact H|].
          destruct HW as [Ho (t' & y' & ids' & Hp' & Hcp)]. rewrite Hp in Hp'. injection Hp' as <- <- <-.
          assert (Hg : good_word wd) by (apply (good_token t), (nth_error_In _ i), Hi).
          destruct (add_word_spec text_w space_w (c_align c) cur wd y ids (or_wf _ _ _ _ _ _ _ _ Ho) Hcp Hg)
            as (st' & cur1' & E' & _ & _ & H2). rewrite Ew in E'. injection E' as <- <-.
          destruct H2 as (_ & _ & _ & _ & Hpn & _ & _ & Hnx & _ & _ & _ & _ & Hok & _).
          apply Ha; [exact HM| |exact Es]. rewrite (flush_nl cur1 nl _ Hnx Hpn). exact Hok.
        * destruct El as [_ ->]. apply (Hc d1); [reflexivity|exact HM].
    - intros p i d1 cur t y ids Hp Hi [HW HM]. split; [exact (ri_end _ _ _ _ _ _ _ _ O p i d1 cur t y ids Hp Hi HW)|].
      apply (Hc d1); [reflexivity|exact HM].
    - intros p d1 cur go d2 Hp [HG HM] El.
      apply add_current_line_spec in El. destruct go.
      + destruct El as (e & x & q & f & k & _ & Es & ->).
        apply (Hc (accept c d1 (flush cur true) (mkMark true x q) e f k)); [reflexivity|].
        apply Ha; [exact HM| |exact Es]. apply flush_ok. apply HG.
      + destruct El as [_ ->]. apply (Hc d1); [reflexivity|exact HM]. }
  destruct Hpa as (Hf & [Hr Hp] & H1 & H2).
  refine (run_induction round3 text_w space_w fref c _ _ _ R d w h d' _ E). split; [|exact H0].
  split; [|exact Hp]. constructor; cbn [init_run d_lines d_lpart d_lword d_apart d_aword d_word d_fin d_part].
  - apply new_line_lwf.
  - cbn [lc flat_map app]. unfold chk, ctoks, otoks. cbn. rewrite app_nil_r. exact Hr.
  - rewrite H1, H2. cbn. rewrite app_nil_r. split; assumption.
  - discriminate.
  - exact Hf.
Qed.

(** ** Specification *)

(** A part of a line, where it starts, its baseline and its width: every part
    starts where the one before it ends. *)
Record spot := mkSpot { sp_of : lpart; sp_x : Q; sp_y : Q; sp_w : Q }.
Fixpoint spots (f x y : Q) (ps : list lpart) : list spot :=
  match ps with
  | [] => []
  | p :: r => mkSpot p x y (width_of f (ptoks p)) :: spots f (x + width_of f (ptoks p))%Q y r
  end.
(** Parts that show something. *)
Definition visible (s : spot) : bool := nonempty (part_text (sp_of s)) && negb (isspace (part_text (sp_of s))).
(** The visible parts of lines; baselines are measured from the top of the
    paragraph. *)
Fixpoint line_spots (c : config) (before : list line) (lks : list (line * mark)) : list spot :=
  match lks with
  | [] => []
  | (l, k) :: r =>
      filter visible (spots (k_factor k) (k_x k) (- total_height c (before ++ [l])) (l_parts l)) ++
      line_spots c (before ++ [l]) r
  end.

Definition spot_state (s : spot) : tstate := y_state (lp_style (sp_of s)).
(** The rectangles of the ids of a part: the width of the part, from a quarter
    of the font size under the baseline to three quarters over it. *)
Definition is_box (s : spot) (b : Q * Q * Q * Q) : Prop :=
  let '(x1, y1, x2, y2) := b in
  let size := round3 (t_size (spot_state s)) in
  (x1 == round3 (sp_x s) /\ x2 == round3 (sp_x s + sp_w s) /\
   y1 == round3 (sp_y s + t_rise (spot_state s) - size * (1#4)) /\
   y2 == round3 (sp_y s + t_rise (spot_state s) + size * (3#4)))%Q.
Definition wanted_boxes (ss : list spot) : list (str * spot) := flat_map (fun s => map (fun id => (id, s)) (lp_ids (sp_of s))) ss.
Definition box_of (want : str * spot) (got : str * (Q * Q * Q * Q)) : Prop := fst got = fst want /\ is_box (snd want) (snd got).

(** The background of a part, and its underline. *)
Definition is_background (ctm : matrix) (s : spot) (col : rgb) (p : paint) : Prop :=
  match p with
  | PFill m c [SRect x y w h] =>
      m = ctm /\ rgb_eq c (round_rgb round3 col) /\
      (x == round3 (sp_x s) /\ y == round3 (sp_y s + t_rise (spot_state s) - t_size (spot_state s) * (1#4)) /\
       w == round3 (sp_w s) /\ h == round3 (t_size (spot_state s) * (6#5)))%Q
  | _ => False
  end.
Definition is_underline (ctm : matrix) (s : spot) (p : paint) : Prop :=
  match p with
  | PStroke m c wd _ _ [SMove x1 y1; SLine x2 y2] =>
      let width := (t_size (spot_state s) * (7#100))%Q in
      m = ctm /\ (forall col, t_color (spot_state s) = Some col -> rgb_eq c (round_rgb round3 col)) /\
      (wd == round3 width /\ x1 == round3 (sp_x s) /\ x2 == round3 (sp_x s + sp_w s) /\
       y1 == round3 (sp_y s + t_rise (spot_state s) - width) /\ y2 == y1)%Q
  | _ => False
  end.
Inductive mark_of := Background (s : spot) (col : rgb) | Underline (s : spot).
Definition wanted_marks (s : spot) : list mark_of :=
  (match y_bg (lp_style (sp_of s)) with Some col => [Background s col] | None => [] end) ++
  (if y_under (lp_style (sp_of s)) then [Underline s] else []).
Definition paints (ctm : matrix) (m : mark_of) (p : paint) : Prop :=
  match m with Background s col => is_background ctm s col p | Underline s => is_underline ctm s p end.

(** ** The reader follows the graphics *)

Definition gfollows (e : em) (g : gstate) : Prop :=
  (forall col, e_fill e = Some col -> rgb_eq (g_fill g) (round_rgb round3 col)) /\
  (forall col, e_color e = Some (Some col) -> rgb_eq (g_stroke g) (round_rgb round3 col)) /\
  (forall q, e_sw e = Some q -> g_width g == round3 q)%Q.

Definition gsame (r r' : reader) : Prop :=
  g_ctm (r_gs r') = g_ctm (r_gs r) /\ r_stack r' = r_stack r /\ r_path r' = [] /\ r_line r' = r_line r.

Definition same_q (s s' : spot) : Prop := sp_of s = sp_of s' /\ (sp_x s == sp_x s' /\ sp_y s == sp_y s' /\ sp_w s == sp_w s')%Q.

Lemma graphics_exec s x y w e r : same_q (mkSpot (sp_of s) x y w) s -> gfollows e (r_gs r) -> r_path r = [] ->
  exists ops r' ps, e_gfx (output_graphics round3 (sp_of s) x y w e) = e_gfx e ++ ops /\ execs ops r = (r', ps) /\
    Forall2 (paints (g_ctm (r_gs r))) (wanted_marks s) ps /\
    gfollows (output_graphics round3 (sp_of s) x y w e) (r_gs r') /\ gsame r r'.
Proof.
  intros (_ & Hx & Hy & Hw) (F1 & F2 & F3) Hpath. cbn [sp_x sp_y sp_w] in Hx, Hy, Hw.
  destruct r as [[m fc sc lw cap dash font rise spc] stk path line]. cbn [r_gs g_fill g_stroke g_width r_path] in *. subst path.
  unfold output_graphics, wanted_marks. set (p := sp_of s) in *.
  set (g1p := match y_bg (lp_style p) with Some c => _ | None => _ end).
  assert (H1 : exists fill g1 fc' ps, g1p = (fill, g1) /\
     execs g1 (mkR (mkGS m fc sc lw cap dash font rise spc) stk [] line) = (mkR (mkGS m fc' sc lw cap dash font rise spc) stk [] line, ps) /\
     Forall2 (paints m) (match y_bg (lp_style p) with Some col => [Background s col] | None => [] end) ps /\
     (forall col, fill = Some col -> rgb_eq fc' (round_rgb round3 col))).
  { unfold g1p. destruct (y_bg (lp_style p)) as [col|] eqn:Ebg.
    - set (differs := match e_fill e with Some _ => _ | None => _ end).
      set (fc' := if differs then round_rgb round3 col else fc).
      assert (Hc : rgb_eq fc' (round_rgb round3 col)).
      { unfold fc', differs. destruct (e_fill e) as [col'|] eqn:Ef; [|apply rgb_eq_refl].
        destruct (rgb_eqb col col') eqn:Ec; cbn [negb]; [|apply rgb_eq_refl].
        eapply rgb_eq_trans; [exact (F1 _ eq_refl)|]. apply round_rgb_proper; [exact round3_proper|].
        apply rgb_eq_sym. now apply rgb_eqb_eq. }
      eexists _, _, fc', _. split; [reflexivity|]. split; [|split].
      + rewrite execs_app.
        replace (execs (if differs then [GFillColor (round_rgb round3 col)] else []) (mkR (mkGS m fc sc lw cap dash font rise spc) stk [] line))
          with (mkR (mkGS m fc' sc lw cap dash font rise spc) stk [] line, @nil paint) by (unfold fc'; destruct differs; reflexivity).
        cbn [execs exec with_path r_gs r_path r_stack r_line app]. reflexivity.
      + constructor; [|constructor]. cbn [paints is_background]. split; [reflexivity|]. split; [exact Hc|].
        unfold spot_state. fold p. repeat split; apply round3_proper; rewrite ?Hx, ?Hy, ?Hw; reflexivity.
      + intros col' Hf. unfold fc', differs in *. destruct (e_fill e) as [col2|] eqn:Ef.
        * destruct (negb (rgb_eqb col col2)); [injection Hf as <-; exact Hc|]. injection Hf as <-. exact (F1 _ eq_refl).
        * injection Hf as <-. exact Hc.
    - exists (e_fill e), [], fc, []. split; [reflexivity|]. split; [reflexivity|]. split; [constructor|exact F1]. }
  destruct H1 as (fill & g1 & fc' & ps1 & -> & X1 & P1 & F1').
  set (g2p := if y_under (lp_style p) then _ else _).
  assert (H2 : exists color sw g2 sc' lw' ps, g2p = (color, sw, g2) /\
     execs g2 (mkR (mkGS m fc' sc lw cap dash font rise spc) stk [] line) = (mkR (mkGS m fc' sc' lw' cap dash font rise spc) stk [] line, ps) /\
     Forall2 (paints m) (if y_under (lp_style p) then [Underline s] else []) ps /\
     (forall col, color = Some (Some col) -> rgb_eq sc' (round_rgb round3 col)) /\ (forall q, sw = Some q -> lw' == round3 q)%Q).
  { unfold g2p. destruct (y_under (lp_style p)) eqn:Eu.
    - cbv zeta.
      set (st := y_state (lp_style p)). set (c := t_color st).
      set (width := (t_size st * (7 # 100))%Q). set (yu := round3 (y + t_rise st - width)).
      set (dc := match e_color e with None => _ | Some c' => _ end).
      set (dw := match e_sw e with None => true | Some _ => _ end).
      set (sc' := if dc then match c with Some c' => round_rgb round3 c' | None => sc end else sc).
      set (lw' := if dw then round3 width else lw).
      assert (Hc : forall col, c = Some col -> rgb_eq sc' (round_rgb round3 col)).
      { intros col Hcol. unfold sc', dc. rewrite Hcol. destruct (e_color e) as [[col'|]|] eqn:Ef; cbn [ocolor_eqb negb].
        - destruct (rgb_eqb col col') eqn:Ec; cbn [negb]; [|apply rgb_eq_refl].
          eapply rgb_eq_trans; [exact (F2 _ eq_refl)|]. apply round_rgb_proper; [exact round3_proper|].
          apply rgb_eq_sym. now apply rgb_eqb_eq.
        - apply rgb_eq_refl.
        - apply rgb_eq_refl. }
      assert (Hlw : (lw' == round3 width)%Q).
      { unfold lw', dw. destruct (e_sw e) as [q|] eqn:Eq; [|reflexivity].
        destruct (Qeq_bool width q) eqn:Ew; cbn [negb]; [|reflexivity]. rewrite (F3 q eq_refl). apply round3_proper.
        symmetry. now apply Qeq_bool_eq. }
      eexists _, _, _, sc', lw', _. split; [reflexivity|]. split; [|split; [|split]].
      + rewrite execs_app.
        replace (execs (if dc then match c with Some c' => [GStrokeColor (round_rgb round3 c')] | None => [] end else [])
                   (mkR (mkGS m fc' sc lw cap dash font rise spc) stk [] line))
          with (mkR (mkGS m fc' sc' lw cap dash font rise spc) stk [] line, @nil paint)
          by (unfold sc'; destruct dc; [destruct c|]; reflexivity).
        rewrite execs_app.
        replace (execs (if dw then [GWidth (round3 width)] else []) (mkR (mkGS m fc' sc' lw cap dash font rise spc) stk [] line))
          with (mkR (mkGS m fc' sc' lw' cap dash font rise spc) stk [] line, @nil paint)
          by (unfold lw'; destruct dw; reflexivity).
        cbn [execs exec with_path r_gs r_path r_stack r_line app]. reflexivity.
      + constructor; [|constructor]. cbn [paints is_underline]. unfold spot_state. fold p st c.
        split; [reflexivity|]. split; [exact Hc|]. split; [exact Hlw|].
        split; [apply round3_proper; exact Hx|]. split; [apply round3_proper; rewrite Hx, Hw; reflexivity|].
        split; [|reflexivity]. apply round3_proper. rewrite Hy. reflexivity.
      + intros col Hcol. destruct dc eqn:Edc.
        * injection Hcol as Hcol. exact (Hc col Hcol).
        * unfold sc'. exact (F2 col Hcol).
      + intros q Hq. destruct dw eqn:Edw.
        * injection Hq as <-. exact Hlw.
        * unfold lw'. exact (F3 q Hq).
    - exists (e_color e), (e_sw e), [], sc, lw, []. split; [reflexivity|]. split; [reflexivity|]. split; [constructor|].
      split; assumption. }
  destruct H2 as (color & sw & g2 & sc' & lw' & ps2 & -> & X2 & P2 & F2' & F3').
  exists (g1 ++ g2), (mkR (mkGS m fc' sc' lw' cap dash font rise spc) stk [] line), (ps1 ++ ps2).
  cbn [e_gfx e_fill e_color e_sw]. split; [reflexivity|]. split; [rewrite execs_app, X1, X2; reflexivity|].
  split; [apply Forall2_app; assumption|]. split; [|repeat split].
  unfold gfollows. cbn [e_fill e_color e_sw r_gs g_fill g_stroke g_width]. split; [exact F1'|]. split; assumption.
Qed.

(** ** Lines *)

Definition gcore (e : em) := (e_gfx e, e_ids e, e_fill e, e_color e, e_sw e).
Lemma gfollows_core e e' g : gcore e = gcore e' -> gfollows e g -> gfollows e' g.
Proof.
  unfold gcore, gfollows. intros H. rewrite !pair_equal_spec in H. destruct H as [[[[_ _] H1] H2] H3]. rewrite H1, H2, H3. auto.
Qed.

Definition sees (e : em) (ctm : matrix) (r : reader) (ss : list spot) : Prop :=
  Forall2 box_of (wanted_boxes ss) (e_ids e) /\
  exists r' ps, execs (e_gfx e) r = (r', ps) /\ Forall2 (paints ctm) (flat_map wanted_marks ss) ps /\
    gfollows e (r_gs r') /\ gsame r r'.
Lemma sees_core e e' ctm r ss : gcore e = gcore e' -> sees e ctm r ss -> sees e' ctm r ss.
Proof.
  intros H. pose proof H as H0. unfold gcore in H. rewrite !pair_equal_spec in H. destruct H as [[[[H1 H2] _] _] _].
  intros [A (r' & ps & B & C & D & E)]. split; [rewrite <- H2; exact A|]. exists r', ps. rewrite <- H1.
  split; [exact B|]. split; [exact C|]. split; [exact (gfollows_core _ _ _ H0 D)|exact E].
Qed.

Lemma emit_part_sees p f x y0 x0 e r ss : part_ok text_w space_w p -> (x == x0)%Q -> (e_y e == y0)%Q ->
  sees e (g_ctm (r_gs r)) r ss ->
  let '(e', x') := emit_part round3 space_w fref p f x e in
  sees e' (g_ctm (r_gs r)) r (ss ++ filter visible [mkSpot p x0 y0 (width_of f (ptoks p))]) /\ e_y e' = e_y e /\
  (x' == x0 + width_of f (ptoks p))%Q.
Proof.
  intros [_ Hp] Hx Hy H. unfold emit_part. specialize (Hp f).
  assert (Hx' : (x + part_width p f == x0 + width_of f (ptoks p))%Q) by (rewrite Hx, Hp; reflexivity).
  set (s := mkSpot p x0 y0 (width_of f (ptoks p))). set (e1 := output_text round3 space_w fref p f e).
  assert (H1 : sees e1 (g_ctm (r_gs r)) r ss) by (refine (sees_core e e1 _ _ _ _ H); reflexivity).
  assert (Hv : visible s = nonempty (part_text p) && negb (isspace (part_text p))) by reflexivity.
  cbn [filter]. rewrite Hv. fold (part_text p).
  destruct (part_text p) as [|c0 rest] eqn:Et; cbn [nonempty andb].
  { rewrite app_nil_r. split; [exact H1|]. split; [reflexivity|exact Hx']. }
  destruct (isspace (c0 :: rest)) eqn:Ei; cbn [negb].
  { rewrite app_nil_r. split; [exact H1|]. split; [reflexivity|exact Hx']. }
  assert (Hy1 : e_y e1 = e_y e) by reflexivity.
  match goal with |- context [output_graphics round3 p x ?y ?w ?em] => set (e2 := em) end.
  assert (Hg2 : e_gfx e2 = e_gfx e1 /\ e_fill e2 = e_fill e1 /\ e_color e2 = e_color e1 /\ e_sw e2 = e_sw e1) by (repeat split).
  destruct H1 as [B1 (r1 & ps & X & P & F & G1 & G2 & G3 & G4)].
  destruct Hg2 as (K1 & K2 & K3 & K4).
  assert (F2 : gfollows e2 (r_gs r1)) by (unfold gfollows; rewrite K2, K3, K4; exact F).
  destruct (graphics_exec s x (e_y e1) (part_width p f) e2 r1) as (ops & r2 & ps2 & A & B & C & D & E1 & E2 & E3 & E4).
  { repeat split; cbn [s sp_x sp_y sp_w]; try assumption. }
  { exact F2. }
  { exact G3. }
  cbn [sp_of s] in A, D.
  split; [|split; [|exact Hx']].
  - split.
    + assert (Hids : e_ids (output_graphics round3 p x (e_y e1) (part_width p f) e2) = e_ids e2).
      { unfold output_graphics. destruct (y_bg (lp_style p)), (y_under (lp_style p)); reflexivity. }
      rewrite Hids. unfold wanted_boxes. rewrite flat_map_app. cbn [flat_map e2 e_ids]. rewrite app_nil_r. apply Forall2_app; [exact B1|].
      cbn [s sp_of]. clearbody e2. generalize (lp_ids p). intros ids0. induction ids0 as [|id ids IH]; [constructor|]. cbn [map]. constructor; [|exact IH].
      split; [reflexivity|]. cbn [fst snd is_box]. unfold spot_state. cbn [s sp_of sp_x sp_y sp_w].
      rewrite Hy1.
      repeat split; apply round3_proper; rewrite ?Hx, ?Hy, ?Hp; try reflexivity; try ring.
    + exists r2, (ps ++ ps2). rewrite A, K1. split; [rewrite execs_app, X, B; reflexivity|].
      split; [|split; [exact D|]].
      * rewrite flat_map_app. apply Forall2_app; [exact P|]. cbn [flat_map]. rewrite app_nil_r. rewrite G1 in C. exact C.
      * unfold gsame. repeat split; congruence.
  - unfold output_graphics. destruct (y_bg (lp_style p)), (y_under (lp_style p)); reflexivity.
Qed.

Lemma emit_parts_sees r f y0 ps : parts_ok ps -> forall x x0 e ss, (x == x0)%Q -> (e_y e == y0)%Q ->
  sees e (g_ctm (r_gs r)) r ss ->
  sees (emit_parts ps f x e) (g_ctm (r_gs r)) r (ss ++ filter visible (spots f x0 y0 ps)).
Proof.
  induction 1 as [|p ps Hp _ IH]; intros x x0 e ss Hx Hy H; cbn [TextLayout.emit_parts spots].
  - cbn. rewrite app_nil_r. exact H.
  - pose proof (emit_part_sees p f x y0 x0 e r ss Hp Hx Hy H) as H1.
    destruct (emit_part round3 space_w fref p f x e) as [e1 x1]. destruct H1 as (A & B & C).
    change (mkSpot p x0 y0 (width_of f (ptoks p)) :: spots f (x0 + width_of f (ptoks p)) y0 ps)
      with ([mkSpot p x0 y0 (width_of f (ptoks p))] ++ spots f (x0 + width_of f (ptoks p)) y0 ps).
    rewrite filter_app, app_assoc. apply IH; [exact C|rewrite B; exact Hy|exact A].
Qed.

Lemma line_spots_snoc c lks : forall bef l k, line_spots c bef (lks ++ [(l, k)]) =
  line_spots c bef lks ++ filter visible (spots (k_factor k) (k_x k) (- total_height c (bef ++ map fst lks ++ [l])) (l_parts l)).
Proof.
  induction lks as [|[l0 k0] lks IH]; intros bef l k; cbn [app line_spots map fst].
  - now rewrite app_nil_r.
  - rewrite IH, <- app_assoc. rewrite <- !app_assoc. reflexivity.
Qed.

Record paint_inv (c : config) (r : reader) (d : dyn) : Prop := {
  pi_len : List.length (d_marks d) = List.length (d_lines d);
  pi_y : (e_y (d_em d) == - total_height c (d_lines d))%Q;
  pi_started : e_started (d_em d) = negb (no_lines d);
  pi_sees : sees (d_em d) (g_ctm (r_gs r)) r (line_spots c [] (combine (d_lines d) (d_marks d))) }.

Theorem run_paint c done d w h d' r : c_list c = None -> paused c done d -> r_path r = [] -> run c d w h = Ok d' ->
  paint_inv c r d'.
Proof.
  intros Hl Hpa Hpath E. refine (run_parts_ind c done (paint_inv c r) _ _ d w h d' Hpa _ E).
  - intros d1 d2 Hc [A B C D]. unfold core in Hc. rewrite !pair_equal_spec in Hc. destruct Hc as [[[[[[[_ _] _] _] _] H6] H7] H8].
    constructor; unfold no_lines; rewrite <- ?H6, <- ?H7, <- ?H8; assumption.
  - intros d1 cur b e x q f k [A B C D] Hp Es. destruct (line_y _ _ _ _ _ _ _ _ _ _ _ _ Es) as [S1 S2]. specialize (S2 Hl).
    assert (Hy : (e_y e == - total_height c (d_lines d1 ++ [flush cur b]))%Q).
    { rewrite S2, total_height_snoc, B, C. unfold no_lines. destruct (d_lines d1); cbn [negb]; ring. }
    constructor; cbn [accept d_lines d_marks d_em].
    + rewrite !app_length. cbn. congruence.
    + exact Hy.
    + unfold no_lines. cbn. rewrite S1. destruct (d_lines d1); reflexivity.
    + rewrite combine_snoc by exact A. rewrite line_spots_snoc. cbn [app k_factor k_x]. rewrite map_fst_combine by exact A.
      unfold add_line_to_stream in Es.
      destruct (start_line _ _ _ _ _ _) as [[[[[e1 x1] q1] f1] k1]|er] eqn:Est; [|discriminate]. cbn [bind] in Es.
      apply Ok_inj in Es. rewrite !pair_equal_spec in Es. destruct Es as [[[[He <-] <-] _] _]. subst e.
      destruct (emit_parts_keeps round3 space_w fref (l_parts (flush cur b)) q1 x1 e1) as (_ & K & _). rewrite K in Hy.
      apply emit_parts_sees; [exact Hp|reflexivity|exact Hy|].
      refine (sees_core (d_em d1) e1 _ _ _ _ D). clear - Est Hl. unfold start_line in Est. rewrite Hl in Est. cbn [bind] in Est.
      destruct (negb (e_started (d_em d1))); [destruct (d_first d1)|]; apply Ok_inj in Est; rewrite !pair_equal_spec in Est;
        destruct Est as [[[[<- _] _] _] _]; reflexivity.
  - constructor; try reflexivity. cbn [init_run d_lines d_marks d_em combine line_spots].
    split; [constructor|]. exists r, []. split; [reflexivity|]. split; [constructor|]. split; [|repeat split; assumption].
    repeat split; discriminate.
Qed.
End Paint.
