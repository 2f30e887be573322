(** Theorems for C78: the text of the stream of a page reads as the operators
    that were meant. *)
From Coq Require Import String QArith Qabs Qround Lqa Lia.
From Verif Require Import Py PyStr PdfSyntax Gfx TextLayout TextProofs TextOrder PText Fonts PListText Alone PageText.
Open Scope list_scope.

(** ** The reader finds one thing in a text *)

Lemma lexed_one s l : lexed s l -> forall l', lexed s l' -> l = l'.
Proof.
  induction 1 as [s H|s t r l H1 H2 IH]; intros l' H'; destruct H' as [s H'|s t' r' l' H1' H2'].
  - reflexivity.
  - unfold next_token in H1'. rewrite H in H1'. discriminate.
  - unfold next_token in H1. rewrite H' in H1. discriminate.
  - rewrite H1 in H1'. injection H1' as <- <-. f_equal. now apply IH.
Qed.
Theorem C78_one_reading : forall s ops ops', reads_as s ops -> reads_as s ops' -> ops = ops'.
Proof. intros s ops ops' (l & L1 & L2) (l' & L1' & L2'). rewrite (lexed_one _ _ L1 _ L1') in L2. rewrite L2 in L2'. now injection L2'. Qed.
Print Assumptions C78_one_reading.

(** Ints, and floats that are zero or from 1/10000 and below 10 ^ 16, are
    printed as numbers of the format, with the same value. *)
Theorem C78_numbers : forall q s, (q == 0)%Q \/ (1 # 10000 <= Qabs q < inject_Z (10 ^ 16))%Q -> py_number q s ->
  exists v, number_value s = Some v /\ (v == q)%Q.
Proof. intros q s T H. destruct (py_numeral q s T H) as (v & V1 & V2 & _). eauto. Qed.
Print Assumptions C78_numbers.

(** C78, the part that holds: the text written for operators reads as these
    operators, with equal numbers, the same names and the same texts.  The
    numbers are zero or from 1/10000 and below 10 ^ 16 in size, lines do not
    go up, and list texts have matching parentheses and no backslash. *)
Theorem C78_reads_partial : forall (lists : str -> Prop) ops s, (forall t, lists t -> plain_from 0 t = true) ->
  writes_all lists ops s -> Forall printable ops -> exists ops', reads_as s ops' /\ Forall2 op_same ops' ops.
Proof. intros lists ops s H. exact (stream_reads lists H ops s). Qed.
Print Assumptions C78_reads_partial.

(** ** What is painted *)

Definition gs_eq (g h : gstate) : Prop :=
  mat_eq (g_ctm g) (g_ctm h) /\ rgb_eq (g_fill g) (g_fill h) /\ rgb_eq (g_stroke g) (g_stroke h) /\ (g_width g == g_width h)%Q /\
  g_cap g = g_cap h /\ dash_eq (g_dash g) (g_dash h) /\ font_eq (g_font g) (g_font h) /\ (g_rise g == g_rise h)%Q /\ (g_spacing g == g_spacing h)%Q.
Definition line_eq (a b : option (Q * Q)) : Prop :=
  match a, b with Some (x, y), Some (x', y') => (x == x')%Q /\ (y == y')%Q | None, None => True | _, _ => False end.
Definition rd_eq (a b : reader) : Prop :=
  gs_eq (r_gs a) (r_gs b) /\ Forall2 gs_eq (r_stack a) (r_stack b) /\ Forall2 seg_eq (r_path a) (r_path b) /\ line_eq (r_line a) (r_line b).
Lemma mult_eq m m' n n' : mat_eq m m' -> mat_eq n n' -> mat_eq (mult m n) (mult m' n').
Proof.
  intros (A1 & A2 & A3 & A4 & A5 & A6) (B1 & B2 & B3 & B4 & B5 & B6). unfold mat_eq, mult. cbn [m_a m_b m_c m_d m_e m_f].
  rewrite A1, A2, A3, A4, A5, A6, B1, B2, B3, B4, B5, B6. repeat split; reflexivity.
Qed.
Lemma gs_mk m fc sc w cap dash font rise sp m' fc' sc' w' cap' dash' font' rise' sp' :
  mat_eq m m' -> rgb_eq fc fc' -> rgb_eq sc sc' -> (w == w')%Q -> cap = cap' -> dash_eq dash dash' -> font_eq font font' -> (rise == rise')%Q -> (sp == sp')%Q ->
  gs_eq (mkGS m fc sc w cap dash font rise sp) (mkGS m' fc' sc' w' cap' dash' font' rise' sp').
Proof. unfold gs_eq. cbn. intros. repeat (split; [assumption|]). assumption. Qed.
Lemma rd_mk g s p l g' s' p' l' : gs_eq g g' -> Forall2 gs_eq s s' -> Forall2 seg_eq p p' -> line_eq l l' -> rd_eq (mkR g s p l) (mkR g' s' p' l').
Proof. unfold rd_eq. auto. Qed.
Lemma seg_one p p' s s' : Forall2 seg_eq p p' -> seg_eq s s' -> Forall2 seg_eq (p ++ [s]) (p' ++ [s']).
Proof. intros H1 H2. apply Forall2_app; [exact H1|]. constructor; [exact H2|constructor]. Qed.
Lemma one_paint p p' : paint_eq p p' -> paints_eq [p] [p'].
Proof. intros H. constructor; [exact H|constructor]. Qed.
Lemma exec_same o o' r r' : op_same o o' -> rd_eq r r' -> rd_eq (fst (exec o r)) (fst (exec o' r')) /\ paints_eq (snd (exec o r)) (snd (exec o' r')).
Proof.
  intros Ho (G & St & Pa & Li). destruct r as [[m fc sc w cap dash font rise sp] stk path ln], r' as [[m' fc' sc' w' cap' dash' font' rise' sp'] stk' path' ln'].
  cbn [r_gs r_stack r_path r_line] in *. pose proof G as G0. unfold gs_eq in G. cbn [g_ctm g_fill g_stroke g_width g_cap g_dash g_font g_rise g_spacing] in G.
  destruct G as (G1 & G2 & G3 & G4 & G5 & G6 & G7 & G8 & G9).
  assert (N : paints_eq [] []) by constructor. assert (Z0 : Forall2 seg_eq [] []) by constructor.
  destruct o, o'; try contradiction; cbn [op_same] in Ho; unfold exec; cbn [r_gs r_stack r_path r_line]; unfold with_gs, with_path, with_line; cbn [r_gs r_stack r_path r_line].
  - split; [|exact N]. apply rd_mk; [exact G0|constructor; assumption|assumption|assumption].
  - destruct St as [|g0 g0' s0 s0' Hg Hs]; (split; [|exact N]); apply rd_mk; auto.
  - split; [|exact N]. apply rd_mk; auto. apply gs_mk; auto. apply mult_eq; [exact Ho|exact G1].
  - split; [|exact N]. apply rd_mk; auto. apply gs_mk; auto.
  - split; [|exact N]. apply rd_mk; auto. apply gs_mk; auto.
  - split; [|exact N]. apply rd_mk; auto. apply gs_mk; auto.
  - split; [|exact N]. apply rd_mk; auto. apply gs_mk; auto.
  - split; [|exact N]. apply rd_mk; auto. apply gs_mk; auto.
  - split; [|exact N]. apply rd_mk; auto. apply seg_one; auto.
  - split; [|exact N]. apply rd_mk; auto. apply seg_one; auto.
  - split; [|exact N]. apply rd_mk; auto. apply seg_one; auto.
  - split; [apply rd_mk; auto|]. apply one_paint. cbn [paint_eq]. auto.
  - split; [apply rd_mk; auto|]. apply one_paint. cbn [paint_eq]. auto 10.
  - split; [|exact N]. apply rd_mk; auto. split; reflexivity.
  - split; [|exact N]. apply rd_mk; auto.
  - split; [|exact N]. apply rd_mk; auto.
  - split; [|exact N]. apply rd_mk; auto. apply gs_mk; auto.
  - split; [|exact N]. apply rd_mk; auto. apply gs_mk; auto.
  - split; [|exact N]. apply rd_mk; auto. apply gs_mk; auto.
  - destruct ln as [[a b]|], ln' as [[a' b']|]; try contradiction; (split; [|exact N]); apply rd_mk; auto.
    destruct Li as [L1 L2], Ho as [H1 H2]. cbn [line_eq]. rewrite L1, L2, H1, H2. split; reflexivity.
  - destruct ln as [[a b]|], ln' as [[a' b']|]; try contradiction; (split; [apply rd_mk; auto|]); [|exact N].
    destruct Li as [L1 L2]. apply one_paint. cbn [paint_eq fst snd]. auto 12.
  - split; [apply rd_mk; auto|]. apply one_paint. cbn [paint_eq]. auto.
Qed.
Lemma execs_same ops ops' : Forall2 op_same ops ops' -> forall r r', rd_eq r r' -> paints_eq (snd (execs ops r)) (snd (execs ops' r')).
Proof.
  induction 1 as [|o o' ops ops' Ho H IH]; intros r r' R; [constructor|]. cbn [execs].
  destruct (exec_same o o' r r' Ho R) as [A B]. destruct (exec o r) as [r1 e1], (exec o' r') as [r2 e2]. cbn [fst snd] in A, B.
  specialize (IH r1 r2 A). destruct (execs ops r1) as [r3 e3], (execs ops' r2) as [r4 e4]. cbn [snd] in *. apply Forall2_app; assumption.
Qed.
Lemma page_reader_eq : rd_eq page_reader page_reader.
Proof. unfold page_reader. apply rd_mk; try constructor; cbn; repeat constructor; reflexivity. Qed.

(** What a reader of the text paints is what the operators paint. *)
Theorem C78_painted_partial : forall (lists : str -> Prop) ops s, (forall t, lists t -> plain_from 0 t = true) ->
  writes_all lists ops s -> Forall printable ops ->
  exists ops', reads_as s ops' /\ paints_eq (snd (execs ops' page_reader)) (snd (execs ops page_reader)).
Proof.
  intros lists ops s H W P. destruct (C78_reads_partial lists ops s H W P) as (ops' & R & S). exists ops'. split; [exact R|].
  apply execs_same; [exact S|exact page_reader_eq].
Qed.
Print Assumptions C78_painted_partial.

(** ** The numbers of a page *)

Section Page.
Variable round3 : Q -> Q.
Variable text_w : fkey -> str -> Q.
Variable space_w : fkey -> Q.
Variable fref : fkey -> str.
Notation run := (run round3 text_w space_w fref).
(** [round(x, 3)] is a whole number of thousandths. *)
Hypothesis thousandths : forall q, exists k : Z, (round3 q == k # 1000)%Q.

Definition on_grid (q : Q) : Prop := exists k : Z, (q == k # 2000)%Q.
Definition op_grid (o : gop) : Prop := Forall on_grid (op_numbers o).
Lemma grid_round q : on_grid (round3 q).
Proof. destruct (thousandths q) as [k E]. exists (2 * k)%Z. rewrite E. unfold Qeq. cbn [Qnum Qden]. lia. Qed.
Lemma grid_opp q : on_grid q -> on_grid (- q).
Proof. intros [k E]. exists (- k)%Z. rewrite E. reflexivity. Qed.
Lemma grid_half q : on_grid (round3 q * (1#2)).
Proof. destruct (thousandths q) as [k E]. exists k. rewrite E. unfold Qeq. cbn [Qmult Qnum Qden]. lia. Qed.
Lemma grid0 : on_grid 0.
Proof. exists 0%Z. reflexivity. Qed.
Lemma grid1 : on_grid 1.
Proof. exists 2000%Z. reflexivity. Qed.
Lemma grid_tame q : on_grid q -> (Qabs q < inject_Z (10 ^ 16))%Q -> tame q.
Proof.
  intros [k E] H. destruct (Z.eq_dec k 0) as [->|Hk]; [left; rewrite E; reflexivity|]. right. split; [|exact H].
  rewrite E. unfold Qabs, Qle. cbn [Qnum Qden]. lia.
Qed.

Local Hint Resolve grid_round grid_opp grid_half grid0 grid1 : grid.
Ltac grid := unfold op_grid; cbn [op_numbers]; repeat (constructor; auto with grid).
Lemma grid_color c : op_grid (GFillColor (round_rgb round3 c)) /\ op_grid (GStrokeColor (round_rgb round3 c)).
Proof. destruct c; split; grid. Qed.
Lemma compare_grid s o : Forall op_grid (compare round3 fref s o).
Proof.
  unfold compare. repeat (apply Forall_app; split).
  - destruct (_ || _); grid.
  - match goal with |- Forall _ (if ?b then _ else _) => destruct b end; [|constructor]. destruct (t_color s) as [c|]; repeat constructor. apply grid_color.
  - match goal with |- Forall _ (if ?b then _ else _) => destruct b end; grid.
Qed.
Definition em_grid (e : em) : Prop := Forall op_grid (e_text e) /\ Forall op_grid (e_gfx e).
Lemma output_text_grid p f e : em_grid e -> em_grid (output_text round3 space_w fref p f e).
Proof.
  intros [H1 H2]. split; [|exact H2]. unfold output_text. cbn [e_text].
  apply Forall_app; split; [exact H1|]. apply Forall_app; split; [apply compare_grid|]. apply Forall_app; split.
  - destruct (match e_tw e with Some _ => _ | None => _ end); grid.
  - destruct (List.concat (lp_words p)); grid.
Qed.
Lemma output_graphics_grid p x y w e : em_grid e -> em_grid (output_graphics round3 p x y w e).
Proof.
  intros [H1 H2]. unfold output_graphics.
  set (gf := match y_bg (lp_style p) with None => (e_fill e, []) | Some c => _ end).
  assert (K1 : Forall op_grid (snd gf)).
  { unfold gf. destruct (y_bg (lp_style p)) as [c|]; cbn [snd]; [|constructor]. apply Forall_app; split.
    - destruct (match e_fill e with Some _ => _ | None => _ end); repeat constructor. apply grid_color.
    - constructor; [grid|constructor; [constructor|constructor]]. }
  destruct gf as [fill g1]. cbn [snd] in K1. set (gs := if y_under (lp_style p) then _ else _).
  assert (K2 : Forall op_grid (snd gs)).
  { unfold gs. destruct (y_under (lp_style p)); cbn [snd]; [|constructor]. repeat (apply Forall_app; split).
    - match goal with |- Forall _ (if ?b then _ else _) => destruct b end; [|constructor]. destruct (t_color (y_state (lp_style p))); repeat constructor. apply grid_color.
    - match goal with |- Forall _ (if ?b then _ else _) => destruct b end; [constructor; [grid|constructor]|constructor].
    - constructor; [grid|]. constructor; [grid|]. constructor; [constructor|constructor]. }
  destruct gs as [[color sw] g2]. cbn [snd] in K2. split; cbn [e_text e_gfx]; [exact H1|].
  apply Forall_app; split; [exact H2|]. apply Forall_app; split; assumption.
Qed.
Lemma emit_parts_grid ps : forall f x e, em_grid e -> em_grid (emit_parts round3 space_w fref ps f x e).
Proof.
  induction ps as [|p ps IH]; intros f x e H; [exact H|]. cbn [emit_parts]. unfold emit_part.
  pose proof (output_text_grid p f e H) as K. destruct (List.concat (lp_words p)) as [|c0 r]; [apply IH; exact K|].
  destruct (isspace (c0 :: r)); [apply IH; exact K|]. apply IH. apply output_graphics_grid. exact K.
Qed.
Lemma start_grid c d l b e x q f k : c_list c = None -> em_grid (d_em d) -> start_line round3 fref c d l b = Ok (e, x, q, f, k) -> em_grid e.
Proof.
  intros Hl [H1 H2] Es. unfold start_line in Es. rewrite Hl in Es. cbn [bind] in Es.
  assert (T : forall ops s y i, Forall op_grid ops -> em_grid (add_ops (d_em d) ops s y i)).
  { intros ops s y i H. split; [|exact H2]. unfold add_ops. cbn [e_text]. apply Forall_app; split; assumption. }
  destruct (negb (e_started (d_em d))); [destruct (d_first d)|];
    apply Ok_inj, (f_equal (fun z => fst (fst (fst (fst z))))) in Es; cbn [fst] in Es; subst e; apply T; (constructor; [grid|constructor]).
Qed.
Lemma run_grid c d w h d' : c_list c = None -> run c d w h = Ok d' -> em_grid (d_em d').
Proof.
  intros Hl E. refine (run_state_ind round3 text_w space_w fref c (fun d => em_grid (d_em d)) _ _ d w h d' _ E).
  - intros d1 d2 Hc H. unfold core in Hc. injection Hc as _ _ _ _ _ _ Hc _. now rewrite <- Hc.
  - intros d1 cur b e x q f k H Es. cbn [accept d_em]. unfold add_line_to_stream in Es.
    destruct (start_line round3 fref c d1 (flush cur b) b) as [[[[[e1 x1] q1] f1] k1]|] eqn:Est; [|discriminate]. cbn [bind] in Es.
    apply Ok_inj, (f_equal (fun z => fst (fst (fst (fst z))))) in Es. cbn [fst] in Es. subst e.
    apply emit_parts_grid. exact (start_grid _ _ _ _ _ _ _ _ _ Hl H Est).
  - split; constructor.
Qed.
Lemma graphics_grid l : forall lf lc lw ls ops, graphics_loop round3 lf lc lw ls l = Ok ops -> Forall op_grid ops.
Proof.
  induction l as [|g l IH]; intros lf lc lw ls ops E; [injection E as <-; constructor|].
  destruct g as [x y w h c|x1 y1 x2 y2 w c s]; cbn [graphics_loop] in E.
  - destruct (graphics_loop round3 (Some c) lc lw ls l) as [rest|] eqn:Er; [|discriminate]. cbn [bind] in E. apply Ok_inj in E. subst ops.
    apply Forall_app; split; [|exact (IH _ _ _ _ _ Er)]. apply Forall_app; split.
    + destruct (differs _ _ _); repeat constructor. apply grid_color.
    + constructor; [grid|constructor; constructor].
  - destruct (line_style round3 w s) as [[[cap dash] phase]|] eqn:El; [|discriminate]. cbn [bind] in E.
    destruct (graphics_loop round3 lf (Some c) (Some w) (Some (cap, dash, phase)) l) as [rest|] eqn:Er; [|discriminate]. cbn [bind] in E. apply Ok_inj in E. subst ops.
    apply Forall_app; split; [|exact (IH _ _ _ _ _ Er)]. repeat (apply Forall_app; split).
    + destruct (differs rgb_eqb _ _); repeat constructor. apply grid_color.
    + destruct (differs Qeq_bool _ _); [constructor; [grid|constructor]|constructor].
    + destruct (differs style_eqb _ _); [|constructor]. constructor; [constructor|]. constructor; [|constructor].
      destruct s; cbn [line_style] in El; try discriminate; apply Ok_inj in El; injection El as <- <- <-; grid.
    + constructor; [grid|]. constructor; [grid|]. constructor; constructor.
Qed.
Lemma page_grid : forall ps ops, page_ops round3 ps = Ok ops ->
  (forall x y d', In (Paragraph x y d') ps -> exists c d w h, c_list c = None /\ run c d w h = Ok d') -> Forall op_grid ops.
Proof.
  induction ps as [|p ps IH]; intros ops E Hp; cbn [page_ops] in E; [injection E as <-; constructor|].
  destruct (piece_ops round3 p) as [a|] eqn:Ea; [|discriminate]. cbn [bind] in E.
  destruct (page_ops round3 ps) as [b|] eqn:Eb; [|discriminate]. cbn [bind] in E. apply Ok_inj in E. subst ops.
  apply Forall_app; split; [|apply IH; [reflexivity|intros x y d' H; apply (Hp x y); now right]].
  destruct p as [x y d|l|nm w h x y]; cbn [piece_ops] in Ea.
  - apply Ok_inj in Ea. subst a. destruct (Hp x y d (or_introl eq_refl)) as (c & d0 & w & h & Hl & Er). apply run_grid in Er as [H1 H2]; [|exact Hl].
    unfold paragraph_stream. apply Forall_app; split.
    + destruct (e_gfx (d_em d)) as [|o t] eqn:Eg; [constructor|]. rewrite <- Eg in *. constructor; [constructor|]. constructor; [grid|].
      apply Forall_app; split; [exact H2|constructor; constructor].
    + destruct (e_text (d_em d)) as [|o t] eqn:Eg; [constructor|]. rewrite <- Eg in *. constructor; [constructor|]. constructor; [grid|].
      apply Forall_app; split; [exact H1|constructor; constructor].
  - unfold create_graphics in Ea. destruct (graphics_loop round3 None None None None l) as [o|] eqn:El; [|discriminate].
    cbn [bind] in Ea. apply Ok_inj in Ea. subst a. apply graphics_grid in El. destruct o as [|o t]; [constructor|]. constructor; [constructor|].
    apply Forall_app; split; [exact El|constructor; constructor].
  - apply Ok_inj in Ea. subst a. unfold image_stream. constructor; [constructor|]. constructor; [grid|]. constructor; [constructor|]. constructor; constructor.
Qed.

(** C78 for pages: paragraphs without list text, graphics and images with any
    styles, coordinates and texts.  All numbers are below 10 ^ 16. *)
Theorem C78_page_partial : forall ps ops s, page_ops round3 ps = Ok ops ->
  (forall x y d', In (Paragraph x y d') ps -> exists c d w h, c_list c = None /\ run c d w h = Ok d') ->
  writes_all (fun _ => False) ops s ->
  (forall o q, In o ops -> In q (op_numbers o) -> (Qabs q < inject_Z (10 ^ 16))%Q) ->
  (forall x y, In (GTd x y) ops -> (y <= 0)%Q) ->
  (forall n a, In (GFont n a) ops \/ In (GDo n) ops -> forallb is_regular n = true) ->
  (forall t, In (GShow t) ops -> ~ In 13%N t) ->
  exists ops', reads_as s ops' /\ Forall2 op_same ops' ops.
Proof.
  intros ps ops s E Hp W Hq Hd Hn Ht. apply (C78_reads_partial (fun _ => False)); [contradiction|exact W|].
  apply Forall_forall. intros o Ho. pose proof (page_grid ps ops E Hp) as G. rewrite Forall_forall in G. specialize (G o Ho). split.
  - unfold op_grid in G. rewrite Forall_forall in *. intros q Hin. apply grid_tame; [apply G; exact Hin|exact (Hq o q Ho Hin)].
  - destruct o as [| |a b c d e f|c|c|w|n|a p|x y w h|x y|x y| | | | |x y|n a|r|w|x y|t|n]; try exact I.
    + exact (Hn n a (or_introl Ho)).
    + exact (Hd x y Ho).
    + exact (Ht t Ho).
    + exact (Hn n 0%Q (or_intror Ho)).
Qed.
End Page.
Print Assumptions C78_page_partial.

(** ** Examples *)

Definition ex_round (q : Q) : Q := Qfloor (q * 1000 + (1#2)) # 1000.
Lemma ex_thousandths q : exists k : Z, (ex_round q == k # 1000)%Q.
Proof. exists (Qfloor (q * 1000 + (1#2))). reflexivity. Qed.
Lemma by_int q z s : (q == inject_Z z)%Q -> s = int_str z -> py_number q s.
Proof. intros H ->. now constructor. Qed.
Lemma by_float q neg D e s : (D = 0%N -> e = 0%Z) -> (q == float_value neg D e)%Q -> s = float_str neg D e -> py_number q s.
Proof. intros H1 H2 ->. now constructor. Qed.

(** A page with a rectangle, a dotted line, a paragraph and an image, and its
    text as Python prints it. *)
Definition ex_config : config := mkCfg [CText (lit "a(b) c") (ex_style 10) []] ALeft (11#10) 2 None.
Definition ex_run3 := run ex_round ex_text_w ex_space_w ex_ref.
Definition ex_page (d : dyn) : list piece :=
  [Graphics [Fill (3#2) 20 (1#3) 9 (Gray (1#2)); Line 0 0 9 0 1 (Rgb 1 0 0) Dotted]; Paragraph 5 (907#10) d; Picture (lit "Im0") 20 30 1 (-5#2)].
Definition ex_strs : list str := map lit [" q"; " 0.5 g"; " 1.5 20.0 0.333 9 re"; " F"; " 1.0 0 0 RG"; " 1 w"; " 1 J"; " [0 2.0] 0.5 d"; " 0 0 m"; " 9 -0.0 l"; " S"; " Q"; " BT"; " 1 0 0 1 5 90.7 Tm"; " 2 -11.1 Td"; " /Helvetica 10 Tf"; " 0 g"; " 0 Ts"; " 0.0 Tw"; " (a\(b\) )Tj"; " (c)Tj"; " ET"; " q"; " 20.0 0 0 30 1 -2.5 cm"; " /Im0 Do"; " Q"]%string.
Definition ex_ops : list gop := Eval vm_compute in
  match ex_run3 ex_config (fresh ex_config) 100 200 with Ok d => match page_ops ex_round (ex_page d) with Ok l => l | _ => [] end | _ => [] end.
Lemma writes_concat lists ops ss : Forall2 (writes lists) ops ss -> writes_all lists ops (List.concat ss).
Proof. induction 1; cbn [List.concat]; constructor; assumption. Qed.
Example C78_applies : exists d, ex_run3 ex_config (fresh ex_config) 100 200 = Ok d /\
  page_ops ex_round (ex_page d) = Ok ex_ops /\ writes_all (fun _ => False) ex_ops (List.concat ex_strs) /\
  (forall o q, In o ex_ops -> In q (op_numbers o) -> (Qabs q < inject_Z (10 ^ 16))%Q) /\
  (forall x y, In (GTd x y) ex_ops -> (y <= 0)%Q) /\
  (forall n a, In (GFont n a) ex_ops \/ In (GDo n) ex_ops -> forallb is_regular n = true) /\
  (forall t, In (GShow t) ex_ops -> ~ In 13%N t).
Proof.
  destruct (ex_run3 ex_config (fresh ex_config) 100 200) as [d|] eqn:E; [|vm_compute in E; discriminate].
  exists d. split; [reflexivity|]. split; [|split; [|split; [|split; [|split]]]].
  - assert (K : match ex_run3 ex_config (fresh ex_config) 100 200 with Ok d => page_ops ex_round (ex_page d) | Err e => Err e end = Ok ex_ops) by (vm_compute; reflexivity).
    rewrite E in K. exact K.
  - apply writes_concat. unfold ex_ops, ex_strs. cbn [map].
    constructor; [exact (W_save _)|].
    constructor; [refine (W_fill_gray _ _ (lit "0.5") _); [apply (by_float _ false 5 (-1)); [discriminate || reflexivity|reflexivity|reflexivity]]|].
    constructor; [refine (W_rect _ _ _ _ _ (lit "1.5") (lit "20.0") (lit "0.333") (lit "9") _ _ _ _); [apply (by_float _ false 15 (-1)); [discriminate || reflexivity|reflexivity|reflexivity]|apply (by_float _ false 2 (1)); [discriminate || reflexivity|reflexivity|reflexivity]|apply (by_float _ false 333 (-3)); [discriminate || reflexivity|reflexivity|reflexivity]|apply (by_int _ (9)); [reflexivity|reflexivity]]|].
    constructor; [exact (W_fill _)|].
    constructor; [refine (W_stroke_rgb _ _ _ _ (lit "1.0") (lit "0") (lit "0") _ _ _); [apply (by_float _ false 1 (0)); [discriminate || reflexivity|reflexivity|reflexivity]|apply (by_int _ (0)); [reflexivity|reflexivity]|apply (by_int _ (0)); [reflexivity|reflexivity]]|].
    constructor; [refine (W_width _ _ (lit "1") _); [apply (by_int _ (1)); [reflexivity|reflexivity]]|].
    constructor; [exact (W_cap1 _)|].
    constructor; [refine (W_dotted _ _ _ (lit "2.0") (lit "0.5") _ _); [apply (by_float _ false 2 (0)); [discriminate || reflexivity|reflexivity|reflexivity]|apply (by_float _ false 5 (-1)); [discriminate || reflexivity|reflexivity|reflexivity]]|].
    constructor; [refine (W_move _ _ _ (lit "0") (lit "0") _ _); [apply (by_int _ (0)); [reflexivity|reflexivity]|apply (by_int _ (0)); [reflexivity|reflexivity]]|].
    constructor; [refine (W_line _ _ _ (lit "9") (lit "-0.0") _ _); [apply (by_int _ (9)); [reflexivity|reflexivity]|apply (by_float _ true 0 (0)); [discriminate || reflexivity|reflexivity|reflexivity]]|].
    constructor; [exact (W_stroke _)|].
    constructor; [exact (W_restore _)|].
    constructor; [exact (W_begin _)|].
    constructor; [refine (W_tm _ _ _ (lit "5") (lit "90.7") _ _); [apply (by_int _ (5)); [reflexivity|reflexivity]|apply (by_float _ false 907 (-1)); [discriminate || reflexivity|reflexivity|reflexivity]]|].
    constructor; [refine (W_td _ _ _ (111#10) (lit "2") (lit "11.1") _ _ _ _); [apply (by_int _ (2)); [reflexivity|reflexivity]|apply (by_float _ false 111 (-1)); [discriminate || reflexivity|reflexivity|reflexivity]|discriminate|reflexivity]|].
    constructor; [refine (W_font _ _ _ (lit "10") _); [apply (by_int _ (10)); [reflexivity|reflexivity]]|].
    constructor; [refine (W_fill_gray _ _ (lit "0") _); [apply (by_int _ (0)); [reflexivity|reflexivity]]|].
    constructor; [refine (W_rise _ _ (lit "0") _); [apply (by_int _ (0)); [reflexivity|reflexivity]]|].
    constructor; [refine (W_spacing _ _ (lit "0.0") _); [apply (by_float _ false 0 (0)); [discriminate || reflexivity|reflexivity|reflexivity]]|].
    constructor; [exact (W_show _ _)|].
    constructor; [exact (W_show _ _)|].
    constructor; [exact (W_end _)|].
    constructor; [exact (W_save _)|].
    constructor; [refine (W_concat_image _ _ _ _ _ (lit "20.0") (lit "30") (lit "1") (lit "-2.5") _ _ _ _); [apply (by_float _ false 2 (1)); [discriminate || reflexivity|reflexivity|reflexivity]|apply (by_int _ (30)); [reflexivity|reflexivity]|apply (by_int _ (1)); [reflexivity|reflexivity]|apply (by_float _ true 25 (-1)); [discriminate || reflexivity|reflexivity|reflexivity]]|].
    constructor; [exact (W_do _ _)|].
    constructor; [exact (W_restore _)|].
    constructor.
  - intros o q Ho. revert q. apply Forall_forall. revert o Ho. apply Forall_forall. unfold ex_ops. repeat (constructor; [repeat (constructor; [reflexivity|]); constructor|]). constructor.
  - intros x y H. unfold ex_ops in H. cbn [In] in H. repeat (destruct H as [H|H]; [try discriminate H; injection H as <- <-; discriminate|]). destruct H.
  - intros n a [H|H]; unfold ex_ops in H; cbn [In] in H; repeat (destruct H as [H|H]; [try discriminate H; first [injection H as <- <-|injection H as <-]; reflexivity|]); destruct H.
  - intros t H. unfold ex_ops in H. cbn [In] in H. repeat (destruct H as [H|H]; [try discriminate H; injection H as <-; cbn; intuition discriminate|]). destruct H.
Qed.

(** ** Where it fails *)

(** The indent after a list text is not rounded: one of 1/100000 is printed as
    "1e-05", which is not a number, and no reader finds operators in it; so is
    a number of 10 ^ 16. *)
Definition unreadable (s : str) : Prop := forall ops, ~ reads_as s ops.
Definition ex_tiny : config := mkCfg [CText (lit "uu") (ex_style 1) []] ALeft (11#10) 0 (Some (mkList (lit "*") (Some (1 # 100000)%Q) (fun y => y))).
Theorem C78_exponent_refuted : exists d s s',
  ex_run3 ex_tiny (fresh ex_tiny) 100 200 = Ok d /\ In (GTd (1 # 100000) 0) (e_text (d_em d)) /\
  (forall lists, writes lists (GTd (1 # 100000) 0) s) /\ unreadable s /\
  (forall lists, writes lists (GWidth (inject_Z (10 ^ 16))) s') /\ unreadable s'.
Proof.
  destruct (on_ok_ex (ex_run3 ex_tiny (fresh ex_tiny) 100 200)
    (fun d => match nth_error (e_text (d_em d)) 5 with Some (GTd x y) => (Qnum x =? 1)%Z && (Qden x =? 100000)%positive && (Qnum y =? 0)%Z && (Qden y =? 1)%positive | _ => false end)) as (d & E & T).
  { vm_compute. reflexivity. }
  destruct (nth_error (e_text (d_em d)) 5) as [o|] eqn:En; [|discriminate]. destruct o as [| | | | | | | | | | | | | | | | | | |x y| |]; try discriminate T.
  apply andb_true_iff in T as [T T4]. apply andb_true_iff in T as [T T3]. apply andb_true_iff in T as [T1 T2].
  apply Z.eqb_eq in T1, T3. apply Pos.eqb_eq in T2, T4. destruct x as [x1 x2], y as [y1 y2]. cbn [Qnum Qden] in *. subst. apply nth_error_In in En.
  exists d, (lit " 1e-05 0 Td"), (lit " 1e+16 w"). split; [exact E|]. split; [exact En|].
  assert (U : forall w l s, lexed s (TWord w :: l) -> operator w [] = None -> unreadable s).
  { intros w l s L O ops (l' & L' & H). rewrite <- (lexed_one _ _ L _ L') in H. cbn [operators] in H. rewrite O in H. discriminate. }
  split; [|split; [|split]].
  - intros lists. exact (W_td_list lists _ (lit "1e-05") (by_float _ false 1 (-5) _ ltac:(discriminate) ltac:(reflexivity) ltac:(reflexivity))).
  - refine (U (lit "1e-05") [TNum 0; TWord (lit "Td")] _ _ _); [|reflexivity].
    eapply lexed_next; [vm_compute; reflexivity|]. eapply lexed_next; [vm_compute; reflexivity|]. eapply lexed_next; [vm_compute; reflexivity|]. constructor. reflexivity.
  - intros lists. exact (W_width lists _ (lit "1e+16") (by_float _ false 1 16 _ ltac:(discriminate) ltac:(reflexivity) ltac:(reflexivity))).
  - refine (U (lit "1e+16") [TWord (lit "w")] _ _ _); [|reflexivity].
    eapply lexed_next; [vm_compute; reflexivity|]. eapply lexed_next; [vm_compute; reflexivity|]. constructor. reflexivity.
Qed.
Print Assumptions C78_exponent_refuted.
