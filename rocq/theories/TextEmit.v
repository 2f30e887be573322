(** What the operators of a paragraph show (C24, C37, C38). *)
From Coq Require Import String QArith Lqa.
From Verif Require Import Py PyStr Gfx TextLayout TextProofs TextWords TextOrder TextFit TextWidth.
Open Scope list_scope.

Section Emit.
Variable round3 : Q -> Q.
Variable text_w : fkey -> str -> Q.
Variable space_w : fkey -> Q.
Variable fref : fkey -> str.
Hypothesis round3_proper : forall x y, (x == y)%Q -> (round3 x == round3 y)%Q.
Notation run := (run round3 text_w space_w fref).
Notation compare := (compare round3 fref).
Notation output_text := (output_text round3 space_w fref).
Notation emit_parts := (emit_parts round3 space_w fref).

(** ** Specification: a part shown with its own attributes *)

(** [PShow] with the font, size and rise of the state, its colour if it has
    one, and the given position. *)
Definition own_state (s : tstate) (font : option (str * Q)) (fill : rgb) (rise : Q) : Prop :=
  font_eq font (Some (fref (t_font s), round3 (t_size s))) /\
  (forall col, t_color s = Some col -> rgb_eq fill (round_rgb round3 col)) /\ (rise == round3 (t_rise s))%Q.
(** Where a line is, if positions are compared. *)
Definition at_pos (gx gy : Prop) (pos want : Q * Q) : Prop :=
  (gx -> fst pos == fst want)%Q /\ (gy -> snd pos == snd want)%Q.
Definition shows_part (gx gy : Prop) (ctm : matrix) (want : lpart * Q * (Q * Q)) (p : paint) : Prop :=
  let '(part, factor, pos) := want in
  match p with
  | PShow m font fill rise spacing line s =>
      m = ctm /\ own_state (y_state (lp_style part)) font fill rise /\
      (spacing == round3 (spw space_w (lp_style part) * (factor - 1)))%Q /\ at_pos gx gy line pos /\ s = part_text part
  | _ => False
  end.
(** The parts of a line that have text. *)
Definition line_wants (l : line) (k : mark) (pos : Q * Q) : list (lpart * Q * (Q * Q)) :=
  map (fun p => (p, k_factor k, pos)) (filter (fun p => nonempty (part_text p)) (l_parts l)).

(** ** The reader follows the emission *)

Definition follows (e : em) (g : gstate) : Prop :=
  (forall s, e_state e = Some s -> own_state s (g_font g) (g_fill g) (g_rise g)) /\
  (forall t, e_tw e = Some t -> (g_spacing g == t)%Q).

Lemma str_pair_eqb_eq a b : str_pair_eqb a b = true -> a = b.
Proof.
  destruct a, b. unfold str_pair_eqb. cbn. intros H. apply andb_true_iff in H as [H1 H2].
  apply str_eqb_eq in H1. apply str_eqb_eq in H2. congruence.
Qed.
Lemma font_eq_refl f : font_eq f f.
Proof. destruct f as [[]|]; cbn; auto. split; reflexivity. Qed.

Lemma compare_exec s o r : (forall s', o = Some s' -> own_state s' (g_font (r_gs r)) (g_fill (r_gs r)) (g_rise (r_gs r))) ->
  exists g, execs (compare s o) r = (with_gs r g, []) /\ own_state s (g_font g) (g_fill g) (g_rise g) /\
    g_ctm g = g_ctm (r_gs r) /\ g_spacing g = g_spacing (r_gs r).
Proof.
  intros H. unfold TextLayout.compare. destruct r as [[m fc sc w cap dash font rise spc] stk path line]. cbn [r_gs g_font g_fill g_rise] in H.
  set (c1 := _ || _).
  set (c2 := match o with None => true | Some s' => negb (ocolor_eqb (t_color s) (t_color s')) end).
  set (c3 := match o with None => true | Some s' => negb (Qeq_bool (t_rise s) (t_rise s')) end).
  set (font' := if c1 then Some (fref (t_font s), round3 (t_size s)) else font).
  set (fc' := if c2 then match t_color s with Some col => round_rgb round3 col | None => fc end else fc).
  set (rise' := if c3 then round3 (t_rise s) else rise).
  exists (mkGS m fc' sc w cap dash font' rise' spc). split; [|split; [|split; reflexivity]].
  - rewrite execs_app.
    replace (execs (if c1 then [GFont (fref (t_font s)) (round3 (t_size s))] else []) (mkR (mkGS m fc sc w cap dash font rise spc) stk path line))
      with (mkR (mkGS m fc sc w cap dash font' rise spc) stk path line, @nil paint) by (unfold font'; destruct c1; reflexivity).
    rewrite execs_app.
    replace (execs (if c2 then _ else _) (mkR (mkGS m fc sc w cap dash font' rise spc) stk path line))
      with (mkR (mkGS m fc' sc w cap dash font' rise spc) stk path line, @nil paint)
      by (unfold fc'; destruct c2; [destruct (t_color s)|]; reflexivity).
    replace (execs (if c3 then [GRise (round3 (t_rise s))] else []) (mkR (mkGS m fc' sc w cap dash font' rise spc) stk path line))
      with (mkR (mkGS m fc' sc w cap dash font' rise' spc) stk path line, @nil paint) by (unfold rise'; destruct c3; reflexivity).
    reflexivity.
  - cbn [g_font g_fill g_rise]. unfold own_state. destruct o as [s'|].
    + destruct (H s' eq_refl) as (H1 & H2 & H3). split; [|split].
      * unfold font', c1. destruct (str_pair_eqb (t_font s) (t_font s')) eqn:E1; cbn [negb orb]; [|apply font_eq_refl].
        destruct (Qeq_bool (t_size s) (t_size s')) eqn:E2; cbn [negb]; [|apply font_eq_refl].
        apply str_pair_eqb_eq in E1. apply Qeq_bool_eq in E2. unfold font_eq in *. destruct font as [[f q]|]; [|contradiction].
        destruct H1 as [-> H1]. rewrite E1. split; [reflexivity|]. rewrite H1. apply round3_proper. now symmetry.
      * intros col Hcol. unfold fc', c2. rewrite Hcol. destruct (t_color s') as [col'|] eqn:E; cbn [ocolor_eqb].
        -- destruct (rgb_eqb col col') eqn:Ec; cbn [negb]; [|apply rgb_eq_refl].
           eapply rgb_eq_trans; [exact (H2 _ eq_refl)|]. apply round_rgb_proper; [exact round3_proper|].
           apply rgb_eq_sym. now apply rgb_eqb_eq.
        -- cbn [negb]. apply rgb_eq_refl.
      * unfold rise', c3. destruct (Qeq_bool (t_rise s) (t_rise s')) eqn:E; cbn [negb]; [|reflexivity].
        rewrite H3. apply round3_proper. symmetry. now apply Qeq_bool_eq.
    + split; [apply font_eq_refl|]. split; [|reflexivity]. intros col Hcol. unfold fc', c2. rewrite Hcol. apply rgb_eq_refl.
Qed.

(** Showing and moving. *)
Lemma show_exec r l t : r_line r = Some l ->
  execs [GShow t] r = (r, [PShow (g_ctm (r_gs r)) (g_font (r_gs r)) (g_fill (r_gs r)) (g_rise (r_gs r)) (g_spacing (r_gs r)) l t]).
Proof. intros H. destruct r as [[m fc sc w cap dash font rise spc] stk path line]. cbn in *. rewrite H. reflexivity. Qed.
Lemma td_exec r x y p q : r_line r = Some (p, q) -> execs [GTd x y] r = (with_line r (Some (p + x, q + y)%Q), []).
Proof. intros H. destruct r as [[m fc sc w cap dash font rise spc] stk path line]. cbn in *. subst line. reflexivity. Qed.

(** One part. *)
Lemma output_text_exec gx gy p f e r l pos : follows e (r_gs r) -> r_line r = Some l -> at_pos gx gy l pos ->
  exists ops r' ps, e_text (output_text p f e) = e_text e ++ ops /\ execs ops r = (r', ps) /\
    Forall2 (shows_part gx gy (g_ctm (r_gs r))) (map (fun p => (p, f, pos)) (filter (fun p => nonempty (part_text p)) [p])) ps /\
    follows (output_text p f e) (r_gs r') /\ r_line r' = Some l /\ g_ctm (r_gs r') = g_ctm (r_gs r) /\
    r_stack r' = r_stack r /\ r_path r' = r_path r.
Proof.
  intros [F1 F2] Hl Hpos. unfold TextLayout.output_text. cbn [e_text].
  set (tw := round3 _). set (differs := match e_tw e with Some _ => _ | None => _ end).
  destruct (compare_exec (y_state (lp_style p)) (e_state e) r F1) as (g & Ec & Hown & Hm & Hsp).
  set (sp' := if differs then tw else g_spacing g).
  set (g' := mkGS (g_ctm g) (g_fill g) (g_stroke g) (g_width g) (g_cap g) (g_dash g) (g_font g) (g_rise g) sp').
  assert (Hsp' : (sp' == tw)%Q).
  { unfold sp', differs. destruct (e_tw e) as [t|] eqn:Et; [|reflexivity].
    destruct (Qeq_bool t tw) eqn:E; cbn [negb]; [|reflexivity]. rewrite Hsp, (F2 t eq_refl). now apply Qeq_bool_eq. }
  assert (E2 : execs (if differs then [GSpacing tw] else []) (with_gs r g) = (with_gs r g', [])).
  { unfold g', sp'. destruct differs; cbn [execs exec with_gs r_gs]; destruct g; reflexivity. }
  set (ops3 := match List.concat (lp_words p) with [] => [] | _ => [GShow (List.concat (lp_words p))] end).
  assert (E3 : exists ps, execs ops3 (with_gs r g') = (with_gs r g', ps) /\
    Forall2 (shows_part gx gy (g_ctm (r_gs r))) (map (fun p => (p, f, pos)) (filter (fun p => nonempty (part_text p)) [p])) ps).
  { unfold ops3. cbn [filter]. unfold part_text. destruct (List.concat (lp_words p)) as [|c0 rst] eqn:Et; cbn [nonempty map].
    - exists []. split; [reflexivity|constructor].
    - eexists. split; [apply show_exec; exact Hl|]. constructor; [|constructor].
      cbn [with_gs r_gs shows_part]. split; [exact Hm|]. split; [exact Hown|]. split; [exact Hsp'|]. split; [exact Hpos|].
      unfold part_text. now rewrite Et. }
  destruct E3 as (ps & E3 & E4).
  exists (compare (y_state (lp_style p)) (e_state e) ++ (if differs then [GSpacing tw] else []) ++ ops3), (with_gs r g'), ps.
  split; [reflexivity|]. split; [rewrite execs_app, Ec, execs_app, E2, E3; reflexivity|]. split; [exact E4|].
  split.
  { split; cbn [e_state e_tw with_gs r_gs].
    - intros s [= <-]. exact Hown.
    - intros t Ht. unfold g'. cbn [g_spacing]. unfold sp', differs in *. destruct (e_tw e) as [t0|] eqn:Et.
      + destruct (negb (Qeq_bool t0 tw)) eqn:E.
        * injection Ht as <-. reflexivity.
        * injection Ht as <-. rewrite Hsp. apply F2. reflexivity.
      + injection Ht as <-. reflexivity. }
  split; [exact Hl|]. split; [exact Hm|]. split; reflexivity.
Qed.

Lemma emit_part_text p f x e : let '(e', x') := emit_part round3 space_w fref p f x e in
  e_text e' = e_text (output_text p f e) /\ e_state e' = e_state (output_text p f e) /\ e_tw e' = e_tw (output_text p f e).
Proof.
  unfold emit_part. destruct (List.concat (lp_words p)) as [|c0 r]; [repeat split|].
  destruct (isspace (c0 :: r)); [repeat split|]. unfold output_graphics.
  destruct (y_bg (lp_style p)); destruct (y_under (lp_style p)); repeat split.
Qed.
Lemma emit_parts_exec gx gy f l pos : at_pos gx gy l pos -> forall ps x e r, follows e (r_gs r) -> r_line r = Some l ->
  exists ops r' qs, e_text (emit_parts ps f x e) = e_text e ++ ops /\ execs ops r = (r', qs) /\
    Forall2 (shows_part gx gy (g_ctm (r_gs r))) (map (fun p => (p, f, pos)) (filter (fun p => nonempty (part_text p)) ps)) qs /\
    follows (emit_parts ps f x e) (r_gs r') /\ r_line r' = Some l /\ g_ctm (r_gs r') = g_ctm (r_gs r) /\
    r_stack r' = r_stack r /\ r_path r' = r_path r.
Proof.
  intros Hpos. induction ps as [|p ps IH]; intros x e r F Hl; cbn [TextLayout.emit_parts].
  - exists [], r, []. rewrite app_nil_r. split; [reflexivity|]. split; [reflexivity|]. split; [constructor|]. split; [exact F|].
    repeat split. exact Hl.
  - pose proof (emit_part_text p f x e) as Hep. destruct (emit_part round3 space_w fref p f x e) as [e1 x1].
    destruct Hep as (T1 & T2 & T3).
    destruct (output_text_exec gx gy p f e r l pos F Hl Hpos) as (ops & r1 & q1 & A & B & C & D & E & G & H & I).
    assert (F1 : follows e1 (r_gs r1)) by (unfold follows; rewrite T2, T3; exact D).
    destruct (IH x1 e1 r1 F1 E) as (ops2 & r2 & q2 & A2 & B2 & C2 & D2 & E2 & G2 & H2 & I2).
    exists (ops ++ ops2), r2, (q1 ++ q2). split; [rewrite A2, T1, A, app_assoc; reflexivity|].
    split; [rewrite execs_app, B, B2; reflexivity|]. split.
    + rewrite G in C2. cbn [filter]. cbn [filter] in C. destruct (nonempty (part_text p)); cbn [map app] in C |- *.
      * inversion C as [|? ? ? ? C1 C3]; subst. inversion C3; subst. cbn [app]. constructor; assumption.
      * inversion C; subst. exact C2.
    + split; [exact D2|]. repeat split; congruence.
Qed.

(** ** Lines *)

(** Positions are compared horizontally when the indent of the first line does
    not interfere (see C38). *)
Definition x_ok (c : config) (d : dyn) : Prop :=
  c_list c = None /\ ((c_indent c == 0)%Q \/ (is_rc (c_align c) = false /\ d_correct d = d_first d)).
Definition y_ok (c : config) : Prop := c_list c = None.

(** The position of line [i]: the recorded start and the height of the lines
    up to it. *)
Definition line_pos (c : config) (a b : Q) (ls : list line) (k : mark) : Q * Q := (a + k_x k, b - total_height c ls)%Q.
Fixpoint wants (c : config) (a b : Q) (before : list line) (lks : list (line * mark)) : list (lpart * Q * (Q * Q)) :=
  match lks with
  | [] => []
  | (l, k) :: r => line_wants l k (line_pos c a b (before ++ [l]) k) ++ wants c a b (before ++ [l]) r
  end.
Lemma wants_snoc c a b lks : forall bef l k,
  wants c a b bef (lks ++ [(l, k)]) = wants c a b bef lks ++ line_wants l k (line_pos c a b (bef ++ map fst lks ++ [l]) k).
Proof.
  induction lks as [|[l0 k0] lks IH]; intros bef l k; cbn [app wants map fst].
  - now rewrite app_nil_r.
  - rewrite IH, <- app_assoc. rewrite <- !app_assoc. reflexivity.
Qed.

(** Each line is moved to from the line before it, and the moves are rounded:
    where a line is after the rounded moves.  The first move may be rounded in
    another way [g] and goes [ex] more down. *)
Fixpoint rrest (c : config) (ls : list line) : Q :=
  match ls with [] => 0 | l :: r => round3 (line_height l * c_lh c) + rrest c r end%Q.
Definition rtotal (c : config) (ex : Q) (ls : list line) : Q :=
  match ls with [] => 0 | l :: r => round3 (ex + line_height l) + rrest c r end%Q.
Fixpoint rsteps (x : Q) (ks : list mark) : Q :=
  match ks with [] => 0 | k :: r => round3 (k_x k - x) + rsteps (k_x k) r end%Q.
Definition rstart (g : Q -> Q) (ks : list mark) : Q :=
  match ks with [] => 0 | k :: r => g (k_x k) + rsteps (k_x k) r end%Q.
Fixpoint lastx (x : Q) (ks : list mark) : Q := match ks with [] => x | k :: r => lastx (k_x k) r end.
Definition rpos (c : config) (g : Q -> Q) (a b ex : Q) (lks : list (line * mark)) : Q * Q :=
  (a + rstart g (map snd lks), b - rtotal c ex (map fst lks))%Q.
Fixpoint wants_at (pos : list (line * mark) -> Q * Q) (before lks : list (line * mark)) : list (lpart * Q * (Q * Q)) :=
  match lks with
  | [] => []
  | (l, k) :: r => line_wants l k (pos (before ++ [(l, k)])) ++ wants_at pos (before ++ [(l, k)]) r
  end.
Lemma wants_at_snoc pos lks : forall bef l k,
  wants_at pos bef (lks ++ [(l, k)]) = wants_at pos bef lks ++ line_wants l k (pos (bef ++ lks ++ [(l, k)])).
Proof.
  induction lks as [|[l0 k0] lks IH]; intros bef l k; cbn [app wants_at].
  - now rewrite app_nil_r.
  - rewrite IH, <- app_assoc. rewrite <- !app_assoc. reflexivity.
Qed.
Lemma rrest_snoc c ls l : (rrest c (ls ++ [l]) == rrest c ls + round3 (line_height l * c_lh c))%Q.
Proof. induction ls as [|m ls IH]; cbn [app rrest]; [ring|]. rewrite IH. ring. Qed.
Lemma rtotal_snoc c ex l0 ls l : (rtotal c ex ((l0 :: ls) ++ [l]) == rtotal c ex (l0 :: ls) + round3 (line_height l * c_lh c))%Q.
Proof. cbn [app rtotal]. rewrite rrest_snoc. ring. Qed.
Lemma rsteps_snoc ks : forall x k, (rsteps x (ks ++ [k]) == rsteps x ks + round3 (k_x k - lastx x ks))%Q.
Proof. induction ks as [|m ks IH]; intros x k; cbn [app rsteps lastx]; [ring|]. rewrite IH. ring. Qed.
Lemma rstart_snoc g k0 ks k : (rstart g ((k0 :: ks) ++ [k]) == rstart g (k0 :: ks) + round3 (k_x k - lastx 0 (k0 :: ks)))%Q.
Proof. cbn [app rstart lastx]. rewrite rsteps_snoc. ring. Qed.
Lemma lastx_snoc ks : forall x k, lastx x (ks ++ [k]) = k_x k.
Proof. induction ks as [|m ks IH]; intros x k; [reflexivity|]. cbn [app lastx]. apply IH. Qed.

(** Shows of the list text. *)
Definition is_list_show (c : config) (p : paint) : Prop :=
  match c_list c, p with Some li, PShow _ _ _ _ _ _ s => s = li_text li | _, _ => False end.

Record emit_inv (c : config) (d0 : dyn) (w : Q) (r : reader) (a b : Q) (d : dyn) : Prop := {
  ei_len : List.length (d_marks d) = List.length (d_lines d);
  ei_started : e_started (d_em d) = negb (no_lines d);
  ei_first : d_first d = d_first d0 && no_lines d;
  ei_fresh : no_lines d = true -> d_correct d = d_correct d0 /\ e_indent (d_em d) = 0%Q /\
    e_state (d_em d) = None /\ e_tw (d_em d) = None;
  ei_left : is_rc (c_align c) = false -> e_indent (d_em d) = 0%Q;
  ei_exec : exists r' pre qs, execs (e_text (d_em d)) r = (r', pre ++ qs) /\
    Forall (is_list_show c) pre /\ (d_first d0 = false -> pre = []) /\
    Forall2 (shows_part (x_ok c d0) (y_ok c) (g_ctm (r_gs r))) (wants_at (rpos c round3 a b 0) [] (combine (d_lines d) (d_marks d))) qs /\
    follows (d_em d) (r_gs r') /\ g_ctm (r_gs r') = g_ctm (r_gs r) /\ r_stack r' = r_stack r /\ r_path r' = r_path r /\
    (no_lines d = true -> pre = [] /\ qs = []) /\
    exists x y, r_line r' = Some (x, y) /\
      (y_ok c -> y == b - rtotal c 0 (d_lines d))%Q /\
      (x_ok c d0 -> x == a + rstart round3 (d_marks d) /\
        lastx 0 (d_marks d) == e_indent (d_em d) + (if no_lines d then 0 else if d_correct d then c_indent c else 0))%Q }.

Lemma combine_snoc {A B} (l : list A) : forall (m : list B) x y, List.length m = List.length l ->
  combine (l ++ [x]) (m ++ [y]) = combine l m ++ [(x, y)].
Proof.
  induction l as [|u l IH]; intros [|v m] x y H; cbn in H; try discriminate; [reflexivity|].
  cbn. rewrite IH by congruence. reflexivity.
Qed.
Lemma map_snd_combine {A B} (l : list A) : forall (m : list B), List.length m = List.length l -> map snd (combine l m) = m.
Proof. induction l as [|u l IH]; intros [|v m] H; cbn in *; try discriminate; [reflexivity|]. rewrite IH by congruence. reflexivity. Qed.
Lemma map_fst_combine {A B} (l : list A) : forall (m : list B), List.length m = List.length l -> map fst (combine l m) = l.
Proof. induction l as [|u l IH]; intros [|v m] H; cbn in *; try discriminate; [reflexivity|]. rewrite IH by congruence. reflexivity. Qed.

(** The beginning of a line. *)
Lemma start_exec c d0 w r a b d l bl e x q f k r' px py : emit_inv c d0 w r a b d ->
  start_line round3 fref c d l bl = Ok (e, x, q, f, k) ->
  follows (d_em d) (r_gs r') -> r_line r' = Some (px, py) ->
  (y_ok c -> py == b - rtotal c 0 (d_lines d))%Q ->
  (x_ok c d0 -> px == a + rstart round3 (d_marks d) /\
    lastx 0 (d_marks d) == e_indent (d_em d) + (if no_lines d then 0 else if d_correct d then c_indent c else 0))%Q ->
  e_started e = true /\ f = false /\ (is_rc (c_align c) = false -> e_indent e = 0%Q) /\
  exists ops r2 ls nx ny, e_text e = e_text (d_em d) ++ ops /\ execs ops r' = (r2, ls) /\ Forall (is_list_show c) ls /\
    (ls <> [] -> no_lines d = true /\ d_first d0 = true) /\
    follows e (r_gs r2) /\ g_ctm (r_gs r2) = g_ctm (r_gs r') /\ r_stack r2 = r_stack r' /\ r_path r2 = r_path r' /\
    r_line r2 = Some (nx, ny) /\
    (y_ok c -> ny == b - rtotal c 0 (d_lines d ++ [l]))%Q /\
    (x_ok c d0 -> nx == a + rstart round3 (d_marks d ++ [mkMark bl x q]) /\ x == e_indent e + (if k then c_indent c else 0))%Q.
Proof.
  intros [L S F C I X] Es Ff Hr Hy Hx. clear X. unfold start_line in Es. rewrite S in Es.
  set (h := line_height l) in *. set (ww := words_w (l_parts l)) in *. set (sw := spaces_w (l_parts l)) in *.
  destruct (no_lines d) eqn:En; cbn [negb] in Es.
  - destruct (C eq_refl) as (C1 & C2 & C3 & C4). rewrite andb_true_r in F.
    assert (Hd : d_lines d = []) by (unfold no_lines in En; destruct (d_lines d); [reflexivity|discriminate]).
    rewrite Hd in L, Hy |- *. destruct (d_marks d) as [|? ?]; [|discriminate L]. cbn [app rtotal rrest rstart rsteps lastx k_x] in Hy, Hx |- *.
    destruct (d_first d) eqn:Ef.
    + destruct (c_list c) as [li|] eqn:El.
      * destruct (d_lindent d) as [x0|]; [|discriminate]. cbn [bind] in Es. destruct (d_lstate d) as [ls|]; [|discriminate].
        apply Ok_inj in Es. apply pair_equal_spec in Es as [Es <-]. apply pair_equal_spec in Es as [Es <-].
        apply pair_equal_spec in Es as [Es _]. apply pair_equal_spec in Es as [<- <-].
        set (fh := if qgtb (t_size ls) h then _ else _).
        unfold add_ops. cbn [e_started e_indent e_text]. split; [reflexivity|]. split; [reflexivity|].
        split; [intros ->; exact C2|].
        eexists.
        set (r1 := with_line r' (Some (px + 0, py + - round3 fh)%Q)).
        destruct (compare_exec ls (e_state (d_em d)) r1) as (g & Ec & _ & Hm & Hsp).
        { intros s' Hs'. rewrite C3 in Hs'. discriminate. }
        assert (Hl1 : r_line (with_gs r1 g) = Some (px + 0, py + - round3 fh)%Q) by reflexivity.
        eexists _, _, _, _. split; [reflexivity|]. split.
        { rewrite execs_app, (td_exec _ _ _ _ _ Hr). fold r1. rewrite execs_app, Ec.
          change (GShow (li_text li) :: ?x) with ([GShow (li_text li)] ++ x). rewrite execs_app, (show_exec _ _ _ Hl1), (td_exec _ _ _ _ _ Hl1).
          cbn [app]. reflexivity. }
        split; [constructor; [unfold is_list_show; rewrite El; reflexivity|constructor]|].
        split; [intros _; split; [reflexivity|now rewrite <- F]|].
        split; [split; cbn [e_state e_tw]; [rewrite C3|rewrite C4]; discriminate|].
        split; [exact Hm|]. split; [reflexivity|]. split; [reflexivity|]. split; [reflexivity|].
        split; [intros K; unfold y_ok in K; congruence|intros (K & _); congruence].
      * cbn [bind] in Es.
        apply Ok_inj in Es. apply pair_equal_spec in Es as [Es <-]. apply pair_equal_spec in Es as [Es <-].
        apply pair_equal_spec in Es as [Es _]. apply pair_equal_spec in Es as [<- <-].
        unfold add_ops. cbn [e_started e_indent e_text]. split; [reflexivity|]. split; [reflexivity|].
        split; [intros ->; exact C2|].
        eexists _, _, _, _, _. split; [reflexivity|]. split; [apply (td_exec _ _ _ _ _ Hr)|].
        split; [constructor|]. split; [congruence|]. split; [exact Ff|]. split; [reflexivity|]. split; [reflexivity|].
        split; [reflexivity|]. split; [reflexivity|]. split.
        -- intros K. rewrite (Hy K). rewrite (round3_proper (0 + line_height l) h) by (unfold h; ring). ring.
        -- intros K. destruct (Hx K) as [Hx1 _]. destruct K as (_ & K). rewrite Hx1, C2.
           destruct (is_rc (c_align c)) eqn:Er.
           ++ destruct K as [K|[K _]]; [|discriminate].
              match goal with |- (_ + round3 ?u == _ /\ _)%Q => rewrite (round3_proper u (0 + u + c_indent c)) by (rewrite K; ring) end.
              split; [match goal with |- (_ + round3 ?u == _ + (round3 ?v + _))%Q => rewrite (round3_proper v u) by (rewrite ?C2; ring) end; ring|].
              destruct (d_correct d); rewrite K; ring.
           ++ split; [match goal with |- (_ + round3 ?u == _ + (round3 ?v + _))%Q => rewrite (round3_proper v u) by (rewrite ?C2; ring) end; ring|].
              rewrite C1. destruct K as [K|[_ K]].
              ** destruct (d_correct d0); try rewrite K; ring.
              ** rewrite K, <- F. ring.
    + assert (Es' : exists x0, c_list c = None -> x0 = 0%Q) by (exists 0%Q; reflexivity).
      destruct (match c_list c with Some _ => _ | None => _ end) as [x0|] eqn:E0 in Es; [|discriminate].
      cbn [bind] in Es.
      apply Ok_inj in Es. apply pair_equal_spec in Es as [Es <-]. apply pair_equal_spec in Es as [Es <-].
      apply pair_equal_spec in Es as [Es _]. apply pair_equal_spec in Es as [<- <-].
      unfold add_ops. cbn [e_started e_indent e_text]. split; [reflexivity|]. split; [reflexivity|].
      split; [intros ->; exact C2|].
      eexists _, _, _, _, _. split; [reflexivity|]. split; [apply (td_exec _ _ _ _ _ Hr)|].
      split; [constructor|]. split; [congruence|]. split; [exact Ff|]. split; [reflexivity|]. split; [reflexivity|].
      split; [reflexivity|]. split; [reflexivity|]. split.
      * intros K. rewrite (Hy K). rewrite (round3_proper (0 + line_height l) h) by (unfold h; ring). ring.
      * intros K. destruct (Hx K) as [Hx1 _]. destruct K as (K2 & K). rewrite K2 in E0 |- *. apply Ok_inj in E0. subst x0.
        rewrite Hx1, C1, ?C2. split;
          [match goal with |- (_ + round3 ?u == _ + (round3 ?v + _))%Q => rewrite (round3_proper v u) by (destruct (is_rc (c_align c)); rewrite ?C2; ring) end; ring|].
        destruct (is_rc (c_align c)) eqn:Er.
        -- destruct K as [K|[K _]]; [|discriminate]. destruct (d_correct d0); [rewrite K|]; ring.
        -- destruct K as [K|[_ K]].
           ++ destruct (d_correct d0); try rewrite K; ring.
           ++ rewrite K, <- F. ring.
  - destruct (match c_list c with Some _ => _ | None => _ end) as [x0|] eqn:E0 in Es; [|discriminate].
    cbn [bind] in Es.
    apply Ok_inj in Es. apply pair_equal_spec in Es as [Es <-]. apply pair_equal_spec in Es as [Es <-].
    apply pair_equal_spec in Es as [Es _]. apply pair_equal_spec in Es as [<- <-].
    unfold add_ops. cbn [e_started e_indent e_text]. split; [reflexivity|]. rewrite F, andb_false_r. split; [reflexivity|].
    split; [intros H; rewrite H; apply I; exact H|].
    eexists _, _, _, _, _. split; [reflexivity|]. split; [apply (td_exec _ _ _ _ _ Hr)|].
    split; [constructor|]. split; [congruence|]. split; [exact Ff|]. split; [reflexivity|]. split; [reflexivity|].
    split; [reflexivity|]. split; [reflexivity|]. split.
    + intros K. rewrite (Hy K). unfold no_lines in En. destruct (d_lines d); [discriminate|]. rewrite rtotal_snoc. fold h. ring.
    + intros K. destruct (Hx K) as [Hx1 Hx2]. destruct K as (K2 & K). rewrite K2 in E0. apply Ok_inj in E0. subst x0.
      unfold no_lines in En. destruct (d_lines d); [discriminate|]. destruct (d_marks d) as [|k0 ks]; [discriminate L|]. clear L.
      rewrite rstart_snoc. cbn [k_x]. split.
      * rewrite Hx1. match goal with |- (_ + round3 ?u == _ + (_ + round3 ?v))%Q => rewrite (round3_proper v u) end; [ring|].
        rewrite Hx2. destruct (is_rc (c_align c)) eqn:Er; [|rewrite (I eq_refl)]; destruct (d_correct d); ring.
      * destruct (is_rc (c_align c)) eqn:Er; [|rewrite (I eq_refl)]; ring.
Qed.

Lemma emit_line c d0 w r a b d l bl e x q f k : emit_inv c d0 w r a b d ->
  add_line_to_stream round3 space_w fref c d l bl = Ok (e, x, q, f, k) ->
  emit_inv c d0 w r a b (accept c d l (mkMark bl x q) e f k).
Proof.
  intros Inv E. unfold add_line_to_stream in E.
  destruct (start_line round3 fref c d l bl) as [[[[[e1 x1] q1] f1] k1]|er] eqn:Es; [|discriminate]. cbn [bind] in E.
  apply Ok_inj in E. apply pair_equal_spec in E as [E <-]. apply pair_equal_spec in E as [E <-].
  apply pair_equal_spec in E as [E <-]. apply pair_equal_spec in E as [<- <-].
  destruct (emit_parts_keeps round3 space_w fref (l_parts l) q1 x1 e1) as (K1 & K2 & K3).
  assert (Hnl : no_lines (accept c d l (mkMark bl x1 q1) (emit_parts (l_parts l) q1 x1 e1) f1 k1) = false) by apply accept_no_lines.
  destruct (ei_exec _ _ _ _ _ _ _ Inv) as (r' & pre & qs & X1 & X2 & X2' & X3 & X4 & X5 & X6 & X7 & X8 & px & py & X9 & X10 & X11).
  destruct (start_exec c d0 w r a b d l bl e1 x1 q1 f1 k1 r' px py Inv Es X4 X9 X10 X11)
    as (S1 & -> & S2 & ops & r2 & ls & nx & ny & T1 & T2 & T3 & T3' & T4 & T5 & T6 & T7 & T8 & T9 & T10).
  pose proof (ei_len _ _ _ _ _ _ _ Inv) as Hlen.
  set (pos := rpos c round3 a b 0 (combine (d_lines d) (d_marks d) ++ [(l, mkMark bl x1 q1)])).
  assert (Hp : at_pos (x_ok c d0) (y_ok c) (nx, ny) pos).
  { unfold pos, rpos. rewrite !map_app, map_fst_combine, map_snd_combine by exact Hlen. cbn [map fst snd].
    split; cbn [fst snd]; [intros H; exact (proj1 (T10 H))|exact T9]. }
  destruct (emit_parts_exec _ _ q1 (nx, ny) pos Hp (l_parts l) x1 e1 r2 T4 T8)
    as (ops2 & r3 & qs2 & U1 & U2 & U3 & U4 & U5 & U6 & U7 & U8).
  constructor; rewrite ?Hnl; cbn [accept d_marks d_lines d_em d_first d_correct].
  - rewrite !app_length, (ei_len _ _ _ _ _ _ _ Inv). reflexivity.
  - rewrite K1. exact S1.
  - now rewrite andb_false_r.
  - discriminate.
  - rewrite K3. exact S2.
  - assert (Hcase : ls = [] \/ (ls <> [] /\ no_lines d = true /\ d_first d0 = true)).
    { destruct ls; [now left|right]. split; [discriminate|]. apply T3'. discriminate. }
    exists r3, (pre ++ ls), (qs ++ qs2). split.
    { rewrite U1, T1, <- app_assoc, execs_app, X1, execs_app, T2, U2. f_equal.
      destruct Hcase as [->|(_ & H & _)]; [rewrite app_nil_r, <- !app_assoc; reflexivity|].
      destruct (X8 H) as [-> ->]. reflexivity. }
    split; [apply Forall_app; split; assumption|].
    split; [intros H; rewrite (X2' H); destruct Hcase as [->|(_ & _ & K)]; [reflexivity|congruence]|].
    split.
    { rewrite combine_snoc by exact Hlen. rewrite wants_at_snoc. cbn [app].
      apply Forall2_app; [exact X3|]. unfold line_wants. cbn [k_factor]. fold pos. rewrite T5, X5 in U3. exact U3. }
    split; [exact U4|]. split; [congruence|]. split; [congruence|]. split; [congruence|]. split; [discriminate|].
    exists nx, ny. split; [exact U5|]. split; [exact T9|]. rewrite K3, lastx_snoc. exact T10.
Qed.

(** What the text operators of a run show. *)
Lemma run_emit c d w h d' r a b : run c d w h = Ok d' -> r_line r = Some (a, b) -> emit_inv c d w r a b d'.
Proof.
  intros E Hr. refine (run_state_ind round3 text_w space_w fref c (emit_inv c d w r a b) _ _ d w h d' _ E).
  - intros d1 d2 Hc [L S F C I X]. unfold core in Hc. injection Hc as H1 H2 _ _ _ H3 H4 H5. unfold no_lines in *.
    constructor; unfold no_lines; rewrite <- ?H1, <- ?H2, <- ?H3, <- ?H4, <- ?H5; assumption.
  - intros d1 cur bl e x q f k Inv Es. exact (emit_line _ _ _ _ _ _ _ _ _ _ _ _ _ _ Inv Es).
  - constructor; cbn [init_run d_marks d_lines d_em d_first d_correct no_lines em0 e_started e_indent e_state e_tw];
      try reflexivity; try (symmetry; apply andb_true_r); auto.
    exists r, [], []. cbn. split; [reflexivity|]. split; [constructor|]. split; [reflexivity|]. split; [constructor|].
    split; [split; discriminate|]. split; [reflexivity|]. split; [reflexivity|]. split; [reflexivity|]. split; [auto|].
    exists a, b. split; [exact Hr|]. split; intros _; [|split]; ring.
Qed.
End Emit.
