(** Things on a page do not change how others look: what a reader shows of a
    paragraph, of graphics or of an image is the same after other things were
    added to the page as on an empty page. *)
From Coq Require Import String QArith Lqa Lia.
From Verif Require Import Py PyStr Gfx TextLayout TextProofs TextOrder.
Open Scope list_scope.

(** ** Specification *)

(** A space before something else than spaces. *)
Definition inner_space (s : str) : Prop := exists a b, s = a ++ 32%N :: b /\ exists x, In x b /\ x <> 32%N.
(** Two paints look the same: the word spacing moves only what is shown after
    a space (ISO 32000-1, 9.3.3). *)
Definition looks (p q : paint) : Prop :=
  match p, q with
  | PShow m f c ri sp l s, PShow m' f' c' ri' sp' l' s' =>
      m = m' /\ f = f' /\ c = c' /\ ri = ri' /\ l = l' /\ s = s' /\ (inner_space s -> sp = sp')
  | _, _ => p = q
  end.
Lemma looks_refl p : looks p p.
Proof. destruct p; cbn; auto 10. Qed.
Lemma all_look ps : Forall2 looks ps ps.
Proof. induction ps; constructor; auto using looks_refl. Qed.

(** ** Model: what is added to a page *)

Section Alone.
Variable round3 : Q -> Q.
Variable text_w : fkey -> str -> Q.
Variable space_w : fkey -> Q.
Variable fref : fkey -> str.
Notation run := (run round3 text_w space_w fref).
Notation compare := (compare round3 fref).
Notation output_text := (output_text round3 space_w fref).
Notation output_graphics := (output_graphics round3).
Notation emit_part := (emit_part round3 space_w fref).
Notation emit_parts := (emit_parts round3 space_w fref).

(** pdf.py 578-592 [_add_text], with the paragraph that [run] left; 875-886
    [_add_graphics]; page.py 148-191 [add_image] (the cursor is [x], [y]).
    The bookkeeping of fonts, links and labels is in other files. *)
Inductive piece :=
| Paragraph (x y : Q) (d : dyn)
| Graphics (l : list graphic)
| Picture (nm : str) (w h x y : Q).
Definition piece_ops (p : piece) : res (list gop) :=
  match p with
  | Paragraph x y d => Ok (paragraph_stream round3 x y (e_text (d_em d)) (e_gfx (d_em d)))
  | Graphics l => create_graphics round3 l
  | Picture nm w h x y => Ok (image_stream round3 nm w h x y)
  end.
(** page.py 71-88 [add] and parser.py 150-151: the portions of the stream are
    joined in the order of adding. *)
Fixpoint page_ops (ps : list piece) : res (list gop) :=
  match ps with
  | [] => Ok []
  | p :: r => do a <- piece_ops p; do b <- page_ops r; Ok (a ++ b)
  end.

(** ** Readers that differ in what text sets *)

Definition near (g1 g2 : gstate) : Prop :=
  g_ctm g1 = g_ctm g2 /\ g_stroke g1 = g_stroke g2 /\ g_width g1 = g_width g2 /\ g_cap g1 = g_cap g2 /\ g_dash g1 = g_dash g2.
Lemma near_refl g : near g g.
Proof. unfold near. auto. Qed.
Lemma near_sym g1 g2 : near g1 g2 -> near g2 g1.
Proof. unfold near. intuition. Qed.
Lemma near_trans g1 g2 g3 : near g1 g2 -> near g2 g3 -> near g1 g3.
Proof. unfold near. intuition congruence. Qed.

Definition text_op (o : gop) : Prop :=
  match o with GFont _ _ | GFillColor _ | GRise _ | GSpacing _ | GTd _ _ | GShow _ => True | _ => False end.
Definition paint_op (o : gop) : Prop :=
  match o with GFillColor _ | GStrokeColor _ | GWidth _ | GCap _ | GDash _ _ | GRect _ _ _ _ | GMove _ _ | GLine _ _ | GFill | GStroke => True | _ => False end.

Lemma text_ops_keep ops : Forall text_op ops -> forall r,
  near (r_gs (fst (execs ops r))) (r_gs r) /\ r_stack (fst (execs ops r)) = r_stack r /\ r_path (fst (execs ops r)) = r_path r.
Proof.
  induction 1 as [|o ops Ho _ IH]; intros r; [cbn; auto using near_refl|].
  cbn [execs]. destruct (exec o r) as [r1 e1] eqn:E. specialize (IH r1).
  destruct (execs ops r1) as [r2 e2]. cbn [fst] in *.
  assert (K : near (r_gs r1) (r_gs r) /\ r_stack r1 = r_stack r /\ r_path r1 = r_path r).
  { destruct r as [[m fc sc w cap dash font rise sp] stk path line].
    destruct o; try contradiction; cbn in E; try (injection E as <- <-; cbn; unfold near; cbn; repeat split).
    - destruct line as [[]|]; injection E as <- <-; cbn; unfold near; cbn; repeat split.
    - destruct line as [[]|]; injection E as <- <-; cbn; unfold near; cbn; repeat split. }
  destruct K as (K1 & K2 & K3), IH as (I1 & I2 & I3).
  split; [exact (near_trans _ _ _ I1 K1)|]. split; congruence.
Qed.
Lemma paint_ops_keep ops : Forall paint_op ops -> forall r,
  g_ctm (r_gs (fst (execs ops r))) = g_ctm (r_gs r) /\ r_stack (fst (execs ops r)) = r_stack r /\ r_line (fst (execs ops r)) = r_line r.
Proof.
  induction 1 as [|o ops Ho _ IH]; intros r; [cbn; auto|].
  cbn [execs]. destruct (exec o r) as [r1 e1] eqn:E. specialize (IH r1).
  destruct (execs ops r1) as [r2 e2]. cbn [fst] in *.
  assert (K : g_ctm (r_gs r1) = g_ctm (r_gs r) /\ r_stack r1 = r_stack r /\ r_line r1 = r_line r).
  { destruct r as [[m fc sc w cap dash font rise sp] stk path line].
    destruct o; try contradiction; cbn in E; injection E as <- <-; cbn; auto. }
  destruct K as (K1 & K2 & K3), IH as (I1 & I2 & I3). repeat split; congruence.
Qed.

(** ** Text *)

Definition same_text (g1 g2 : gstate) : Prop := g_font g1 = g_font g2 /\ g_rise g1 = g_rise g2 /\ g_fill g1 = g_fill g2.
Definition agree (e : em) (g1 g2 : gstate) : Prop :=
  (e_state e <> None -> same_text g1 g2) /\ (e_tw e <> None -> g_spacing g1 = g_spacing g2).
(** The readers at the same place. *)
Definition beside (r1 r2 : reader) : Prop := near (r_gs r1) (r_gs r2) /\ r_line r1 = r_line r2 /\ r_line r1 <> None.

Definition sim (ops : list gop) (A : gstate -> gstate -> Prop) (B : gstate -> gstate -> Prop) : Prop :=
  forall r1 r2, beside r1 r2 -> A (r_gs r1) (r_gs r2) ->
  Forall2 looks (snd (execs ops r1)) (snd (execs ops r2)) /\
  beside (fst (execs ops r1)) (fst (execs ops r2)) /\
  B (r_gs (fst (execs ops r1))) (r_gs (fst (execs ops r2))).
Lemma sim_app l1 l2 A B C : sim l1 A B -> sim l2 B C -> sim (l1 ++ l2) A C.
Proof.
  intros H1 H2 r1 r2 Hb Ha. destruct (H1 r1 r2 Hb Ha) as (P & Q & R). rewrite !execs_app.
  destruct (execs l1 r1) as [a1 p1], (execs l1 r2) as [a2 p2]. cbn [fst snd] in *.
  destruct (H2 a1 a2 Q R) as (P' & Q' & R').
  destruct (execs l2 a1) as [b1 q1], (execs l2 a2) as [b2 q2]. cbn [fst snd] in *.
  split; [apply Forall2_app; assumption|]. split; assumption.
Qed.
Lemma sim_nil (A : gstate -> gstate -> Prop) : sim [] A A.
Proof. intros r1 r2 H1 H2. cbn. split; [constructor|]. split; assumption. Qed.
Lemma sim_weak ops (A A' B B' : gstate -> gstate -> Prop) : (forall x y, A' x y -> A x y) -> (forall x y, B x y -> B' x y) ->
  sim ops A B -> sim ops A' B'.
Proof. intros H1 H2 H r1 r2 Hb Ha. destruct (H r1 r2 Hb (H1 _ _ Ha)) as (P & Q & R). auto. Qed.

Ltac readers := intros [[m1 fc1 sc1 w1 cap1 dash1 font1 rise1 sp1] stk1 path1 line1] [[m2 fc2 sc2 w2 cap2 dash2 font2 rise2 sp2] stk2 path2 line2];
  unfold beside, near, same_text, agree; cbn [r_gs r_line g_ctm g_stroke g_width g_cap g_dash g_font g_rise g_fill g_spacing].

Lemma td_sim x y A : sim [GTd x y] A A.
Proof.
  readers. intros (Hn & Hl & Hs) Ha. subst line2. destruct line1 as [[a b]|]; [|congruence].
  cbn. split; [constructor|]. split; [|exact Ha]. unfold beside, near. cbn. split; [exact Hn|]. split; [reflexivity|discriminate].
Qed.
Lemma show_sim s (A : gstate -> gstate -> Prop) : (forall g1 g2, A g1 g2 -> same_text g1 g2 /\ (inner_space s -> g_spacing g1 = g_spacing g2)) -> sim [GShow s] A A.
Proof.
  intros H. readers. intros (Hn & Hl & Hs) Ha. subst line2. destruct line1 as [[a b]|]; [|congruence].
  cbn. split; [|split; [|exact Ha]].
  - constructor; [|constructor]. destruct (H _ _ Ha) as [(H1 & H2 & H3) H4]. cbn in *. destruct Hn as (Hm & _). auto 10.
  - unfold beside, near. cbn. split; [exact Hn|]. split; [reflexivity|discriminate].
Qed.
Lemma spacing_sim q (A : gstate -> gstate -> Prop) : (forall g1 g2, A g1 g2 -> same_text g1 g2) ->
  sim [GSpacing q] A (fun g1 g2 => same_text g1 g2 /\ g_spacing g1 = g_spacing g2).
Proof.
  intros H. readers. intros (Hn & Hl & Hs) Ha. specialize (H _ _ Ha). cbn in *. split; [constructor|].
  split; [|split; [exact H|reflexivity]]. unfold beside, near. cbn. auto.
Qed.
Lemma compare_sim s o (S : gstate -> gstate -> Prop) : t_color s <> None ->
  (forall g1 g2 f c r, S g1 g2 -> S (mkGS (g_ctm g1) (c (g_fill g1)) (g_stroke g1) (g_width g1) (g_cap g1) (g_dash g1) (f (g_font g1)) (r (g_rise g1)) (g_spacing g1))
                                   (mkGS (g_ctm g2) (c (g_fill g2)) (g_stroke g2) (g_width g2) (g_cap g2) (g_dash g2) (f (g_font g2)) (r (g_rise g2)) (g_spacing g2))) ->
  sim (compare s o) (fun g1 g2 => (o <> None -> same_text g1 g2) /\ S g1 g2) (fun g1 g2 => same_text g1 g2 /\ S g1 g2).
Proof.
  intros Hc HS. unfold TextLayout.compare.
  set (c1 := _ || _).
  set (c2 := match o with None => true | Some s' => negb (ocolor_eqb (t_color s) (t_color s')) end).
  set (c3 := match o with None => true | Some s' => negb (Qeq_bool (t_rise s) (t_rise s')) end).
  assert (K : o <> None \/ (c1 = true /\ c2 = true /\ c3 = true)) by (destruct o; [left; discriminate|right; repeat split]).
  destruct (t_color s) as [col|]; [|congruence]. clearbody c1 c2 c3.
  readers. intros (Hn & Hl & Hs) [Ho Ha].
  assert (E : forall r : reader, execs ((if c1 then [GFont (fref (t_font s)) (round3 (t_size s))] else []) ++
     (if c2 then [GFillColor (round_rgb round3 col)] else []) ++ (if c3 then [GRise (round3 (t_rise s))] else [])) r =
     (with_gs r (mkGS (g_ctm (r_gs r)) ((fun z => if c2 then round_rgb round3 col else z) (g_fill (r_gs r))) (g_stroke (r_gs r)) (g_width (r_gs r)) (g_cap (r_gs r)) (g_dash (r_gs r))
       ((fun z => if c1 then Some (fref (t_font s), round3 (t_size s)) else z) (g_font (r_gs r)))
       ((fun z => if c3 then round3 (t_rise s) else z) (g_rise (r_gs r))) (g_spacing (r_gs r))), [])).
  { intros [[m fc sc w cap dash font rise sp] stk path line]. destruct c1, c2, c3; reflexivity. }
  rewrite !E. cbn [fst snd with_gs r_gs r_line g_ctm g_stroke g_width g_cap g_dash g_font g_rise g_fill g_spacing].
  split; [constructor|]. split; [unfold beside, near; cbn; auto|]. split.
  - unfold same_text. cbn. destruct K as [K|(-> & -> & ->)]; [|auto]. destruct (Ho K) as (A1 & A2 & A3). subst. auto.
  - exact (HS _ _ (fun z => if c1 then Some (fref (t_font s), round3 (t_size s)) else z) (fun z => if c2 then round_rgb round3 col else z) (fun z => if c3 then round3 (t_rise s) else z) Ha).
Qed.

Lemma output_text_sim p f e : t_color (y_state (lp_style p)) <> None ->
  exists ops, e_text (output_text p f e) = e_text e ++ ops /\ sim ops (agree e) (agree (output_text p f e)) /\ Forall text_op ops.
Proof.
  intros Hc. unfold TextLayout.output_text. cbn [e_text].
  set (tw := round3 _). set (differs := match e_tw e with Some _ => _ | None => _ end).
  set (ops3 := match List.concat (lp_words p) with [] => [] | _ => [GShow (List.concat (lp_words p))] end).
  eexists. split; [reflexivity|]. split.
  - assert (K1 : sim (compare (y_state (lp_style p)) (e_state e)) (agree e)
        (fun g1 g2 => same_text g1 g2 /\ (e_tw e <> None -> g_spacing g1 = g_spacing g2))).
    { refine (sim_weak _ _ _ _ _ _ _ (compare_sim (y_state (lp_style p)) (e_state e) (fun g1 g2 => e_tw e <> None -> g_spacing g1 = g_spacing g2) Hc _));
        [intros x y H; exact H|intros x y H; exact H|]. intros g1 g2 f0 c r H. exact H. }
    assert (K2 : sim (if differs then [GSpacing tw] else []) (fun g1 g2 => same_text g1 g2 /\ (e_tw e <> None -> g_spacing g1 = g_spacing g2))
        (fun g1 g2 => same_text g1 g2 /\ g_spacing g1 = g_spacing g2)).
    { destruct differs eqn:Ed; [apply spacing_sim; tauto|].
      refine (sim_weak _ _ _ _ _ (fun x y H => H) _ (sim_nil _)). intros x y [H1 H2]. split; [exact H1|]. apply H2.
      unfold differs in Ed. intros H. rewrite H in Ed. discriminate. }
    assert (K3 : sim ops3 (fun g1 g2 => same_text g1 g2 /\ g_spacing g1 = g_spacing g2) (fun g1 g2 => same_text g1 g2 /\ g_spacing g1 = g_spacing g2)).
    { unfold ops3. destruct (List.concat (lp_words p)); [apply sim_nil|]. apply show_sim. tauto. }
    refine (sim_weak _ _ _ _ _ (fun x y H => H) _ (sim_app _ _ _ _ _ K1 (sim_app _ _ _ _ _ K2 K3))).
    intros x y [H1 H2]. unfold agree. cbn [e_state e_tw]. auto.
  - apply Forall_app. split; [|apply Forall_app; split].
    + unfold TextLayout.compare. repeat (apply Forall_app; split).
      * destruct (_ || _); repeat constructor.
      * destruct (match e_state e with None => true | Some _ => _ end); [|constructor]. destruct (t_color _); repeat constructor.
      * destruct (match e_state e with None => true | Some _ => _ end); repeat constructor.
    + destruct differs; repeat constructor.
    + unfold ops3. destruct (List.concat (lp_words p)); repeat constructor.
Qed.

(** ** Backgrounds and underlines *)

Definition gagree (e : em) (g1 g2 : gstate) : Prop := near g1 g2 /\ (e_fill e <> None -> g_fill g1 = g_fill g2).
Definition gsim (ops : list gop) (A : gstate -> gstate -> Prop) (B : gstate -> gstate -> Prop) : Prop :=
  forall r1 r2, r_path r1 = [] -> r_path r2 = [] -> A (r_gs r1) (r_gs r2) ->
  snd (execs ops r1) = snd (execs ops r2) /\ r_path (fst (execs ops r1)) = [] /\ r_path (fst (execs ops r2)) = [] /\
  B (r_gs (fst (execs ops r1))) (r_gs (fst (execs ops r2))).
Lemma gsim_app l1 l2 A B C : gsim l1 A B -> gsim l2 B C -> gsim (l1 ++ l2) A C.
Proof.
  intros H1 H2 r1 r2 Hp1 Hp2 Ha. destruct (H1 r1 r2 Hp1 Hp2 Ha) as (P & Q1 & Q2 & R). rewrite !execs_app.
  destruct (execs l1 r1) as [a1 p1], (execs l1 r2) as [a2 p2]. cbn [fst snd] in *.
  destruct (H2 a1 a2 Q1 Q2 R) as (P' & Q1' & Q2' & R').
  destruct (execs l2 a1) as [b1 q1], (execs l2 a2) as [b2 q2]. cbn [fst snd] in *.
  split; [congruence|]. auto.
Qed.
Lemma gsim_nil A : gsim [] A A.
Proof. intros r1 r2. cbn. auto. Qed.
Lemma gsim_weak ops (A A' B B' : gstate -> gstate -> Prop) : (forall x y, A' x y -> A x y) -> (forall x y, B x y -> B' x y) ->
  gsim ops A B -> gsim ops A' B'.
Proof. intros H1 H2 H r1 r2 P1 P2 Ha. destruct (H r1 r2 P1 P2 (H1 _ _ Ha)) as (P & Q1 & Q2 & R). auto. Qed.

(** The states are near, and their fill colours equal if [b]. *)
Definition filled (b : bool) (g1 g2 : gstate) : Prop := near g1 g2 /\ (b = true -> g_fill g1 = g_fill g2).
Ltac greaders := intros [[m1 fc1 sc1 w1 cap1 dash1 font1 rise1 sp1] stk1 path1 line1] [[m2 fc2 sc2 w2 cap2 dash2 font2 rise2 sp2] stk2 path2 line2];
  unfold filled, near; cbn [r_gs r_path g_ctm g_stroke g_width g_cap g_dash g_font g_rise g_fill g_spacing];
  intros -> -> ((Hm & Hs & Hw & Hcap & Hd) & Hf); subst.
Lemma fill_sim b (set : bool) c x y w h : (b = true \/ set = true) ->
  gsim ((if set then [GFillColor c] else []) ++ [GRect x y w h; GFill]) (filled b) (filled true).
Proof.
  intros Hb. greaders. destruct set; cbn.
  - split; [reflexivity|]. unfold near. cbn. auto 10.
  - destruct Hb as [->|]; [|discriminate]. rewrite (Hf eq_refl). unfold near. cbn. auto 10.
Qed.
Lemma line_sim b ops x1 y1 x2 y2 : Forall (fun o => match o with GStrokeColor _ | GWidth _ | GCap _ | GDash _ _ => True | _ => False end) ops ->
  gsim (ops ++ [GMove x1 y1; GLine x2 y2; GStroke]) (filled b) (filled b).
Proof.
  intros H. apply gsim_app with (B := filled b).
  - induction H as [|o ops Ho _ IH]; [apply gsim_nil|]. change (o :: ops) with ([o] ++ ops). apply gsim_app with (B := filled b); [|exact IH].
    greaders. destruct o; try contradiction; cbn; unfold near; cbn; auto 10.
  - greaders. cbn. split; [reflexivity|]. unfold near. cbn. auto 10.
Qed.

Definition is_set {A} (o : option A) : bool := match o with Some _ => true | None => false end.
Lemma output_graphics_sim p x y w e :
  exists ops, e_gfx (output_graphics p x y w e) = e_gfx e ++ ops /\ Forall paint_op ops /\
    gsim ops (filled (is_set (e_fill e))) (filled (is_set (e_fill (output_graphics p x y w e)))).
Proof.
  unfold TextLayout.output_graphics. set (st := y_state (lp_style p)).
  set (gf := match y_bg (lp_style p) with None => (e_fill e, []) | Some c => _ end).
  assert (K1 : Forall paint_op (snd gf) /\ gsim (snd gf) (filled (is_set (e_fill e))) (filled (is_set (fst gf)))).
  { unfold gf. destruct (y_bg (lp_style p)) as [c|]; cbn [fst snd]; [|split; [constructor|apply gsim_nil]].
    destruct (e_fill e) as [c'|]; cbn [is_set].
    - split; [apply Forall_app; split; [destruct (negb _)|]; repeat constructor|].
      destruct (negb (rgb_eqb c c')) eqn:En; cbn [is_set]; [apply (fill_sim true true)|apply (fill_sim true false)]; auto.
    - split; [repeat constructor|]. apply (fill_sim false true). right. reflexivity. }
  destruct gf as [fill g1]. cbn [fst snd] in K1.
  set (gs := if y_under (lp_style p) then _ else _).
  assert (K2 : Forall paint_op (snd gs) /\ gsim (snd gs) (filled (is_set fill)) (filled (is_set fill))).
  { unfold gs. destruct (y_under (lp_style p)); cbn [snd]; [|split; [constructor|apply gsim_nil]].
    rewrite app_assoc. split.
    - repeat (apply Forall_app; split); [|destruct (match e_sw e with None => _ | Some _ => _ end); repeat constructor|repeat constructor].
      destruct (match e_color e with None => _ | Some _ => _ end); [|constructor]. destruct (t_color st); repeat constructor.
    - apply line_sim. apply Forall_app; split; [|destruct (match e_sw e with None => _ | Some _ => _ end); repeat constructor].
      destruct (match e_color e with None => _ | Some _ => _ end); [|constructor]. destruct (t_color st); repeat constructor. }
  destruct gs as [[color sw] g2]. cbn [snd] in K2. cbn [e_gfx e_fill].
  exists (g1 ++ g2). split; [reflexivity|]. split; [apply Forall_app; tauto|].
  exact (gsim_app _ _ _ _ _ (proj2 K1) (proj2 K2)).
Qed.

(** ** Lines *)

Definition em_sim (e : em) : Prop :=
  Forall text_op (e_text e) /\ sim (e_text e) (fun _ _ => True) (agree e) /\
  Forall paint_op (e_gfx e) /\ gsim (e_gfx e) (filled false) (filled (is_set (e_fill e))).

Lemma emit_part_sim p f x e : t_color (y_state (lp_style p)) <> None -> em_sim e -> em_sim (fst (emit_part p f x e)).
Proof.
  intros Hc (H1 & H2 & H3 & H4). destruct (output_text_sim p f e Hc) as (ops & E & S & T).
  assert (K : em_sim (output_text p f e)).
  { unfold em_sim. rewrite E. split; [apply Forall_app; tauto|]. split; [exact (sim_app _ _ _ _ _ H2 S)|]. split; assumption. }
  unfold TextLayout.emit_part. destruct (List.concat (lp_words p)) as [|c0 r]; [exact K|].
  destruct (isspace (c0 :: r)); [exact K|]. cbn [fst].
  set (e2 := mkEm _ _ _ _ _ _ _ _ _ _ _).
  destruct (output_graphics_sim p x (e_y (output_text p f e)) (part_width p f) e2) as (ops2 & E2 & P2 & S2).
  assert (T2 : e_text (output_graphics p x (e_y (output_text p f e)) (part_width p f) e2) = e_text e2 /\
    e_state (output_graphics p x (e_y (output_text p f e)) (part_width p f) e2) = e_state e2 /\
    e_tw (output_graphics p x (e_y (output_text p f e)) (part_width p f) e2) = e_tw e2).
  { unfold TextLayout.output_graphics. destruct (y_bg (lp_style p)); destruct (y_under (lp_style p)); repeat split. }
  destruct T2 as (T2 & T3 & T4). destruct K as (K1 & K2 & K3 & K4).
  unfold em_sim, agree. rewrite T2, T3, T4, E2. split; [exact K1|]. split; [exact K2|]. split; [apply Forall_app; split; [exact K3|exact P2]|].
  exact (gsim_app _ _ _ _ _ K4 S2).
Qed.
Lemma emit_parts_sim ps : forall f x e, (forall p, In p ps -> t_color (y_state (lp_style p)) <> None) -> em_sim e -> em_sim (emit_parts ps f x e).
Proof.
  induction ps as [|p ps IH]; intros f x e Hc He; [exact He|]. cbn [TextLayout.emit_parts].
  pose proof (emit_part_sim p f x e (Hc p (or_introl eq_refl)) He) as K. destruct (emit_part p f x e) as [e1 x1].
  apply IH; [|exact K]. intros q Hq. apply Hc. right. exact Hq.
Qed.

Definition coloured (l : line) : Prop := forall p, In p (l_parts l) -> t_color (y_state (lp_style p)) <> None.
(** The list text: no space before other characters, a colour, and it is set
    up once. *)
Definition plain_mark (c : config) : Prop := forall li, c_list c = Some li -> ~ inner_space (li_text li).
Definition mark_coloured (c : config) (d : dyn) : Prop := c_list c <> None -> forall s, d_lstate d = Some s -> t_color s <> None.
Definition set_once (d : dyn) : Prop := d_listdone d = false -> d_lstate d = None.

Lemma add_ops_sim e ops s y i : Forall text_op ops -> sim ops (agree e) (agree e) -> em_sim e -> em_sim (add_ops e ops s y i).
Proof.
  intros H K (H1 & H2 & H3 & H4). unfold add_ops, em_sim, agree. cbn [e_text e_gfx e_state e_tw e_fill].
  split; [apply Forall_app; tauto|]. split; [exact (sim_app _ _ _ _ _ H2 K)|]. split; assumption.
Qed.
Lemma compare_ops s o : Forall text_op (compare s o).
Proof.
  unfold TextLayout.compare. repeat (apply Forall_app; split).
  - destruct (_ || _); repeat constructor.
  - destruct (match o with None => true | Some _ => _ end); [|constructor]. destruct (t_color _); repeat constructor.
  - destruct (match o with None => true | Some _ => _ end); repeat constructor.
Qed.
Lemma start_sim c d l b e x q f k : plain_mark c -> mark_coloured c d -> em_sim (d_em d) ->
  start_line round3 fref c d l b = Ok (e, x, q, f, k) -> em_sim e.
Proof.
  intros Hm Hd He Es. unfold start_line in Es.
  destruct (match c_list c with None => _ | Some _ => _ end) as [x0|]; [|discriminate]. cbn [bind] in Es.
  assert (T : forall a b s y i, em_sim (add_ops (d_em d) [GTd a b] s y i)).
  { intros. apply add_ops_sim; [repeat constructor|apply td_sim|exact He]. }
  destruct (negb (e_started (d_em d))); [destruct (d_first d); [destruct (c_list c) as [li|] eqn:El|]|].
  - destruct (d_lstate d) as [ls|] eqn:Els; [|discriminate].
    apply Ok_inj, (f_equal (fun z => fst (fst (fst (fst z))))) in Es. cbn [fst] in Es. subst e.
    apply add_ops_sim; [|..|exact He].
    { apply Forall_app; split; [repeat constructor|]. apply Forall_app; split; [apply compare_ops|repeat constructor]. }
    pose proof (Hm li El) as Hsp.
    apply sim_app with (B := agree (d_em d)); [apply td_sim|].
    apply sim_app with (B := fun g1 g2 => same_text g1 g2 /\ (e_tw (d_em d) <> None -> g_spacing g1 = g_spacing g2)).
    + apply (compare_sim ls (e_state (d_em d)) (fun g1 g2 => e_tw (d_em d) <> None -> g_spacing g1 = g_spacing g2) (Hd ltac:(congruence) ls Els)).
      intros g1 g2 f0 c0 r H. exact H.
    + change [GShow (li_text li); ?x] with ([GShow (li_text li)] ++ [x]).
      refine (sim_weak _ _ _ _ _ (fun x y H => H) _ (sim_app _ _ _ _ _ (show_sim _ _ _) (td_sim _ _ _))).
      * intros g1 g2 [H1 H2]. split; auto.
      * intros g1 g2 [H1 _]. split; [exact H1|]. intros H. contradiction.
  - apply Ok_inj, (f_equal (fun z => fst (fst (fst (fst z))))) in Es. cbn [fst] in Es. subst e. apply T.
  - apply Ok_inj, (f_equal (fun z => fst (fst (fst (fst z))))) in Es. cbn [fst] in Es. subst e. apply T.
  - apply Ok_inj, (f_equal (fun z => fst (fst (fst (fst z))))) in Es. cbn [fst] in Es. subst e. apply T.
Qed.

Lemma begin_part_mark c y ids d cur d1 cur1 : set_once d -> begin_part text_w c y ids d cur = Ok (d1, cur1) ->
  set_once d1 /\ (mark_coloured c d1 -> mark_coloured c d).
Proof.
  intros Ho E. unfold begin_part in E. destruct (c_list c) as [li|] eqn:El; [destruct (d_listdone d) eqn:Ed|]; cbn [bind] in E.
  - injection E as <- _. split; [|exact (fun H => H)]. unfold set_once, add_used. cbn. congruence.
  - unfold setup_list in E. destruct (l_next _); [|discriminate]. destruct (l_parts _); [discriminate|]. cbn [bind] in E.
    injection E as <- _. split; [unfold set_once, add_used; cbn; discriminate|].
    intros _ _ s Hs. rewrite (Ho Ed) in Hs. discriminate.
  - injection E as <- _. split; [exact Ho|exact (fun H => H)].
Qed.

Lemma run_sim c d w h d' : run c d w h = Ok d' -> set_once d ->
  set_once d' /\ (plain_mark c -> mark_coloured c d' -> Forall coloured (d_lines d') -> em_sim (d_em d')).
Proof.
  intros E Hd.
  set (P := fun d0 => set_once d0 /\ (plain_mark c -> mark_coloured c d0 -> Forall coloured (d_lines d0) -> em_sim (d_em d0))).
  assert (Ha : forall d cur b e x q f k, P d -> add_line_to_stream round3 space_w fref c d (flush cur b) b = Ok (e, x, q, f, k) ->
     P (accept c d (flush cur b) (mkMark b x q) e f k)).
  { intros d0 cur b e x q f k [P1 P2] Es. split; [exact P1|]. cbn [accept d_lines d_em]. intros Hm Hc HF. apply Forall_app in HF as [HF1 HF2].
    apply Forall_cons_iff in HF2 as [HF2 _]. unfold add_line_to_stream in Es.
    destruct (start_line round3 fref c d0 (flush cur b) b) as [[[[[e1 x1] q1] f1] k1]|] eqn:Est; [|discriminate]. cbn [bind] in Es.
    apply Ok_inj, (f_equal (fun z => fst (fst (fst (fst z))))) in Es. cbn [fst] in Es. subst e.
    apply emit_parts_sim; [exact HF2|]. exact (start_sim _ d0 _ _ _ _ _ _ _ Hm Hc (P2 Hm Hc HF1) Est). }
  assert (R : run_ind round3 text_w space_w fref c (fun _ d _ => P d) (fun _ _ d _ => P d) P).
  { constructor.
    - intros; assumption.
    - intros p d0 cur go d1 _ H El. apply add_current_line_spec in El. destruct go.
      + destruct El as (e & x & q & f & k & _ & Es & ->). apply Ha; [|exact Es]. exact H.
      + destruct El as [_ ->]. exact H.
    - intros p d0 cur t y ids d1 cur1 _ [H1 H2] Eb. destruct (begin_part_spec _ _ _ _ _ _ _ _ Eb) as (Hs & _).
      destruct (begin_part_mark _ _ _ _ _ _ _ H1 Eb) as [H3 H4]. split; [exact H3|].
      rewrite (sp_lines _ _ Hs), (sp_em _ _ Hs). auto.
    - intros p i d0 cur t y ids w0 st cur1 _ _ H _. destruct st; try exact H.
      intros go d1 mx El _. apply add_current_line_spec in El. destruct go.
      + destruct El as (e & x & q & f & k & _ & Es & ->). apply Ha; assumption.
      + destruct El as [_ ->]. exact H.
    - intros p i d0 cur t y ids _ _ H. exact H.
    - intros p d0 cur go d1 _ H El. apply add_current_line_spec in El. destruct go.
      + destruct El as (e & x & q & f & k & _ & Es & ->). exact (Ha _ _ _ _ _ _ _ _ H Es).
      + destruct El as [_ ->]. exact H. }
  refine (run_induction round3 text_w space_w fref c _ _ _ R d w h d' _ E).
  split; [exact Hd|]. intros _ _ _. unfold em_sim. cbn [init_run d_em em0 e_text e_gfx e_fill is_set].
  split; [constructor|]. split; [refine (sim_weak _ _ _ _ _ (fun x y H => H) _ (sim_nil _))|split; [constructor|apply gsim_nil]].
  intros x y _. split; intros K; cbn in K; congruence.
Qed.

(** ** Pieces *)

(** Between two pieces: no text object, no path, nothing saved but [stk], and
    the state [g] but for what text sets. *)
Definition calm (g : gstate) (stk : list gstate) (r : reader) : Prop :=
  near (r_gs r) g /\ r_stack r = stk /\ r_path r = [] /\ r_line r = None.

(** Operators between [q] and [Q], with a matrix in front. *)
Definition saved (pre : list gop) (ops : list gop) : list gop := GSave :: pre ++ ops ++ [GRestore].
Definition matrices (pre : list gop) : Prop := Forall (fun o => match o with GConcat _ _ _ _ _ _ => True | _ => False end) pre.
Lemma matrices_exec pre : matrices pre -> forall r, exists m,
  execs pre r = (with_gs r (mkGS (m (g_ctm (r_gs r))) (g_fill (r_gs r)) (g_stroke (r_gs r)) (g_width (r_gs r)) (g_cap (r_gs r)) (g_dash (r_gs r)) (g_font (r_gs r)) (g_rise (r_gs r)) (g_spacing (r_gs r))), [])
  /\ forall r', execs pre r' = (with_gs r' (mkGS (m (g_ctm (r_gs r'))) (g_fill (r_gs r')) (g_stroke (r_gs r')) (g_width (r_gs r')) (g_cap (r_gs r')) (g_dash (r_gs r')) (g_font (r_gs r')) (g_rise (r_gs r')) (g_spacing (r_gs r'))), []).
Proof.
  intros H. assert (K : exists m, forall r', execs pre r' = (with_gs r' (mkGS (m (g_ctm (r_gs r'))) (g_fill (r_gs r')) (g_stroke (r_gs r')) (g_width (r_gs r')) (g_cap (r_gs r')) (g_dash (r_gs r')) (g_font (r_gs r')) (g_rise (r_gs r')) (g_spacing (r_gs r'))), [])).
  { induction H as [|o pre Ho _ [m IH]].
    - exists (fun z => z). intros [[] ? ? ?]. reflexivity.
    - destruct o as [| |a b c d e f| | | | | | | | | | | | | | | | | | |]; try contradiction.
      exists (fun z => m (mult (mkMat a b c d e f) z)). intros [[] ? ? ?]. cbn [execs exec r_gs]. rewrite IH. reflexivity. }
  destruct K as [m K]. intros r. exists m. split; [apply K|exact K].
Qed.

Lemma saved_alone pre ops B g stk g2 stk2 r1 r2 : matrices pre -> Forall paint_op ops -> gsim ops (filled false) B -> near g g2 ->
  calm g stk r1 -> calm g2 stk2 r2 ->
  snd (execs (saved pre ops) r1) = snd (execs (saved pre ops) r2) /\ fst (execs (saved pre ops) r1) = r1 /\ fst (execs (saved pre ops) r2) = r2.
Proof.
  intros Hm Hk Hs Hg (H1 & H2 & H3 & H4) (J1 & J2 & J3 & J4). unfold saved.
  change (GSave :: pre ++ ops ++ [GRestore]) with ([GSave] ++ (pre ++ ops ++ [GRestore])).
  destruct (matrices_exec pre Hm r1) as (m & _ & Em).
  set (into := fun r : reader => mkR (mkGS (m (g_ctm (r_gs r))) (g_fill (r_gs r)) (g_stroke (r_gs r)) (g_width (r_gs r)) (g_cap (r_gs r)) (g_dash (r_gs r)) (g_font (r_gs r)) (g_rise (r_gs r)) (g_spacing (r_gs r)))
             (r_gs r :: r_stack r) (r_path r) (r_line r)).
  assert (K : forall r, r_path r = [] -> r_path (fst (execs ops (into r))) = [] ->
     execs ([GSave] ++ pre ++ ops ++ [GRestore]) r = (r, snd (execs ops (into r)))).
  { intros r Hp Hp'. rewrite execs_app. destruct r as [[q1 q2 q3 q4 q5 q6 q7 q8 q9] sk pa ln]. cbn [execs exec r_gs]. rewrite execs_app, Em. cbn [app].
    rewrite execs_app. pose proof (paint_ops_keep ops Hk (into (mkR (mkGS q1 q2 q3 q4 q5 q6 q7 q8 q9) sk pa ln))) as (_ & L1 & L2).
    unfold into, with_gs in *. cbn [r_gs r_stack r_path r_line g_ctm g_fill g_stroke g_width g_cap g_dash g_font g_rise g_spacing] in *.
    destruct (execs ops _) as [r' ps]. cbn [fst snd] in *. destruct r' as [[p1 p2 p3 p4 p5 p6 p7 p8 p9] sk' pa' ln']. cbn [r_stack r_line r_path] in *.
    subst. cbn. now rewrite app_nil_r. }
  destruct (Hs (into r1) (into r2) H3 J3) as (S1 & S2 & S3 & _).
  { unfold filled, into. cbn [r_gs]. split; [|discriminate].
    pose proof (near_trans _ _ _ (near_trans _ _ _ H1 Hg) (near_sym _ _ J1)) as (N1 & N2 & N3 & N4 & N5).
    unfold near. cbn. rewrite N1. auto 10. }
  rewrite (K r1 H3 S2), (K r2 J3 S3). cbn [fst snd]. auto.
Qed.

Lemma line_style_ops w s cap dash phase : line_style round3 w s = Ok (cap, dash, phase) -> Forall (fun o => match o with GStrokeColor _ | GWidth _ | GCap _ | GDash _ _ => True | _ => False end) [GCap cap; GDash dash phase].
Proof. intros _. repeat constructor. Qed.
Lemma graphics_sim l : forall lf lc lw ls ops, graphics_loop round3 lf lc lw ls l = Ok ops ->
  Forall paint_op ops /\ exists b, gsim ops (filled (is_set lf)) (filled b).
Proof.
  induction l as [|g l IH]; intros lf lc lw ls ops E.
  - injection E as <-. split; [constructor|]. exists (is_set lf). apply gsim_nil.
  - destruct g as [x y w h c|x1 y1 x2 y2 w c s]; cbn [graphics_loop] in E.
    + destruct (graphics_loop round3 (Some c) lc lw ls l) as [rest|] eqn:Er; [|discriminate]. cbn [bind] in E. apply Ok_inj in E. subst ops.
      destruct (IH _ _ _ _ _ Er) as (I1 & b & I2). split.
      * apply Forall_app; split; [|exact I1]. apply Forall_app; split; [destruct (differs _ _ _)|]; repeat constructor.
      * exists b. refine (gsim_app _ _ _ _ _ (fill_sim _ _ _ _ _ _ _ _) I2). destruct lf; [left|right]; reflexivity.
    + destruct (line_style round3 w s) as [[[cap dash] phase]|] eqn:El; [|discriminate]. cbn [bind] in E.
      destruct (graphics_loop round3 lf (Some c) (Some w) (Some (cap, dash, phase)) l) as [rest|] eqn:Er; [|discriminate]. cbn [bind] in E. apply Ok_inj in E. subst ops.
      destruct (IH _ _ _ _ _ Er) as (I1 & b & I2). split.
      * apply Forall_app; split; [|exact I1]. repeat (apply Forall_app; split); try destruct (differs _ _ _); repeat constructor.
      * exists b. refine (gsim_app _ _ _ _ _ _ I2). rewrite !app_assoc. apply line_sim.
        repeat (apply Forall_app; split); destruct (differs _ _ _); repeat constructor.
Qed.

(** What a paragraph must be like: the result of a run, with colours. *)
Definition shown_run (d' : dyn) : Prop := exists c d w h,
  run c d w h = Ok d' /\ set_once d /\ plain_mark c /\ mark_coloured c d' /\ Forall coloured (d_lines d').
Definition piece_ok (p : piece) : Prop := match p with Paragraph _ _ d => shown_run d | _ => True end.

Lemma execs_snd l1 l2 r : snd (execs (l1 ++ l2) r) = snd (execs l1 r) ++ snd (execs l2 (fst (execs l1 r))).
Proof. rewrite execs_app. destruct (execs l1 r) as [a p]. cbn [fst snd]. destruct (execs l2 a). reflexivity. Qed.
Lemma execs_fst l1 l2 r : fst (execs (l1 ++ l2) r) = fst (execs l2 (fst (execs l1 r))).
Proof. rewrite execs_app. destruct (execs l1 r) as [a p]. cbn [fst snd]. destruct (execs l2 a). reflexivity. Qed.

Lemma text_alone x y t A g stk g2 stk2 r1 r2 : Forall text_op t -> sim t (fun _ _ => True) A -> near g g2 -> calm g stk r1 -> calm g2 stk2 r2 ->
  let ops := GBegin :: GTm x y :: t ++ [GEnd] in
  Forall2 looks (snd (execs ops r1)) (snd (execs ops r2)) /\ calm g stk (fst (execs ops r1)) /\ calm g2 stk2 (fst (execs ops r2)).
Proof.
  intros Ht Hs Hg (H1 & H2 & H3 & H4) (J1 & J2 & J3 & J4) ops.
  assert (K : forall r, execs ops r = (with_line (fst (execs t (with_line r (Some (x, y))))) None, snd (execs t (with_line r (Some (x, y)))))).
  { intros r. unfold ops. change (GBegin :: GTm x y :: t ++ [GEnd]) with ([GBegin; GTm x y] ++ (t ++ [GEnd])). rewrite execs_app.
    replace (execs [GBegin; GTm x y] r) with (with_line r (Some (x, y)), @nil paint) by (destruct r as [[] ? ? ?]; reflexivity).
    rewrite execs_app. destruct (execs t _) as [[[] ? ? ?] ps]. cbn. now rewrite app_nil_r. }
  rewrite !K. cbn [fst snd].
  destruct (Hs (with_line r1 (Some (x, y))) (with_line r2 (Some (x, y)))) as (S1 & _ & _); [|exact I|].
  { split; [|split; [reflexivity|discriminate]]. exact (near_trans _ _ _ (near_trans _ _ _ H1 Hg) (near_sym _ _ J1)). }
  split; [exact S1|].
  pose proof (text_ops_keep t Ht (with_line r1 (Some (x, y)))) as (T1 & T2 & T3).
  pose proof (text_ops_keep t Ht (with_line r2 (Some (x, y)))) as (U1 & U2 & U3).
  split; (split; [|split; [|split; [|reflexivity]]]); cbn [with_line r_gs r_stack r_path] in *; try congruence.
  - exact (near_trans _ _ _ T1 H1).
  - exact (near_trans _ _ _ U1 J1).
Qed.

Lemma piece_alone p ops g stk g2 stk2 r1 r2 : piece_ok p -> piece_ops p = Ok ops -> near g g2 -> calm g stk r1 -> calm g2 stk2 r2 ->
  Forall2 looks (snd (execs ops r1)) (snd (execs ops r2)) /\ calm g stk (fst (execs ops r1)) /\ calm g2 stk2 (fst (execs ops r2)).
Proof.
  intros Hp E Hg H1 H2. destruct p as [x y d|l|nm w h x y]; cbn [piece_ops] in E.
  - apply Ok_inj in E. subst ops. destruct Hp as (c & d0 & w & h & Er & Ho & Hm & Hd & Hc).
    destruct (proj2 (run_sim c d0 w h d Er Ho) Hm Hd Hc) as (K1 & K2 & K3 & K4). unfold paragraph_stream.
    rewrite !execs_snd, !execs_fst.
    set (a := match e_gfx (d_em d) with [] => [] | _ => _ end).
    assert (A : snd (execs a r1) = snd (execs a r2) /\ fst (execs a r1) = r1 /\ fst (execs a r2) = r2).
    { unfold a. destruct (e_gfx (d_em d)) as [|o t] eqn:Eg; [cbn; auto|]. rewrite <- Eg in *.
      apply (saved_alone [GConcat 1 0 0 1 (round3 x) (round3 y)] (e_gfx (d_em d)) _ g stk g2 stk2 r1 r2) with (3 := K4); try assumption. repeat constructor. }
    destruct A as (A1 & A2 & A3). rewrite A1, A2, A3.
    assert (B : let b := match e_text (d_em d) with [] => [] | _ => GBegin :: GTm (round3 x) (round3 y) :: e_text (d_em d) ++ [GEnd] end in
      Forall2 looks (snd (execs b r1)) (snd (execs b r2)) /\ calm g stk (fst (execs b r1)) /\ calm g2 stk2 (fst (execs b r2))).
    { destruct (e_text (d_em d)) as [|o t] eqn:Et; [cbn; auto|]. rewrite <- Et in *. exact (text_alone _ _ _ _ _ _ _ _ _ _ K1 K2 Hg H1 H2). }
    destruct B as (B1 & B2 & B3). split; [apply Forall2_app; [apply all_look|exact B1]|]. split; assumption.
  - unfold create_graphics in E. destruct (graphics_loop round3 None None None None l) as [o|] eqn:El; [|discriminate].
    cbn [bind] in E. apply Ok_inj in E. subst ops. destruct (graphics_sim _ _ _ _ _ _ El) as (K1 & b & K2).
    destruct o as [|o t]; [cbn; auto|].
    destruct (saved_alone [] (o :: t) (filled b) g stk g2 stk2 r1 r2 (Forall_nil _) K1 K2 Hg H1 H2) as (A1 & A2 & A3).
    unfold saved in A1, A2, A3. cbn [app] in A1, A2, A3 |- *. rewrite A1, A2, A3. split; [apply all_look|]. split; assumption.
  - apply Ok_inj in E. subst ops. unfold image_stream.
    destruct H1 as (N1 & N2 & N3 & N4), H2 as (M1 & M2 & M3 & M4). destruct r1 as [[q1 q2 q3 q4 q5 q6 q7 q8 q9] s1 pa1 ln1], r2 as [[o1 o2 o3 o4 o5 o6 o7 o8 o9] s2 pa2 ln2].
    cbn [r_gs r_stack r_path r_line] in *. subst. cbn.
    pose proof (near_trans _ _ _ (near_trans _ _ _ N1 Hg) (near_sym _ _ M1)) as (Q1 & _). cbn in Q1. subst.
    split; [repeat constructor|]. split; (split; [assumption|auto]).
Qed.

Theorem page_alone g : forall ps ops stk r, Forall piece_ok ps -> page_ops ps = Ok ops -> calm g stk r ->
  exists each, Forall2 (fun p shown => exists o, piece_ops p = Ok o /\ shown = snd (execs o (mkR g [] [] None))) ps each /\
    Forall2 looks (snd (execs ops r)) (List.concat each) /\ calm g stk (fst (execs ops r)).
Proof.
  induction ps as [|p ps IH]; intros ops stk r Hok E Hr; cbn [page_ops] in E.
  - injection E as <-. exists []. split; [constructor|]. split; [constructor|exact Hr].
  - apply Forall_cons_iff in Hok as [Hp Hok]. destruct (piece_ops p) as [a|] eqn:Ea; [|discriminate]. cbn [bind] in E.
    destruct (page_ops ps) as [b|] eqn:Eb; [|discriminate]. cbn [bind] in E. apply Ok_inj in E. subst ops.
    destruct (piece_alone p a g stk g [] r (mkR g [] [] None) Hp Ea (near_refl _) Hr) as (A1 & A2 & _); [split; [apply near_refl|auto]|].
    destruct (IH b stk (fst (execs a r)) Hok eq_refl A2) as (each & I1 & I2 & I3).
    exists (snd (execs a (mkR g [] [] None)) :: each). split; [constructor; [exists a; auto|exact I1]|].
    cbn [List.concat]. rewrite execs_snd, execs_fst. split; [apply Forall2_app; assumption|exact I3].
Qed.
End Alone.

(** ** Where operators may stand (ISO 32000-1, figure 9) *)

(** How many states are saved, and what the operator stands in: the page, a
    text object or a path. *)
Inductive place := OnPage | InText | InPath.
Definition stands (o : gop) (s : nat * place) : option (nat * place) :=
  let '(n, p) := s in
  match p, o with
  | OnPage, GSave => Some (S n, OnPage)
  | OnPage, GRestore => match n with O => None | S k => Some (k, OnPage) end
  | OnPage, (GConcat _ _ _ _ _ _ | GDo _ | GWidth _ | GCap _ | GDash _ _ | GFillColor _ | GStrokeColor _ | GFont _ _ | GRise _ | GSpacing _) => Some s
  | OnPage, GBegin => Some (n, InText)
  | OnPage, (GRect _ _ _ _ | GMove _ _) => Some (n, InPath)
  | InText, (GFont _ _ | GRise _ | GSpacing _ | GFillColor _ | GStrokeColor _ | GTm _ _ | GTd _ _ | GShow _) => Some s
  | InText, GEnd => Some (n, OnPage)
  | InPath, (GRect _ _ _ _ | GMove _ _ | GLine _ _) => Some s
  | InPath, (GFill | GStroke) => Some (n, OnPage)
  | _, _ => None
  end.
Fixpoint all_stand (ops : list gop) (s : nat * place) : option (nat * place) :=
  match ops with [] => Some s | o :: r => match stands o s with Some s' => all_stand r s' | None => None end end.

Lemma all_stand_app l1 : forall l2 s, all_stand (l1 ++ l2) s = match all_stand l1 s with Some s' => all_stand l2 s' | None => None end.
Proof. induction l1 as [|o l1 IH]; intros l2 s; cbn; [reflexivity|]. destruct (stands o s); [apply IH|reflexivity]. Qed.
Definition fine (p : place) (ops : list gop) : Prop := forall n, all_stand ops (n, p) = Some (n, p).
Lemma fine_app p l1 l2 : fine p l1 -> fine p l2 -> fine p (l1 ++ l2).
Proof. intros H1 H2 n. rewrite all_stand_app, H1. apply H2. Qed.
Lemma fine_nil p : fine p [].
Proof. intros n. reflexivity. Qed.
Lemma text_fine ops : Forall text_op ops -> fine InText ops.
Proof.
  induction 1 as [|o ops Ho _ IH]; [apply fine_nil|]. change (o :: ops) with ([o] ++ ops). apply fine_app; [|exact IH].
  intros n. destruct o; try contradiction; reflexivity.
Qed.
Lemma saved_fine ops : fine OnPage ops -> fine OnPage (GSave :: ops ++ [GRestore]).
Proof. intros H n. cbn [all_stand stands]. rewrite all_stand_app, H. reflexivity. Qed.

Section Fine.
Variable round3 : Q -> Q.
Variable text_w : fkey -> str -> Q.
Variable space_w : fkey -> Q.
Variable fref : fkey -> str.

Definition em_fine (e : em) : Prop := Forall text_op (e_text e) /\ fine OnPage (e_gfx e).
Lemma output_text_fine p f e : em_fine e -> em_fine (output_text round3 space_w fref p f e).
Proof.
  intros [H1 H2]. split; [|exact H2]. unfold output_text. cbn [e_text].
  apply Forall_app; split; [exact H1|]. apply Forall_app; split; [apply compare_ops|]. apply Forall_app; split.
  - destruct (match e_tw e with Some _ => _ | None => _ end); repeat constructor.
  - destruct (List.concat (lp_words p)); repeat constructor.
Qed.
Lemma output_graphics_fine p x y w e : em_fine e -> em_fine (output_graphics round3 p x y w e).
Proof.
  intros [H1 H2]. unfold output_graphics.
  set (gf := match y_bg (lp_style p) with None => (e_fill e, []) | Some c => _ end).
  assert (K1 : fine OnPage (snd gf)).
  { unfold gf. destruct (y_bg (lp_style p)) as [c|]; cbn [snd]; [|apply fine_nil]. intros n.
    destruct (match e_fill e with Some _ => _ | None => _ end); reflexivity. }
  destruct gf as [fill g1]. cbn [snd] in K1. set (gs := if y_under (lp_style p) then _ else _).
  assert (K2 : fine OnPage (snd gs)).
  { unfold gs. destruct (y_under (lp_style p)); cbn [snd]; [|apply fine_nil]. intros n.
    destruct (t_color (y_state (lp_style p))), (e_color e) as [oc|], (e_sw e) as [os|]; try destruct (ocolor_eqb _ oc); try destruct (Qeq_bool _ os); reflexivity. }
  destruct gs as [[color sw] g2]. cbn [snd] in K2. split; cbn [e_text e_gfx]; [exact H1|].
  apply fine_app; [exact H2|]. apply fine_app; assumption.
Qed.
Lemma emit_parts_fine ps : forall f x e, em_fine e -> em_fine (emit_parts round3 space_w fref ps f x e).
Proof.
  induction ps as [|p ps IH]; intros f x e H; [exact H|]. cbn [emit_parts]. unfold emit_part.
  pose proof (output_text_fine p f e H) as K. destruct (List.concat (lp_words p)) as [|c0 r]; [apply IH; exact K|].
  destruct (isspace (c0 :: r)); [apply IH; exact K|]. apply IH. apply output_graphics_fine. exact K.
Qed.
Lemma start_fine c d l b e x q f k : em_fine (d_em d) -> start_line round3 fref c d l b = Ok (e, x, q, f, k) -> em_fine e.
Proof.
  intros [H1 H2] Es. unfold start_line in Es.
  destruct (match c_list c with None => _ | Some _ => _ end) as [x0|]; [|discriminate]. cbn [bind] in Es.
  assert (T : forall ops s y i, Forall text_op ops -> em_fine (add_ops (d_em d) ops s y i)).
  { intros ops s y i H. split; [|exact H2]. unfold add_ops. cbn [e_text]. apply Forall_app; split; assumption. }
  destruct (negb (e_started (d_em d))); [destruct (d_first d); [destruct (c_list c) as [li|]|]|]; [destruct (d_lstate d) as [ls|]; [|discriminate]| | |];
    apply Ok_inj, (f_equal (fun z => fst (fst (fst (fst z))))) in Es; cbn [fst] in Es; subst e; apply T; try (repeat constructor).
  apply Forall_app; split; [apply compare_ops|repeat constructor].
Qed.
Lemma run_fine c d w h d' : run round3 text_w space_w fref c d w h = Ok d' -> em_fine (d_em d').
Proof.
  intros E. refine (run_state_ind round3 text_w space_w fref c (fun d => em_fine (d_em d)) _ _ d w h d' _ E).
  - intros d1 d2 Hc H. unfold core in Hc. injection Hc as _ _ _ _ _ _ Hc _. now rewrite <- Hc.
  - intros d1 cur b e x q f k H Es. cbn [accept d_em]. unfold add_line_to_stream in Es.
    destruct (start_line round3 fref c d1 (flush cur b) b) as [[[[[e1 x1] q1] f1] k1]|] eqn:Est; [|discriminate]. cbn [bind] in Es.
    apply Ok_inj, (f_equal (fun z => fst (fst (fst (fst z))))) in Es. cbn [fst] in Es. subst e.
    apply emit_parts_fine. exact (start_fine _ _ _ _ _ _ _ _ _ H Est).
  - split; [constructor|apply fine_nil].
Qed.
Lemma graphics_fine l : forall lf lc lw ls ops, graphics_loop round3 lf lc lw ls l = Ok ops -> fine OnPage ops.
Proof.
  induction l as [|g l IH]; intros lf lc lw ls ops E.
  - injection E as <-. apply fine_nil.
  - destruct g as [x y w h c|x1 y1 x2 y2 w c s]; cbn [graphics_loop] in E.
    + destruct (graphics_loop round3 (Some c) lc lw ls l) as [rest|] eqn:Er; [|discriminate]. cbn [bind] in E. apply Ok_inj in E. subst ops.
      apply fine_app; [|exact (IH _ _ _ _ _ Er)]. intros n. destruct (differs _ _ _); reflexivity.
    + destruct (line_style round3 w s) as [[[cap dash] phase]|] eqn:El; [|discriminate]. cbn [bind] in E.
      destruct (graphics_loop round3 lf (Some c) (Some w) (Some (cap, dash, phase)) l) as [rest|] eqn:Er; [|discriminate]. cbn [bind] in E. apply Ok_inj in E. subst ops.
      apply fine_app; [|exact (IH _ _ _ _ _ Er)]. intros n. destruct (differs rgb_eqb _ _), (differs Qeq_bool _ _), (differs style_eqb _ _); reflexivity.
Qed.
Lemma piece_fine p ops : (forall x y d, p = Paragraph x y d -> exists c d0 w h, run round3 text_w space_w fref c d0 w h = Ok d) ->
  piece_ops round3 p = Ok ops -> fine OnPage ops.
Proof.
  intros Hp E. destruct p as [x y d|l|nm w h x y]; cbn [piece_ops] in E.
  - apply Ok_inj in E. subst ops. destruct (Hp x y d eq_refl) as (c & d0 & w & h & Er). apply run_fine in Er as [H1 H2].
    unfold paragraph_stream. apply fine_app.
    + destruct (e_gfx (d_em d)) as [|o t] eqn:Eg; [apply fine_nil|]. rewrite <- Eg in *.
      change (GConcat 1 0 0 1 (round3 x) (round3 y) :: e_gfx (d_em d) ++ [GRestore]) with (([GConcat 1 0 0 1 (round3 x) (round3 y)] ++ e_gfx (d_em d)) ++ [GRestore]).
      apply saved_fine. apply fine_app; [intros n; reflexivity|exact H2].
    + destruct (e_text (d_em d)) as [|o t] eqn:Et; [apply fine_nil|]. rewrite <- Et in *.
      intros n. cbn [all_stand stands]. rewrite all_stand_app, (text_fine _ H1). reflexivity.
  - unfold create_graphics in E. destruct (graphics_loop round3 None None None None l) as [o|] eqn:El; [|discriminate].
    cbn [bind] in E. apply Ok_inj in E. subst ops. apply graphics_fine in El. destruct o; [apply fine_nil|]. apply saved_fine. exact El.
  - apply Ok_inj in E. subst ops. intros n. reflexivity.
Qed.
Theorem page_fine : forall ps ops, (forall x y d, In (Paragraph x y d) ps -> exists c d0 w h, run round3 text_w space_w fref c d0 w h = Ok d) ->
  page_ops round3 ps = Ok ops -> fine OnPage ops.
Proof.
  induction ps as [|p ps IH]; intros ops Hp E; cbn [page_ops] in E; [injection E as <-; apply fine_nil|].
  destruct (piece_ops round3 p) as [a|] eqn:Ea; [|discriminate]. cbn [bind] in E.
  destruct (page_ops round3 ps) as [b|] eqn:Eb; [|discriminate]. cbn [bind] in E. apply Ok_inj in E. subst ops.
  apply fine_app; [|apply IH; [|reflexivity]].
  - apply (piece_fine p); [|exact Ea]. intros x y d ->. apply (Hp x y). now left.
  - intros x y d H. apply (Hp x y). now right.
Qed.
End Fine.
