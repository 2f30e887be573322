(** Graphics operators: a specification of what a PDF reader does with them
    (ISO 32000-1, 8.4, 8.5 and 9.3, 9.4) and a model of the functions that
    write them (pdfme/utils.py 248-306, 339-361, pdfme/page.py 185-191). *)
From Coq Require Import String QArith Qround Lqa.
From Verif Require Import Py.
Open Scope N_scope.
Open Scope list_scope.

(** Colours: one component is gray, three are RGB. *)
Inductive rgb := Gray (g : Q) | Rgb (r g b : Q).

(** Operators with their operands, one constructor for each operator that
    pdfme writes.  The text format of numbers is not modelled. *)
Inductive gop :=
| GSave | GRestore
| GConcat (a b c d e f : Q)
| GFillColor (c : rgb) | GStrokeColor (c : rgb)
| GWidth (w : Q) | GCap (n : Z) | GDash (a : list Q) (phase : Q)
| GRect (x y w h : Q) | GMove (x y : Q) | GLine (x y : Q)
| GFill | GStroke
| GBegin | GEnd | GTm (x y : Q)
| GFont (ref : str) (size : Q) | GRise (r : Q) | GSpacing (w : Q)
| GTd (x y : Q) | GShow (s : str)
| GDo (nm : str).

(** ** Specification: the reader *)

Record matrix := mkMat { m_a : Q; m_b : Q; m_c : Q; m_d : Q; m_e : Q; m_f : Q }.
(** 8.3.4: a point under a matrix, and the matrix [M] followed by [N]. *)
Definition apply (m : matrix) (p : Q * Q) : Q * Q :=
  let (x, y) := p in
  (m_a m * x + m_c m * y + m_e m, m_b m * x + m_d m * y + m_f m)%Q.
Definition mult (m n : matrix) : matrix :=
  mkMat (m_a m * m_a n + m_b m * m_c n) (m_a m * m_b n + m_b m * m_d n)
        (m_c m * m_a n + m_d m * m_c n) (m_c m * m_b n + m_d m * m_d n)
        (m_e m * m_a n + m_f m * m_c n + m_e n) (m_e m * m_b n + m_f m * m_d n + m_f n).
Definition identity : matrix := mkMat 1 0 0 1 0 0.

(** 8.4.1: the graphics state, text state included. *)
Record gstate := mkGS {
  g_ctm : matrix; g_fill : rgb; g_stroke : rgb; g_width : Q; g_cap : Z; g_dash : list Q * Q;
  g_font : option (str * Q); g_rise : Q; g_spacing : Q }.
Inductive seg := SRect (x y w h : Q) | SMove (x y : Q) | SLine (x y : Q).
(** The reader: graphics state, saved states, current path, and inside a text
    object the origin of the current line. *)
Record reader := mkR { r_gs : gstate; r_stack : list gstate; r_path : list seg; r_line : option (Q * Q) }.

(** What appears on the page. *)
Inductive paint :=
| PFill (ctm : matrix) (c : rgb) (p : list seg)
| PStroke (ctm : matrix) (c : rgb) (w : Q) (cap : Z) (dash : list Q * Q) (p : list seg)
| PShow (ctm : matrix) (font : option (str * Q)) (c : rgb) (rise spacing : Q) (line : Q * Q) (s : str)
| PDo (ctm : matrix) (nm : str).

Definition with_gs (r : reader) (g : gstate) : reader := mkR g (r_stack r) (r_path r) (r_line r).
Definition with_path (r : reader) (p : list seg) : reader := mkR (r_gs r) (r_stack r) p (r_line r).
Definition with_line (r : reader) (l : option (Q * Q)) : reader := mkR (r_gs r) (r_stack r) (r_path r) l.

Definition exec (o : gop) (r : reader) : reader * list paint :=
  let g := r_gs r in
  let '(mkGS m fc sc w cap dash font rise sp) := g in
  match o with
  | GSave => (mkR g (g :: r_stack r) (r_path r) (r_line r), [])
  | GRestore => match r_stack r with
                | [] => (r, [])
                | g' :: s => (mkR g' s (r_path r) (r_line r), [])
                end
  | GConcat a b c d e f => (with_gs r (mkGS (mult (mkMat a b c d e f) m) fc sc w cap dash font rise sp), [])
  | GFillColor c => (with_gs r (mkGS m c sc w cap dash font rise sp), [])
  | GStrokeColor c => (with_gs r (mkGS m fc c w cap dash font rise sp), [])
  | GWidth x => (with_gs r (mkGS m fc sc x cap dash font rise sp), [])
  | GCap n => (with_gs r (mkGS m fc sc w n dash font rise sp), [])
  | GDash a ph => (with_gs r (mkGS m fc sc w cap (a, ph) font rise sp), [])
  | GRect x y w h => (with_path r (r_path r ++ [SRect x y w h]), [])
  | GMove x y => (with_path r (r_path r ++ [SMove x y]), [])
  | GLine x y => (with_path r (r_path r ++ [SLine x y]), [])
  | GFill => (with_path r [], [PFill m fc (r_path r)])
  | GStroke => (with_path r [], [PStroke m sc w cap dash (r_path r)])
  | GBegin => (with_line r (Some (0#1, 0#1)%Q), [])
  | GEnd => (with_line r None, [])
  | GTm x y => (with_line r (Some (x, y)), [])
  | GFont f s => (with_gs r (mkGS m fc sc w cap dash (Some (f, s)) rise sp), [])
  | GRise q => (with_gs r (mkGS m fc sc w cap dash font q sp), [])
  | GSpacing q => (with_gs r (mkGS m fc sc w cap dash font rise q), [])
  | GTd x y => match r_line r with
               | Some (a, b) => (with_line r (Some (a + x, b + y)%Q), [])
               | None => (r, [])
               end
  | GShow s => match r_line r with
               | Some l => (r, [PShow m font fc rise sp l s])
               | None => (r, [])
               end
  | GDo n => (r, [PDo m n])
  end.
Fixpoint execs (l : list gop) (r : reader) : reader * list paint :=
  match l with
  | [] => (r, [])
  | o :: rest => let '(r1, e1) := exec o r in let '(r2, e2) := execs rest r1 in (r2, e1 ++ e2)
  end.

(** Equality of what is painted, up to equality of rational numbers. *)
Definition rgb_eq (a b : rgb) : Prop :=
  match a, b with
  | Gray x, Gray y => x == y
  | Rgb r g b, Rgb r' g' b' => r == r' /\ g == g' /\ b == b'
  | _, _ => False
  end%Q.
Definition mat_eq (m n : matrix) : Prop :=
  (m_a m == m_a n /\ m_b m == m_b n /\ m_c m == m_c n /\ m_d m == m_d n /\ m_e m == m_e n /\ m_f m == m_f n)%Q.
Definition seg_eq (s t : seg) : Prop :=
  match s, t with
  | SRect x y w h, SRect x' y' w' h' => x == x' /\ y == y' /\ w == w' /\ h == h'
  | SMove x y, SMove x' y' => x == x' /\ y == y'
  | SLine x y, SLine x' y' => x == x' /\ y == y'
  | _, _ => False
  end%Q.
Definition dash_eq (d e : list Q * Q) : Prop := Forall2 Qeq (fst d) (fst e) /\ (snd d == snd e)%Q.
Definition font_eq (f g : option (str * Q)) : Prop :=
  match f, g with Some (a, x), Some (b, y) => a = b /\ (x == y)%Q | None, None => True | _, _ => False end.
Definition paint_eq (p q : paint) : Prop :=
  match p, q with
  | PFill m c s, PFill m' c' s' => mat_eq m m' /\ rgb_eq c c' /\ Forall2 seg_eq s s'
  | PStroke m c w cap d s, PStroke m' c' w' cap' d' s' =>
      mat_eq m m' /\ rgb_eq c c' /\ (w == w')%Q /\ cap = cap' /\ dash_eq d d' /\ Forall2 seg_eq s s'
  | PShow m f c ri sp l s, PShow m' f' c' ri' sp' l' s' =>
      mat_eq m m' /\ font_eq f f' /\ rgb_eq c c' /\ (ri == ri')%Q /\ (sp == sp')%Q /\
      (fst l == fst l')%Q /\ (snd l == snd l')%Q /\ s = s'
  | PDo m n, PDo m' n' => mat_eq m m' /\ n = n'
  | _, _ => False
  end.
Definition paints_eq : list paint -> list paint -> Prop := Forall2 paint_eq.

(** ** Model: lists of fills and lines *)

Section Round.
(** [round(x, 3)]. *)
Variable round3 : Q -> Q.

Inductive lstyle := Solid | Dashed | Dotted | BadStyle.
(** The dictionaries of [graphics]: a fill has a fill colour and a line a
    stroke colour. *)
Inductive graphic :=
| Fill (x y w h : Q) (c : rgb)
| Line (x1 y1 x2 y2 : Q) (w : Q) (c : rgb) (s : lstyle).

(** color.py 177-181: comparison of colours of the same kind, and 189-199
    [__str__]. *)
Definition rgb_eqb (a b : rgb) : bool :=
  match a, b with
  | Gray x, Gray y => Qeq_bool x y
  | Rgb r g b, Rgb r' g' b' => Qeq_bool r r' && Qeq_bool g g' && Qeq_bool b b'
  | _, _ => false
  end.
Definition round_rgb (c : rgb) : rgb :=
  match c with Gray x => Gray (round3 x) | Rgb r g b => Rgb (round3 r) (round3 g) (round3 b) end.

(** utils.py 280-294: the cap and the dash pattern. The factor of the phase is
    applied after rounding. *)
Definition line_style (w : Q) (s : lstyle) : res (Z * list Q * Q) :=
  match s with
  | Dashed => Ok (0%Z, [round3 (w * 3); round3 (w * (3#2))]%Q, 0%Q)
  | Dotted => Ok (1%Z, [0; round3 (w * 2)]%Q, (round3 w * (1#2))%Q)
  | Solid => Ok (0%Z, [], 0%Q)
  | BadStyle => Err PyException
  end.
Fixpoint qlist_eqb (a b : list Q) : bool :=
  match a, b with
  | [], [] => true
  | x :: a', y :: b' => Qeq_bool x y && qlist_eqb a' b'
  | _, _ => false
  end.
Definition style_eqb (a b : Z * list Q * Q) : bool :=
  let '(n, l, p) := a in let '(n', l', p') := b in (n =? n')%Z && qlist_eqb l l' && Qeq_bool p p'.

Definition differs {A} (eqb : A -> A -> bool) (x : A) (last : option A) : bool :=
  match last with Some y => negb (eqb x y) | None => true end.

(** utils.py 248-306 [create_graphics]: the loop with the last fill, colour,
    width and style.  Line styles are compared as they are printed. *)
Fixpoint graphics_loop (lf lc : option rgb) (lw : option Q) (ls : option (Z * list Q * Q)) (l : list graphic)
  : res (list gop) :=
  match l with
  | [] => Ok []
  | Fill x y w h c :: r =>
      let ops := (if differs rgb_eqb c lf then [GFillColor (round_rgb c)] else [])
                 ++ [GRect (round3 x) (round3 y) (round3 w) (round3 h); GFill] in
      do rest <- graphics_loop (Some c) lc lw ls r; Ok (ops ++ rest)
  | Line x1 y1 x2 y2 w c s :: r =>
      do st <- line_style w s;
      let '(cap, dash, phase) := st in
      let ops := (if differs rgb_eqb c lc then [GStrokeColor (round_rgb c)] else [])
                 ++ (if differs Qeq_bool w lw then [GWidth (round3 w)] else [])
                 ++ (if differs style_eqb st ls then [GCap cap; GDash dash phase] else [])
                 ++ [GMove (round3 x1) (round3 y1); GLine (round3 x2) (round3 y2); GStroke] in
      do rest <- graphics_loop lf (Some c) (Some w) (Some st) r; Ok (ops ++ rest)
  end.
Definition create_graphics (l : list graphic) : res (list gop) :=
  do ops <- graphics_loop None None None None l;
  Ok (match ops with [] => [] | _ => GSave :: ops ++ [GRestore] end).

(** utils.py 339-361 [get_paragraph_stream]. *)
Definition paragraph_stream (x y : Q) (text graphics : list gop) : list gop :=
  (match graphics with
   | [] => []
   | _ => GSave :: GConcat 1 0 0 1 (round3 x) (round3 y) :: graphics ++ [GRestore]
   end) ++
  (match text with
   | [] => []
   | _ => GBegin :: GTm (round3 x) (round3 y) :: text ++ [GEnd]
   end).

(** page.py 185-191: drawing an image. *)
Definition image_stream (nm : str) (w h x y : Q) : list gop :=
  [GSave; GConcat (round3 w) 0 0 (round3 h) (round3 x) (round3 y); GDo nm; GRestore].

(** ** Specification of C23: each graphic with its own attributes *)

(** The dash pattern of a style: solid lines have none; dashes are three
    times as long as the line is wide, with gaps of half that length; dots
    have round caps. *)
Definition wanted_dash (w : Q) (s : lstyle) : Z * (list Q * Q) :=
  match s with
  | Dashed => (0%Z, ([round3 (w * 3); round3 (w * (3#2))]%Q, 0%Q))
  | Dotted => (1%Z, ([0; round3 (w * 2)]%Q, (round3 w * (1#2))%Q))
  | _ => (0%Z, ([], 0%Q))
  end.
Definition wanted (m : matrix) (g : graphic) : paint :=
  match g with
  | Fill x y w h c => PFill m (round_rgb c) [SRect (round3 x) (round3 y) (round3 w) (round3 h)]
  | Line x1 y1 x2 y2 w c s =>
      PStroke m (round_rgb c) (round3 w) (fst (wanted_dash w s)) (snd (wanted_dash w s))
        [SMove (round3 x1) (round3 y1); SLine (round3 x2) (round3 y2)]
  end.

(** ** Proofs *)

Hypothesis round3_proper : forall x y, (x == y)%Q -> (round3 x == round3 y)%Q.

Lemma execs_app l1 : forall l2 r, execs (l1 ++ l2) r =
  let '(r1, e1) := execs l1 r in let '(r2, e2) := execs l2 r1 in (r2, e1 ++ e2).
Proof.
  induction l1 as [|o l1 IH]; intros l2 r; cbn [app execs].
  - destruct (execs l2 r). reflexivity.
  - destruct (exec o r) as [r1 e1]. rewrite IH. destruct (execs l1 r1) as [r2 e2].
    destruct (execs l2 r2) as [r3 e3]. now rewrite app_assoc.
Qed.

Lemma rgb_eq_refl c : rgb_eq c c.
Proof. destruct c; cbn; repeat split; reflexivity. Qed.
Lemma mat_eq_refl m : mat_eq m m.
Proof. unfold mat_eq. repeat split; reflexivity. Qed.
Lemma seg_eq_refl s : seg_eq s s.
Proof. destruct s; cbn; repeat split; reflexivity. Qed.
Lemma segs_eq_refl l : Forall2 seg_eq l l.
Proof. induction l; constructor; auto using seg_eq_refl. Qed.
Lemma qlist_refl l : Forall2 Qeq l l.
Proof. induction l; constructor; auto. reflexivity. Qed.
Lemma rgb_eq_sym a b : rgb_eq a b -> rgb_eq b a.
Proof. destruct a, b; cbn; try tauto; intuition. Qed.
Lemma rgb_eq_trans a b c : rgb_eq a b -> rgb_eq b c -> rgb_eq a c.
Proof.
  destruct a, b, c; cbn; try tauto.
  - intros -> ->. reflexivity.
  - intros (-> & -> & ->) (-> & -> & ->). repeat split; reflexivity.
Qed.
Lemma rgb_eqb_eq a b : rgb_eqb a b = true -> rgb_eq a b.
Proof.
  destruct a, b; cbn; try discriminate.
  - apply Qeq_bool_eq.
  - rewrite !andb_true_iff. intros ((? & ?) & ?). repeat split; now apply Qeq_bool_eq.
Qed.
Lemma round_rgb_proper a b : rgb_eq a b -> rgb_eq (round_rgb a) (round_rgb b).
Proof. destruct a, b; cbn; try tauto; intuition. Qed.
Lemma qlist_eqb_eq a : forall b, qlist_eqb a b = true -> Forall2 Qeq a b.
Proof.
  induction a as [|x a IH]; intros [|y b]; cbn; try discriminate; intros H; constructor.
  - apply andb_true_iff in H as [H _]. now apply Qeq_bool_eq.
  - apply andb_true_iff in H as [_ H]. auto.
Qed.
Lemma qlist_trans a : forall b c, Forall2 Qeq a b -> Forall2 Qeq b c -> Forall2 Qeq a c.
Proof.
  induction a as [|x a IH]; intros b c H1 H2; inversion H1; subst; inversion H2; subst; constructor.
  - etransitivity; eassumption.
  - eapply IH; eassumption.
Qed.
Lemma qlist_sym a : forall b, Forall2 Qeq a b -> Forall2 Qeq b a.
Proof. induction a; intros b H; inversion H; subst; constructor; auto. now symmetry. Qed.

(** What the reader's state has to do with the last written values. *)
Definition style_in (g : gstate) (st : Z * list Q * Q) : Prop :=
  let '(cap, dash, ph) := st in g_cap g = cap /\ dash_eq (g_dash g) (dash, ph).
Definition agrees (g : gstate) (lf lc : option rgb) (lw : option Q) (ls : option (Z * list Q * Q)) : Prop :=
  (forall c, lf = Some c -> rgb_eq (g_fill g) (round_rgb c)) /\
  (forall c, lc = Some c -> rgb_eq (g_stroke g) (round_rgb c)) /\
  (forall w, lw = Some w -> (g_width g == round3 w)%Q) /\
  (forall st, ls = Some st -> style_in g st).

Lemma style_in_eq g a b : style_eqb b a = true -> style_in g a -> style_in g b.
Proof.
  destruct a as [[n l] p], b as [[n' l'] p']. unfold style_eqb, style_in.
  rewrite !andb_true_iff. intros ((E1 & E2) & E3) (H1 & H2 & H3). cbn [fst snd] in *.
  apply Z.eqb_eq in E1. apply qlist_eqb_eq in E2. apply Qeq_bool_eq in E3.
  split; [congruence|]. split; cbn [fst snd].
  - eapply qlist_trans; [exact H2|]. now apply qlist_sym.
  - now rewrite E3.
Qed.

Lemma line_style_wanted w s st : line_style w s = Ok st ->
  let '(cap, d, p) := st in wanted_dash w s = (cap, (d, p)).
Proof. destruct s; cbn; try discriminate; intros H; injection H as <-; reflexivity. Qed.

Lemma graphics_loop_ok l : forall lf lc lw ls ops r,
  graphics_loop lf lc lw ls l = Ok ops -> agrees (r_gs r) lf lc lw ls -> r_path r = [] ->
  exists r' ps, execs ops r = (r', ps) /\ paints_eq ps (map (wanted (g_ctm (r_gs r))) l) /\
    r_stack r' = r_stack r /\ r_path r' = [] /\ r_line r' = r_line r.
Proof.
  induction l as [|g l IH]; intros lf lc lw ls ops r E A P.
  - injection E as <-. exists r, []. repeat split; auto. constructor.
  - destruct r as [[m fc sc w0 cap0 dash0 font rise sp] stk path line].
    cbn [r_gs r_path g_ctm r_stack r_line] in *. subst path.
    destruct A as (A1 & A2 & A3 & A4). cbn [g_fill g_stroke g_width] in A1, A2, A3.
    destruct g as [x y w h c|x1 y1 x2 y2 w c s]; cbn [graphics_loop] in E.
    + destruct (graphics_loop (Some c) lc lw ls l) as [rest|e] eqn:Er; [|discriminate].
      apply (f_equal (fun z => match z with Ok a => a | Err _ => [] end)) in E. cbn in E. subst ops.
      set (fc' := if differs rgb_eqb c lf then round_rgb c else fc).
      assert (Hfc : rgb_eq fc' (round_rgb c)).
      { unfold fc', differs. destruct lf as [c0|]; [|apply rgb_eq_refl].
        destruct (rgb_eqb c c0) eqn:Ec; cbn [negb]; [|apply rgb_eq_refl].
        apply rgb_eqb_eq in Ec. eapply rgb_eq_trans; [apply A1; reflexivity|].
        apply round_rgb_proper. now apply rgb_eq_sym. }
      destruct (IH _ _ _ _ _ (mkR (mkGS m fc' sc w0 cap0 dash0 font rise sp) stk [] line) Er) as
        (r' & ps & Ex & Hp & H1 & H2 & H3); [|reflexivity|].
      { split; [|split; [|split]]; cbn [r_gs g_fill g_stroke g_width].
        - intros c1 [= <-]. exact Hfc.
        - exact A2.
        - exact A3.
        - exact A4. }
      exists r'. eexists. split; [|split; [|split; [|split]]]; [| |exact H1|exact H2|exact H3].
      * rewrite <- app_assoc. rewrite execs_app.
        replace (execs (if differs rgb_eqb c lf then [GFillColor (round_rgb c)] else [])
                  (mkR (mkGS m fc sc w0 cap0 dash0 font rise sp) stk [] line))
          with (mkR (mkGS m fc' sc w0 cap0 dash0 font rise sp) stk [] line, @nil paint)
          by (unfold fc'; destruct (differs rgb_eqb c lf); reflexivity).
        cbn [app execs exec r_gs]. unfold with_path. cbn [r_gs r_path r_stack r_line exec app]. unfold with_path. cbn [r_gs r_path r_stack r_line exec app]. rewrite Ex. reflexivity.
      * cbn [app map]. constructor; [|exact Hp].
        cbn. repeat split; try reflexivity; [exact Hfc|]. constructor; [|constructor]. apply seg_eq_refl.
    + destruct (line_style w s) as [[[cap dash] ph]|e] eqn:Es; [|discriminate]. cbn [bind] in E.
      set (st := (cap, dash, ph)) in *.
      destruct (graphics_loop lf (Some c) (Some w) (Some st) l) as [rest|e] eqn:Er; [|discriminate].
      apply (f_equal (fun z => match z with Ok a => a | Err _ => [] end)) in E. cbn beta iota delta [bind] in E. subst ops.
      set (sc' := if differs rgb_eqb c lc then round_rgb c else sc).
      set (w' := if differs Qeq_bool w lw then round3 w else w0).
      set (cap' := if differs style_eqb st ls then cap else cap0).
      set (dash' := if differs style_eqb st ls then (dash, ph) else dash0).
      assert (Hsc : rgb_eq sc' (round_rgb c)).
      { unfold sc', differs. destruct lc as [c0|]; [|apply rgb_eq_refl].
        destruct (rgb_eqb c c0) eqn:Ec; cbn [negb]; [|apply rgb_eq_refl].
        apply rgb_eqb_eq in Ec. eapply rgb_eq_trans; [apply A2; reflexivity|].
        apply round_rgb_proper. now apply rgb_eq_sym. }
      assert (Hw : (w' == round3 w)%Q).
      { unfold w', differs. destruct lw as [w1|]; [|reflexivity].
        destruct (Qeq_bool w w1) eqn:Ew; cbn [negb]; [|reflexivity].
        apply Qeq_bool_eq in Ew. rewrite (A3 _ eq_refl). apply round3_proper. now symmetry. }
      assert (Hst : style_in (mkGS m fc sc' w' cap' dash' font rise sp) st).
      { unfold cap', dash', differs. destruct ls as [st0|]; [|split; [reflexivity|split; [apply qlist_refl|reflexivity]]].
        destruct (style_eqb st st0) eqn:Ec; cbn [negb]; [|split; [reflexivity|split; [apply qlist_refl|reflexivity]]].
        eapply style_in_eq; [exact Ec|]. specialize (A4 _ eq_refl). destruct st0 as [[n0 l0] p0]. exact A4. }
      destruct (IH _ _ _ _ _ (mkR (mkGS m fc sc' w' cap' dash' font rise sp) stk [] line) Er) as
        (r' & ps & Ex & Hp & H1 & H2 & H3); [|reflexivity|].
      { split; [|split; [|split]]; cbn [r_gs g_fill g_stroke g_width].
        - exact A1.
        - intros c1 [= <-]. exact Hsc.
        - intros c1 [= <-]. exact Hw.
        - intros c1 H. injection H as <-. exact Hst. }
      exists r'. eexists. split; [|split; [|split; [|split]]]; [| |exact H1|exact H2|exact H3].
      * rewrite <- !app_assoc. rewrite execs_app.
        replace (execs (if differs rgb_eqb c lc then [GStrokeColor (round_rgb c)] else [])
                  (mkR (mkGS m fc sc w0 cap0 dash0 font rise sp) stk [] line))
          with (mkR (mkGS m fc sc' w0 cap0 dash0 font rise sp) stk [] line, @nil paint)
          by (unfold sc'; destruct (differs rgb_eqb c lc); reflexivity).
        rewrite execs_app.
        replace (execs (if differs Qeq_bool w lw then [GWidth (round3 w)] else [])
                  (mkR (mkGS m fc sc' w0 cap0 dash0 font rise sp) stk [] line))
          with (mkR (mkGS m fc sc' w' cap0 dash0 font rise sp) stk [] line, @nil paint)
          by (unfold w'; destruct (differs Qeq_bool w lw); reflexivity).
        rewrite execs_app.
        replace (execs (if differs style_eqb st ls then [GCap cap; GDash dash ph] else [])
                  (mkR (mkGS m fc sc' w' cap0 dash0 font rise sp) stk [] line))
          with (mkR (mkGS m fc sc' w' cap' dash' font rise sp) stk [] line, @nil paint)
          by (unfold cap', dash'; destruct (differs style_eqb st ls); reflexivity).
        cbn [app execs exec r_gs]. do 3 (unfold with_path; cbn [r_gs r_path r_stack r_line exec app]). rewrite Ex. reflexivity.
      * cbn [app map]. constructor; [|exact Hp].
        pose proof (line_style_wanted _ _ _ Es) as Hw2. unfold st in Hst. cbn beta iota in Hw2.
        destruct Hst as [Hc Hd]. cbn [g_cap g_dash] in Hc, Hd.
        unfold wanted. rewrite Hw2. cbn [paint_eq fst snd].
        split; [apply mat_eq_refl|]. split; [exact Hsc|]. split; [exact Hw|].
        split; [exact Hc|]. split; [exact Hd|]. apply segs_eq_refl.
Qed.

(** C23: whatever the state of the reader. *)
Theorem create_graphics_ok l ops r : create_graphics l = Ok ops -> r_path r = [] ->
  exists ps, execs ops r = (r, ps) /\ paints_eq ps (map (wanted (g_ctm (r_gs r))) l).
Proof.
  unfold create_graphics. destruct (graphics_loop None None None None l) as [ops0|e] eqn:E; [|discriminate].
  intros H Hp. injection H as <-.
  destruct ops0 as [|o ops0].
  - destruct l as [|[] l]; cbn in E.
    + exists []. split; [reflexivity|constructor].
    + destruct (graphics_loop _ _ _ _ l); [|discriminate]. discriminate.
    + destruct (line_style w s) as [[[? ?] ?]|]; [|discriminate]. cbn in E.
      destruct (graphics_loop _ _ _ _ l); discriminate.
  - destruct r as [g stk path line]. cbn [r_path] in Hp. subst path.
    destruct (graphics_loop_ok l None None None None _ (mkR g (g :: stk) [] line) E) as
      (r' & ps & Ex & H1 & H2 & H3 & H4); [|reflexivity|].
    { repeat split; discriminate. }
    exists ps. split; [|exact H1].
    change (GSave :: (o :: ops0) ++ [GRestore]) with ([GSave] ++ (o :: ops0) ++ [GRestore]).
    rewrite execs_app.
    replace (execs [GSave] (mkR g stk [] line)) with (mkR g (g :: stk) [] line, @nil paint)
      by (cbn; destruct g; reflexivity).
    rewrite execs_app. rewrite Ex. destruct r' as [g' stk' path' line']. cbn in H2, H3, H4. subst.
    cbn. destruct g'. cbn. rewrite ?app_nil_r. reflexivity.
Qed.

(** Every list of graphics with known line styles is written. *)
Lemma create_graphics_total l :
  (forall x1 y1 x2 y2 w c, ~ In (Line x1 y1 x2 y2 w c BadStyle) l) -> exists ops, create_graphics l = Ok ops.
Proof.
  intros H. unfold create_graphics.
  assert (G : forall lf lc lw ls, exists ops, graphics_loop lf lc lw ls l = Ok ops).
  { induction l as [|g l IH]; intros lf lc lw ls; cbn [graphics_loop]; [eauto|].
    assert (Hl : forall x1 y1 x2 y2 w c, ~ In (Line x1 y1 x2 y2 w c BadStyle) l).
    { intros ? ? ? ? ? ? Hi. eapply H. right. exact Hi. }
    destruct g as [x y w h c|x1 y1 x2 y2 w c s].
    - destruct (IH Hl (Some c) lc lw ls) as [ops ->]. cbn. eauto.
    - destruct s; try (cbn [line_style bind]; match goal with |- context [graphics_loop ?a ?b ?c ?d l] =>
        destruct (IH Hl a b c d) as [ops ->] end; cbn; eauto).
      exfalso. eapply H. left. reflexivity. }
  destruct (G None None None None) as [ops ->]. cbn. eauto.
Qed.
End Round.
