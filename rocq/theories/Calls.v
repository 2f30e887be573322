(** Model of documents made by calls of their methods: pdfme/pdf.py 243-281
    ([add_page]), 679-701 ([text]), 782-803 ([table]), 860-876 ([content]), and
    how what these draw is handed to the pages: 579-643 ([_add_text]), 878-907
    ([_add_graphics], [_add_parts]).

    The loops over pages are those of Flow.v, what is drawn on a page is that of
    Whole.v, and the pages and their objects are those of PdfObj.v.  Running
    sections draw nothing here. *)
From Coq Require Import String QArith.
From Verif Require Import Py PageGeom Content Flow.
From Verif Require Gfx TextLayout Alone Whole PdfObj Store Links.
Import ListNotations.
Open Scope list_scope.
Open Scope nat_scope.

Section Calls.
Context {F B : Type}.
Variable b_eqb : B -> B -> bool.
Variable round3 : Q -> Q.
Variable text_w : TextLayout.fkey -> str -> Q.
Variable space_w : TextLayout.fkey -> Q.
Variable fref : TextLayout.fkey -> str.
Variable float_of : str -> res Q.
(** Bounds for the loops inside boxes and over pages. *)
Variables fuel pfuel : nat.
(** The depth of tables. *)
Variable n : nat.
Notation kit := (@Whole.leaf_kit F B b_eqb round3 text_w space_w fref fuel).
Notation box_kit k := (@Whole.content_kit F B fuel k).

(** [pdf.add_page()]; [pdf.text(...)] and [pdf.table(...)], for the two kinds of
    elements; [pdf.content(...)]. *)
Inductive call :=
| CPage
| CAdd (e : Whole.kE (kit (S n)))
| CContent (l : list (@Content.elem (Whole.kE (kit n)))) (cols : nat) (gap : option Q).

(** What happens to the pages: a new one; something is drawn on the last one,
    the fills and lines of a box first. *)
Inductive dev := NewPage (w h : Q) | Draw (box : bool) (rules : list (@Whole.rule F B)) (parts : list Whole.drawn).

(** An object with its last run: height, [finished], parts, lines and fills. *)
Definition kobj (k : @Whole.kit F B) : Type := Whole.kO k * (Q * bool * list Whole.drawn * list (@Whole.rule F B)).
Definition obj_run (k : @Whole.kit F B) (o : kobj k) (x y w h : Q) : res (kobj k) :=
  do (o', ht, fin, ps, ls) <- Whole.k_run k (fst o) x y w h; Ok (o', (ht, fin, ps, ls)).
Definition obj_fin (k : @Whole.kit F B) (o : kobj k) : bool := let '(_, fin, _, _) := snd o in fin.
Definition obj_parts (k : @Whole.kit F B) (o : kobj k) : list Whole.drawn := let '(_, _, ps, _) := snd o in ps.
Definition obj_rules (k : @Whole.kit F B) (o : kobj k) : list (@Whole.rule F B) := let '(_, _, _, ls) := snd o in ls.
(** The cursor afterwards: pdf.py 640-643, 771-778, 849-856, 888-907. *)
Definition bpart_of (it : Whole.drawn) : bpart :=
  match it with Whole.DPar _ _ _ d => BPar (TextLayout.d_h d) | Whole.DPic x y w h _ _ => BImg x y w h end.
Definition obj_after (k : @Whole.kit F B) (box : bool) (p : page) (o : kobj k) : page :=
  let '(ht, _, ps, _) := snd o in if box then after_box p (map bpart_of ps) ht else after_text p ht.

Definition page_size (s : pages_state) (i : nat) : Q * Q :=
  match nth_error (ps_pages s) i with Some p => (p_width p, p_height p) | None => (0, 0)%Q end.
Definition draw_of (k : @Whole.kit F B) (box : bool) (sh : shown (kobj k)) : dev := Draw box (obj_rules k (sh_obj sh)) (obj_parts k (sh_obj sh)).
(** pdf.py 679-701, 782-803, 860-876: what is drawn on the current page and on
    each new one. *)
Definition put_all (k : @Whole.kit F B) (box : bool) (o : Whole.kO k) (s : pages_state) : ans (list dev * pages_state) :=
  run! (shs, s') <- flow float_of (obj_run k) (obj_fin k) (obj_after k box) pfuel (o, (0%Q, false, [], [])) s;
  Done (match shs with
        | [] => []
        | first :: rest => draw_of k box first :: flat_map (fun sh => [NewPage (fst (page_size s' (sh_page sh))) (snd (page_size s' (sh_page sh))); draw_of k box sh]) rest
        end, s').
Definition call_run (c : call) (s : pages_state) : ans (list dev * pages_state) :=
  match c with
  | CPage =>
      match add_page float_of s None None None with
      | (Err e, _) => Raise e
      | (Ok _, s') => Done ([NewPage (fst (page_size s' (ps_index s'))) (snd (page_size s' (ps_index s')))], s')
      end
  | CAdd e =>
      run! o <- lift (Whole.k_start (kit (S n)) e);
      put_all (kit (S n)) (match e with inl _ => false | inr _ => true end) o s
  | CContent l cols gap => put_all (box_kit (kit n)) true (Content.fresh_content l cols gap) s
  end.
Fixpoint calls_run (cs : list call) (s : pages_state) : ans (list dev * pages_state) :=
  match cs with
  | [] => Done ([], s)
  | c :: r =>
      run! (ds, s1) <- call_run c s;
      run! (es, s2) <- calls_run r s1;
      Done (ds ++ es, s2)
  end.

(** ** What is handed to the pages *)
Variable loads : str -> res (Z * str * str).
(** The text of operators. *)
Variable print : list Gfx.gop -> str.
(** The style with which [_used_font] is called for a font. *)
Variable style_of : TextLayout.fkey -> PdfObj.style.
(** The name and the object of an image. *)
Variable pic : Q -> Q -> str * Store.dict.
Variable graphic_of : @Whole.rule F B -> Gfx.graphic.

(** pdf.py 769-770, 847-848: fills before lines. *)
Definition is_fill (r : @Whole.rule F B) : bool := match r with Whole.RFill _ => true | _ => false end.
Definition graphics_of (rs : list (@Whole.rule F B)) : list Gfx.graphic :=
  map graphic_of (filter is_fill rs ++ filter (fun r => negb (is_fill r)) rs).
(** pdf.py 878-886 [_add_graphics]. *)
Definition add_graphics (rs : list (@Whole.rule F B)) : res PdfObj.op :=
  do ops <- Alone.piece_ops round3 (Alone.Graphics (graphics_of rs));
  Ok (PdfObj.OpText (PdfObj.mkText 0 0 (print ops) [] [])).
(** pdf.py 888-907 [_add_parts]; 579-595 [_add_text]; 372-413 [add_image]. *)
Definition add_drawn (it : Whole.drawn) : res PdfObj.op :=
  match it with
  | Whole.DPar c x y d =>
      do ops <- Alone.piece_ops round3 (Alone.Paragraph x y d);
      do ids <- Links.paragraph_ids loads d;
      Ok (PdfObj.OpText (PdfObj.mkText x y (print ops) (map style_of (TextLayout.d_used d)) ids))
  | Whole.DPic x y w h iw ih => Ok (PdfObj.OpImage (fst (pic iw ih)) (snd (pic iw ih)) w h x y)
  end.
Fixpoint add_all (ps : list Whole.drawn) : res (list PdfObj.op) :=
  match ps with
  | [] => Ok []
  | it :: r => do o <- add_drawn it; do os <- add_all r; Ok (o :: os)
  end.
Fixpoint deliver (ds : list dev) : res (list PdfObj.op) :=
  match ds with
  | [] => Ok []
  | NewPage w h :: r => do os <- deliver r; Ok (PdfObj.OpPage w h :: os)
  | Draw box rs ps :: r =>
      do g <- (if box then do o <- add_graphics rs; Ok [o] else Ok []);
      do os <- add_all ps;
      do more <- deliver r;
      Ok (g ++ os ++ more)
  end.
End Calls.
Arguments CPage {F B b_eqb round3 text_w space_w fref fuel n}.
Arguments CAdd {F B b_eqb round3 text_w space_w fref fuel n}.
Arguments CContent {F B b_eqb round3 text_w space_w fref fuel n}.
