(** Model of whole contents: paragraphs, images, tables and content boxes
    inside one another, put together from the models of pdfme/text.py
    (TextLayout), pdfme/table.py (Table) and pdfme/content.py (Content), which
    have the elements of their boxes and cells as parameters.

    The parts of a class that the others use are in a [kit]: the elements, the
    objects made from them, and what [get_state] gives.  Boxes and tables can be
    inside one another to any depth [n].  What is drawn is kept as it is passed
    to the page: the paragraphs with their lines, the images; the lines and
    fills of tables separately.  A box that is stopped by the fuel of its model
    gives [OutOfFuel] here, which python never raises. *)
From Coq Require Import QArith ZArith.
From Verif Require Import Py.
From Verif Require TextLayout Table Content.
Open Scope list_scope.
Open Scope nat_scope.

Section Whole.
(** Colours of fills; colours and styles of borders. *)
Context {F B : Type}.
Variable b_eqb : B -> B -> bool.
Variable round3 : Q -> Q.
Variable text_w : TextLayout.fkey -> str -> Q.
Variable space_w : TextLayout.fkey -> Q.
Variable fref : TextLayout.fkey -> str.
Variable fuel : nat.

(** text.py 587-614 (the dict of a paragraph) and table.py 903-909, content.py
    936-942 (the dict of an image). *)
Inductive drawn := DPar (c : TextLayout.config) (x y : Q) (d : TextLayout.dyn) | DPic (x y w h iw ih : Q).
Inductive rule := RLine (l : @Table.line B) | RFill (f : @Table.fill F).

Record kit := mkKit {
  kE : Type; kO : Type; kS : Type;
  k_start : kE -> res kO;
  k_run : kO -> Q -> Q -> Q -> Q -> res (kO * Q * bool * list drawn * list rule);
  k_save : kO -> kS;
  k_restore : kO -> kS -> kO }.

(** content.py 827-885 and table.py 830-872 use of text.py: [PDFText], [run],
    [get_state], [set_state].  An object that goes on is marked as not finished
    (content.py 853, 981; table.py 854, 941, 983); here when it is run. *)
Definition unfinished (d : TextLayout.dyn) : TextLayout.dyn :=
  TextLayout.mkDyn (TextLayout.d_part d) (TextLayout.d_word d) (TextLayout.d_lpart d) (TextLayout.d_lword d) (TextLayout.d_apart d) (TextLayout.d_aword d)
    (TextLayout.d_first d) (TextLayout.d_correct d) (TextLayout.d_listdone d) false (TextLayout.d_lindent d) (TextLayout.d_lstate d)
    (TextLayout.d_width d) (TextLayout.d_height d) (TextLayout.d_added d) (TextLayout.d_h d) (TextLayout.d_lines d) (TextLayout.d_em d)
    (TextLayout.d_used d) (TextLayout.d_cused d) (TextLayout.d_marks d).
Definition text_kit : kit :=
  mkKit TextLayout.config (TextLayout.config * TextLayout.dyn) (nat * nat)
    (fun c => Ok (c, TextLayout.fresh c))
    (fun o x y w h =>
       let '(c, d) := o in
       do d' <- TextLayout.run round3 text_w space_w fref c (unfinished d) w h;
       Ok ((c, d'), TextLayout.d_h d', TextLayout.d_fin d', [DPar c x y d'], []))
    (fun o => TextLayout.get_state (snd o))
    (fun o s => (fst o, TextLayout.set_state (snd o) s)).

(** table.py 874-915 [process_image]: an image in a cell, by its size in
    pixels. *)
Definition image_kit : kit :=
  mkKit (Q * Q) (Q * Q) unit (fun e => Ok e)
    (fun o x y w h =>
       let '(iw, ih) := o in
       if Qeq_bool iw 0 then Err ZeroDivisionError
       else let hh := (w * ih / iw)%Q in
            if Table.qlt hh h then Ok (o, hh, true, [DPic x (y - hh) w hh iw ih], []) else Ok (o, 0%Q, false, [], []))
    (fun _ => tt) (fun o _ => o).

(** table.py 917-956 [process_content] and content.py 12-290 [PDFContent]. *)
Definition of_placed {O} (p : @Content.placed O drawn) : list drawn :=
  match p with Content.PlLeaf _ _ _ _ _ _ _ _ _ ps => ps | Content.PlImage _ x y w h iw ih => [DPic x y w h iw ih] end.
Record box (E : Type) := mkBox { bx_elems : list (@Content.elem E); bx_cols : nat; bx_gap : option Q }.
Arguments mkBox {E}. Arguments bx_elems {E}. Arguments bx_cols {E}. Arguments bx_gap {E}.
Definition content_again {E O S} (c : @Content.content E O S) : @Content.content E O S :=
  Content.mkC (Content.c_elems c) (Content.c_cols c) (Content.c_gap c) (Content.c_part c) false (Content.c_heap c) (Content.c_tries c).
Definition content_kit (k : kit) : kit :=
  mkKit (box (kE k)) (@Content.content (kE k) (kO k) (kS k)) (option (nat * list (@Content.delem (kE k) (kS k)) * @Content.cmem (kE k) (kS k)))
    (fun e => Ok (Content.fresh_content (bx_elems e) (bx_cols e) (bx_gap e)))
    (fun c x y w h =>
       match Content.run (k_start k) (k_run k) (k_save k) (k_restore k) fuel x y w h (content_again c) with
       | Content.Done (c', o) =>
           Ok (c', Content.o_height o, Content.c_finished c', flat_map of_placed (Content.o_parts o), Content.o_lines o)
       | Content.Raise e => Err e
       | Content.Out => Err OutOfFuel
       end)
    (fun c => match Content.get_state c with Content.Done s => Some s | _ => None end)
    (fun c s => match s with Some s => match Content.set_state s c with Content.Done c' => c' | _ => c end | None => c end).

(** table.py 752-828 [add_cell] and 958-1000 [process_table]; content.py 955-1013
    [process_table]; table.py [PDFTable].  The object in a cell is kept with the
    state that it gave after its last run, which is set before the next. *)
Definition lefts {X Y} (l : list (X + Y)) : list X := flat_map (fun a => match a with inl b => [b] | inr _ => [] end) l.
Definition rights {X Y} (l : list (X + Y)) : list Y := flat_map (fun a => match a with inl _ => [] | inr b => [b] end) l.
Definition cell_start (k : kit) (e : kE k) : res (kO k * option (kS k)) := do o <- k_start k e; Ok (o, None).
Definition cell_run (k : kit) (p : kO k * option (kS k)) (x y w h : Q) : res ((kO k * option (kS k)) * Q * bool * list (drawn + rule)) :=
  let o := match snd p with Some s => k_restore k (fst p) s | None => fst p end in
  do (o', ht, fin, ps, ls) <- k_run k o x y w h;
  Ok ((o', Some (k_save k o')), ht, fin, map inl ps ++ map inr ls).
Definition table_again {W} (s : @Table.tstate W F) : @Table.tstate W F := Table.mkT (Table.t_index s) (Table.t_delayed s) (Table.t_first s) false.
Definition table_kit (k : kit) : kit :=
  mkKit (Table.table (kE k) F B) (Table.table (kE k) F B * @Table.tstate (kO k * option (kS k)) F)
    (nat * Table.ndict (@Table.dcell (kO k * option (kS k)) F))
    (fun t => Ok (t, Table.fresh_table))
    (fun o x y w h =>
       let '(t, s) := o in
       do (s', out) <- Table.run (cell_start k) (cell_run k) b_eqb t x y w h (table_again s);
       Ok ((t, s'), Table.o_height out, Table.t_finished s', lefts (Table.o_parts out),
           rights (Table.o_parts out) ++ map RLine (Table.o_lines out) ++ map RFill (Table.o_fills out)))
    (fun o => Table.get_state (snd o))
    (fun o s => (fst o, Table.set_state (Some (fst s)) (Some (snd s)) (snd o))).

(** One kit or the other, as the keys of an element say (content.py 810-826,
    table.py 790-811). *)
Definition sum_kit (a b : kit) : kit :=
  mkKit (kE a + kE b) (kO a + kO b) (kS a + kS b)
    (fun e => match e with inl e => do o <- k_start a e; Ok (inl o) | inr e => do o <- k_start b e; Ok (inr o) end)
    (fun o x y w h =>
       match o with
       | inl o => do (o', ht, fin, ps, ls) <- k_run a o x y w h; Ok (inl o', ht, fin, ps, ls)
       | inr o => do (o', ht, fin, ps, ls) <- k_run b o x y w h; Ok (inr o', ht, fin, ps, ls)
       end)
    (fun o => match o with inl o => inl (k_save a o) | inr o => inr (k_save b o) end)
    (fun o s => match o, s with inl o, inl s => inl (k_restore a o s) | inr o, inr s => inr (k_restore b o s) | _, _ => o end).

(** What a cell can be, if [k] is what a box can have: that, an image, a box. *)
Definition cell_kit (k : kit) : kit := sum_kit k (sum_kit image_kit (content_kit k)).
(** What a box can have besides images, groups and boxes, with [n] levels of
    tables. *)
Fixpoint leaf_kit (n : nat) : kit :=
  match n with
  | 0 => text_kit
  | S n => sum_kit text_kit (table_kit (cell_kit (leaf_kit n)))
  end.

(** pdf.py 672-701 [text], 779-803 [table], 859-877 [content]: in one page after
    the other, until it is finished; here with any rectangles. *)
Record rect := mkRect { rc_x : Q; rc_y : Q; rc_w : Q; rc_h : Q }.
Fixpoint pages (k : kit) (o : kO k) (rs : list rect) : res (bool * list (list drawn)) :=
  match rs with
  | [] => Ok (false, [])
  | r :: rs =>
      do (o', ht, fin, ps, ls) <- k_run k o (rc_x r) (rc_y r) (rc_w r) (rc_h r);
      if (fin : bool) then Ok (true, [ps])
      else do (b, l) <- pages k o' rs; Ok (b, ps :: l)
  end.
End Whole.
Arguments mkBox {E}. Arguments bx_elems {E}. Arguments bx_cols {E}. Arguments bx_gap {E}.
