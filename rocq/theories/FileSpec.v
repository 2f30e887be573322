(** Specification of C85: what a reader of the file finds for the pages,
    texts, images, links and fonts of a history. *)
From Coq Require Import String QArith.
From Verif Require Import Py PyStr PdfSyntax PdfFile Parser Denote StreamProofs Store Fonts PdfObj PdfObjSpec PdfReader.
Open Scope N_scope.
Open Scope list_scope.

(** The value of a number, by [num], in the file. *)
Definition is_num (num : Q -> obj) (q : Q) (v : pval) : Prop := denote (num q) = Some v.

Section Spec.
Variable load_ttf : str -> res ttf.
Variable num : Q -> obj.
Variable round3 : Q -> Q.
Variable tt_descr : ttf -> dict.
Variable tt_file : ttf -> bytes.
Variable txt : Q -> str.
Variable flate : bytes -> bytes.
Variable file : bytes.
Notation is_num := (is_num num).

(** Entry [k] of a dictionary of the file is the value of entry [k] of [o]. *)
Definition same_entry (o : dict) (v : list (bytes * pval)) (k : str) : Prop :=
  assoc k v = match dget k o with Some x => denote x | None => None end.

(** Object [id] is the image object [o]: a dictionary, or a stream with the
    data as they are when they are already encoded ([__skip_filter__]). *)
Definition image_at (id : nat) (o : dict) : Prop :=
  (dget (lit "__stream__") o = None -> exists v, value_at file id (VDict v) /\ forall k, same_entry o v k) /\
  forall data, NoDup (map fst o) -> dget (lit "__stream__") o = Some (OBytes data) ->
    dget (lit "__skip_filter__") o = Some (OBool true) ->
    exists v, stream_at file id v data /\ assoc (lit "Length") v = Some (VInt (Z.of_nat (List.length data))) /\
      forall k, k <> lit "__stream__" -> k <> lit "__skip_filter__" -> k <> lit "Length" -> same_entry o v k.

(** The font object [id] is the font [base], from the font file [t] if
    there is one. *)
Definition font_at (id : nat) (base : str) (t : option ttf) : Prop :=
  exists v, value_at file id (VDict v) /\
    assoc (lit "Type") v = Some (vname "Font") /\ assoc (lit "BaseFont") v = Some (VName base) /\
    match t with
    | None => assoc (lit "Subtype") v = Some (vname "Type1") /\ assoc (lit "Encoding") v = Some (vname "WinAnsiEncoding")
    | Some t => assoc (lit "Subtype") v = Some (vname "Type0") /\ assoc (lit "Encoding") v = Some (vname "Identity-H") /\
        exists cid cv fid fv eid ev uid uv text,
          assoc (lit "DescendantFonts") v = Some (VArr [vref cid]) /\ value_at file cid (VDict cv) /\
          assoc (lit "Type") cv = Some (vname "Font") /\ assoc (lit "Subtype") cv = Some (vname "CIDFontType2") /\
          assoc (lit "BaseFont") cv = Some (VName base) /\ assoc (lit "CIDToGIDMap") cv = Some (vname "Identity") /\
          assoc (lit "FontDescriptor") cv = Some (vref fid) /\ value_at file fid (VDict fv) /\
          (forall k, k <> lit "FontFile2" -> same_entry (tt_descr t) fv k) /\
          assoc (lit "FontFile2") fv = Some (vref eid) /\ stream_at file eid ev (flate (tt_file t)) /\
          assoc (lit "Filter") ev = Some (vname "FlateDecode") /\
          assoc (lit "Length1") ev = Some (VInt (Z.of_nat (List.length (tt_file t)))) /\
          assoc (lit "ToUnicode") v = Some (vref uid) /\ stream_at file uid uv (flate text) /\
          assoc (lit "Filter") uv = Some (vname "FlateDecode") /\ unicode_map text (tt_cmap t)
    end.

(** The bytes [b] show the event [e] on the page with dictionary [pv]. *)
Definition drawn (h : list (nat * event)) (pv : list (bytes * pval)) (b : bytes) (e : event) : Prop :=
  match e with
  | EText _ t => b = t
  | EDraw n w ht x y => exists nm id o, first_image n h = Some o /\ image_at id o /\
      resource (lit "XObject") pv nm = Some (vref id) /\ forallb is_regular nm = true /\
      b = lit " q " ++ txt w ++ lit " 0 0 " ++ txt ht ++ lit " " ++ txt x ++ lit " " ++ txt y ++ lit " cm /" ++ nm ++ lit " Do Q"
  | _ => False
  end.

(** The annotation [a] is the link [l]: its area is the rectangle moved to
    the place of the text. *)
Definition link_at (a : pval) (l : link * (Q * Q * rect)) : Prop :=
  let '(k, (x, y, (x0, y0, x1, y1))) := l in
  exists d a0 b0 a1 b1, a = VDict d /\ assoc (lit "Type") d = Some (vname "Annot") /\ assoc (lit "Subtype") d = Some (vname "Link") /\
    assoc (lit "Rect") d = Some (VArr [a0; b0; a1; b1]) /\
    is_num (round3 (x + x0)%Q) a0 /\ is_num (round3 (y + y0)%Q) b0 /\ is_num (round3 (x + x1)%Q) a1 /\ is_num (round3 (y + y1)%Q) b1 /\
    match k with
    | LRef l => assoc (lit "Dest") d = Some (VStr l)
    | LUri u => exists id av, assoc (lit "A") d = Some (vref id) /\ value_at file id (VDict av) /\
        assoc (lit "Type") av = Some (vname "Action") /\ assoc (lit "S") av = Some (vname "URI") /\
        assoc (lit "URI") av = Some (VStr u)
    end.

(** Page object [id] of the file is page [i] of the history [h]. *)
Definition page_at (h : list (nat * event)) (i id : nat) (size : Q * Q) : Prop :=
  exists pv a b c cv bs, value_at file id (VDict pv) /\
    assoc (lit "MediaBox") pv = Some (VArr [VInt 0; VInt 0; a; b]) /\ is_num (fst size) a /\ is_num (snd size) b /\
    assoc (lit "Contents") pv = Some (vref c) /\ stream_at file c cv (flate (List.concat bs)) /\
    assoc (lit "Filter") cv = Some (vname "FlateDecode") /\
    assoc (lit "Length") cv = Some (VInt (Z.of_nat (List.length (flate (List.concat bs))))) /\
    Forall2 (drawn h pv) bs (shows (on i h)) /\
    Forall2 link_at (annotations pv) (links (on i h)).

(** The page has a name for each style of its texts, in its resources, and
    the font behind the name is the one of the style. *)
Definition fonts_at (reg : list (fkey * str)) (font_of : fkey -> option (str * nat)) (h : list (nat * event)) (i id : nat) : Prop :=
  forall styles t sty, In (EText styles t) (on i h) -> In sty styles ->
    exists pv r fid base f, value_at file id (VDict pv) /\ font_of (style_key sty) = Some (r, fid) /\
      resource (lit "Font") pv r = Some (vref fid) /\ wanted_base load_ttf reg (style_key sty) base f /\ font_at fid base f.

(** The destination of a place: page, left, top and zoom. *)
Definition place_at (ids : list nat) (sizes : list (Q * Q)) (pl : nat * (Q * Q * rect)) (v : pval) : Prop :=
  let '(i, (x, y, (a, b, c, d))) := pl in
  exists id w h x' y' z', nth_error ids i = Some id /\ nth_error sizes i = Some (w, h) /\
    v = VArr [vref id; vname "XYZ"; x'; y'; z'] /\
    is_num (round3 (x + a)%Q) x' /\ is_num (round3 (y + d)%Q) y' /\ is_num (round3 ((x + a) / w)%Q + 1)%Q z'.
End Spec.
