(** Model of the document object: pdfme/pdf.py 146-181 (creation), 243-281
    (pages), 309-424 (fonts and images), 579-643 (paragraphs), 1058-1072
    (output), pdfme/page.py 25-191 and pdfme/fonts.py 178-191, 337-378
    (font objects). *)
From Verif Require Import Py PyStr PdfSyntax Parser StreamProofs Store PageTree NameTree OutlineTree Fonts.
From Coq Require Import String QArith.
Open Scope N_scope.
Open Scope list_scope.

(** What is added to the stream of a page.  Simplification: the portions stay
    structured, with the resource names they mention, and the dictionary held
    in the store keeps an empty stream. *)
Inductive part :=
| PText (refs : list str) (stream : str)
| PImage (nm : str) (w h x y : Q).

(** page.py 25-46: a page; the cursor is in [PageGeom]. *)
Record ppage := mkPP {
  pp_id : nat; pp_stream : nat; pp_w : Q; pp_h : Q;
  pp_xobjs : list (nat * str); pp_parts : list part }.

Record pdf := mkPdf {
  d_st : store; d_pages : list ppage; d_cur : option nat;
  d_fs : fonts_st; d_proc : process;
  d_used : list (fkey * (str * nat));
  d_images : list (str * nat); d_uris : list (str * nat);
  d_dests : dict; d_outl : list otree }.

Definition with_st (s : pdf) (st : store) : pdf :=
  mkPdf st (d_pages s) (d_cur s) (d_fs s) (d_proc s) (d_used s) (d_images s) (d_uris s) (d_dests s) (d_outl s).
Definition with_pages (s : pdf) (ps : list ppage) (cur : option nat) : pdf :=
  mkPdf (d_st s) ps cur (d_fs s) (d_proc s) (d_used s) (d_images s) (d_uris s) (d_dests s) (d_outl s).
Definition with_fonts (s : pdf) (fs : fonts_st) (p : process) : pdf :=
  mkPdf (d_st s) (d_pages s) (d_cur s) fs p (d_used s) (d_images s) (d_uris s) (d_dests s) (d_outl s).
Definition with_used (s : pdf) (u : list (fkey * (str * nat))) : pdf :=
  mkPdf (d_st s) (d_pages s) (d_cur s) (d_fs s) (d_proc s) u (d_images s) (d_uris s) (d_dests s) (d_outl s).
Definition with_images (s : pdf) (im : list (str * nat)) : pdf :=
  mkPdf (d_st s) (d_pages s) (d_cur s) (d_fs s) (d_proc s) (d_used s) im (d_uris s) (d_dests s) (d_outl s).
Definition with_uris (s : pdf) (u : list (str * nat)) : pdf :=
  mkPdf (d_st s) (d_pages s) (d_cur s) (d_fs s) (d_proc s) (d_used s) (d_images s) u (d_dests s) (d_outl s).
Definition with_dests (s : pdf) (d : dict) : pdf :=
  mkPdf (d_st s) (d_pages s) (d_cur s) (d_fs s) (d_proc s) (d_used s) (d_images s) (d_uris s) d (d_outl s).
Definition with_outl (s : pdf) (o : list otree) : pdf :=
  mkPdf (d_st s) (d_pages s) (d_cur s) (d_fs s) (d_proc s) (d_used s) (d_images s) (d_uris s) (d_dests s) o.

(** Ids of a paragraph with their rectangles (text.py 841-917); the string
    prefixes of pdf.py 598-633 are constructors here; Links.v has the
    strings. *)
Definition rect := (Q * Q * Q * Q)%type.
Inductive idk :=
| ILabel (l : str) | IRef (l : str) | IUri (u : str) | IOutline (level : Z) (title label : str).
Definition style := (str * bool * bool)%type.
(** A finished paragraph: where, in which styles, with which ids. *)
Record text := mkText {
  tx_x : Q; tx_y : Q; tx_stream : str; tx_styles : list style; tx_ids : list (idk * list rect) }.

Section Doc.
(** The font loader, the number format and rounding to three digits. *)
Variable load_ttf : str -> res ttf.
Variable num : Q -> obj.
Variable round3 : Q -> Q.
(** What else fontTools gives: the descriptor (fonts.py 256-326) and the file. *)
Variable tt_descr : ttf -> dict.
Variable tt_file : ttf -> bytes.

(** fonts.py 52-71. *)
Definition cmap_text (m : list (N * N)) : str :=
  lit "/CIDInit /ProcSet findresource begin
        12 dict begin
        begincmap
        /CIDSystemInfo
         <</Registry (Adobe)
           /Ordering (UCS)
           /Supplement 0
        >> def
        /CMapName /Adobe-Identity-UCS def
        /CMapType 2 def
        1 begincodespacerange
        <0000> <FFFF>
        endcodespacerange
        " ++ dec (N.of_nat (List.length m)) ++ lit " beginbfchar
        " ++ join 10 (cmap_lines m) ++ lit "
        endbfchar
        endcmap
        CMapName currentdict /CMap defineresource pop
        end
        end".
Definition w_obj (i : witem) : obj :=
  match i with WStart g => OInt (Z.of_N g) | WGroup ws => OSeq (map num ws) end.

(** fonts.py 178-191. *)
Definition std_font_obj (base : str) : dict :=
  [(lit "Type", name "/Font"); (lit "Subtype", name "/Type1"); (lit "BaseFont", OBytes (lit "/" ++ base));
   (lit "Encoding", name "/WinAnsiEncoding")].
Definition type0_obj (base : str) (cid uni : nat) : dict :=
  [(lit "Type", name "/Font"); (lit "Subtype", name "/Type0"); (lit "BaseFont", OBytes (lit "/" ++ base));
   (lit "Encoding", name "/Identity-H"); (lit "DescendantFonts", OSeq [oref cid]); (lit "ToUnicode", oref uni)].
(** The objects of a font, the font itself last: fonts.py 178-191, 337-378. *)
Definition font_objs (st : store) (f : font) : list dict :=
  let n := List.length st in
  match f_kind f with
  | FStd _ => [std_font_obj (f_base f)]
  | FTT t =>
      [[(lit "Filter", name "/FlateDecode"); (lit "__stream__", OBytes (tt_file t));
        (lit "Length1", OInt (Z.of_nat (List.length (tt_file t))))];
       dset (lit "FontFile2") (oref (n + 1)) (tt_descr t);
       [(lit "Type", name "/Font"); (lit "FontDescriptor", oref (n + 2)); (lit "BaseFont", OBytes (lit "/" ++ f_base f));
        (lit "Subtype", name "/CIDFontType2"); (lit "CIDToGIDMap", name "/Identity");
        (lit "CIDSystemInfo", ODict [(lit "Registry", OStr (lit "Adobe")); (lit "Ordering", OStr (lit "Identity"));
                                     (lit "Supplement", OInt 0)]);
        (lit "W", OSeq (map w_obj (compute_char_widths t)))];
       [(lit "Filter", name "/FlateDecode"); (lit "__stream__", OBytes (cmap_text (tt_cmap t)))];
       type0_obj (f_base f) (n + 3) (n + 4)]
  end.

(** pdf.py 323-345 [_add_or_get_font]. *)
Definition add_or_get_font (k : fkey) (s : pdf) : res ((str * nat) * pdf) :=
  match kget k (d_used s) with
  | Some v => Ok (v, s)
  | None =>
      do (f, fs, p) <- get_font load_ttf k (d_fs s) (d_proc s);
      let st := d_st s ++ font_objs (d_st s) f in
      let v := (f_ref f, List.length st) in
      Ok (v, with_used (with_st (with_fonts s fs p) st) (kset k v (d_used s)))
  end.

(** The current page: pdf.py 183-200. *)
Definition cur_page (s : pdf) : res ppage :=
  match d_cur s with
  | None => Err AttributeError
  | Some i => match nth_error (d_pages s) i with Some p => Ok p | None => Err IndexError end
  end.

(** [page['Resources'].setdefault(sub, {})]. Values that are not dictionaries
    do not occur. *)
Definition res_default (sub : str) (d : dict) : dict :=
  match dget (lit "Resources") d with
  | Some (ODict r) => if dmem sub r then d else dset (lit "Resources") (ODict (dset sub (ODict []) r)) d
  | _ => d
  end.
(** [page['Resources'][sub]]. *)
Definition res_of (sub : str) (d : dict) : dict :=
  match dget (lit "Resources") d with
  | Some (ODict r) => match dget sub r with Some (ODict m) => m | _ => [] end
  | _ => []
  end.
(** [page['Resources'][sub][k] = v]. *)
Definition res_set (sub k : str) (v : obj) (d : dict) : dict :=
  match dget (lit "Resources") d with
  | Some (ODict r) => dset (lit "Resources") (ODict (dset sub (ODict (dset k v (res_of sub d))) r)) d
  | _ => d
  end.

(** pdf.py 347-358 [_used_font], page.py 93-106 [add_font]. *)
Definition used_font (k : fkey) (s : pdf) : res pdf :=
  do (v, s1) <- add_or_get_font k s;
  do pg <- cur_page s1;
  Ok (with_st s1 (supd (d_st s1) (pp_id pg)
        (fun d => res_set (lit "Font") (fst v) (oref (snd v)) (res_default (lit "Font") d)))).

(** page.py 108-130 [add_annot]. *)
Definition add_annot (extra : dict) (r : obj) (d : dict) : dict :=
  let d1 := if dmem (lit "Annots") d then d else dset (lit "Annots") (OSeq []) d in
  let a := dset (lit "Rect") r
             (fold_left (fun a kv => dset (fst kv) (snd kv) a) extra
                [(lit "Type", name "/Annot"); (lit "Subtype", name "/Link")]) in
  dappend (lit "Annots") (ODict a) d1.
Definition page_annot (extra : dict) (r : obj) (s : pdf) : res pdf :=
  do pg <- cur_page s;
  Ok (with_st s (supd (d_st s) (pp_id pg) (add_annot extra r))).

(** pdf.py 608-611, 621-624. *)
Definition rect_obj (x y : Q) (r : rect) : obj :=
  let '(a, b, c, d) := r in
  OSeq [num (round3 (x + a)); num (round3 (y + b)); num (round3 (x + c)); num (round3 (y + d))].
(** pdf.py 599-604. *)
Definition dest_obj (pg : ppage) (x y : Q) (r : rect) : obj :=
  let '(a, b, c, d) := r in
  OSeq [oref (pp_id pg); name "/XYZ"; num (round3 (x + a)); num (round3 (y + d));
        num (round3 ((x + a) / pp_w pg) + 1)%Q].

Fixpoint each_rect (f : rect -> pdf -> res pdf) (rs : list rect) (s : pdf) : res pdf :=
  match rs with [] => Ok s | r :: rest => do s1 <- f r s; each_rect f rest s1 end.

(** pdf.py 613-618. *)
Definition get_uri (u : str) (s : pdf) : nat * pdf :=
  match dget u (d_uris s) with
  | Some id => (id, s)
  | None =>
      let id := S (List.length (d_st s)) in
      (id, with_uris (with_st s (d_st s ++ [[(lit "Type", name "/Action"); (lit "S", name "/URI"); (lit "URI", OStr u)]]))
             (dset u id (d_uris s)))
  end.

(** pdf.py 595-633: one id. *)
Definition text_id (x y : Q) (k : idk) (rects : list rect) (s : pdf) : res pdf :=
  match rects with
  | [] => Ok s
  | d :: _ =>
      match k with
      | ILabel l =>
          do pg <- cur_page s;
          Ok (with_dests s (dset l (dest_obj pg x y d) (d_dests s)))
      | IRef l => each_rect (fun r => page_annot [(lit "Dest", OStr l)] (rect_obj x y r)) rects s
      | IUri u =>
          let '(id, s1) := get_uri u s in
          each_rect (fun r => page_annot [(lit "A", oref id); (lit "H", name "/N")] (rect_obj x y r)) rects s1
      | IOutline level title label =>
          do o <- add_outline level title label (d_outl s);
          Ok (with_outl s o)
      end
  end.
Fixpoint text_ids (x y : Q) (ids : list (idk * list rect)) (s : pdf) : res pdf :=
  match ids with [] => Ok s | (k, rs) :: r => do s1 <- text_id x y k rs s; text_ids x y r s1 end.

(** The fonts of the styles, when the paragraph is laid out (text.py 23-38):
    keys, resource names and the new state. *)
Fixpoint layout (styles : list style) (s : pdf) : res (list (fkey * str) * pdf) :=
  match styles with
  | [] => Ok ([], s)
  | (fam, b, i) :: r =>
      do mode <- state_mode (d_fs s) fam b i;
      do (f, fs, p) <- get_font load_ttf (fam, mode) (d_fs s) (d_proc s);
      do (l, s1) <- layout r (with_fonts s fs p);
      Ok (((fam, mode), f_ref f) :: l, s1)
  end.
Fixpoint used_fonts (ks : list fkey) (s : pdf) : res pdf :=
  match ks with [] => Ok s | k :: r => do s1 <- used_font k s; used_fonts r s1 end.

Definition add_part (pt : part) (s : pdf) : res pdf :=
  match d_cur s with
  | None => Err AttributeError
  | Some i =>
      match nth_error (d_pages s) i with
      | None => Err IndexError
      | Some _ =>
          Ok (with_pages s (upd_nth i (fun pg => mkPP (pp_id pg) (pp_stream pg) (pp_w pg) (pp_h pg) (pp_xobjs pg)
                                                  (pp_parts pg ++ [pt])) (d_pages s)) (d_cur s))
      end
  end.

(** pdf.py 579-643 [_add_text] after the layout. [used_fonts] is a set in the
    code: here it is the list of the styles met. *)
Definition add_text (t : text) (s : pdf) : res pdf :=
  do (l, s1) <- layout (tx_styles t) s;
  do s2 <- add_part (PText (map snd l) (tx_stream t)) s1;
  do s3 <- used_fonts (map fst l) s2;
  text_ids (tx_x t) (tx_y t) (tx_ids t) s3.

(** pdf.py 372-404, page.py 159-188: the object, then the drawing.  The
    geometry of the image is an argument here. *)
Definition get_image (n : str) (o : dict) (s : pdf) : nat * pdf :=
  match dget n (d_images s) with
  | Some id => (id, s)
  | None =>
      let id := S (List.length (d_st s)) in
      (id, with_images (with_st s (d_st s ++ [o])) (dset n id (d_images s)))
  end.
Fixpoint xget (id : nat) (l : list (nat * str)) : option str :=
  match l with [] => None | (k, v) :: r => if (id =? k)%nat then Some v else xget id r end.
Definition page_image (id : nat) (w h x y : Q) (s : pdf) : res pdf :=
  match d_cur s with
  | None => Err AttributeError
  | Some i =>
      match nth_error (d_pages s) i with
      | None => Err IndexError
      | Some pg =>
          let st1 := supd (d_st s) (pp_id pg) (res_default (lit "XObject")) in
          match sget st1 (pp_id pg) with
          | None => Err KeyError
          | Some d =>
              let '(nm, st2, xs) :=
                match xget id (pp_xobjs pg) with
                | Some nm => (nm, st1, pp_xobjs pg)
                | None =>
                    let nm := lit "Im" ++ dec (N.of_nat (List.length (res_of (lit "XObject") d))) in
                    (nm, supd st1 (pp_id pg) (res_set (lit "XObject") nm (oref id)), pp_xobjs pg ++ [(id, nm)])
                end in
              Ok (with_pages (with_st s st2)
                    (upd_nth i (fun pg => mkPP (pp_id pg) (pp_stream pg) (pp_w pg) (pp_h pg) xs
                                            (pp_parts pg ++ [PImage nm w h x y])) (d_pages s)) (d_cur s))
          end
      end
  end.
Definition add_image (n : str) (o : dict) (w h x y : Q) (s : pdf) : res pdf :=
  let '(id, s1) := get_image n o s in page_image id w h x y s1.

(** pdf.py 243-281 with page.py 25-46. *)
Definition add_page (w h : Q) (s : pdf) : res pdf :=
  let n := List.length (d_st s) in
  let st := d_st s ++ [[(lit "Filter", name "/FlateDecode"); (lit "__stream__", ODict [])]]
                   ++ [[(lit "Type", name "/Page"); (lit "Contents", oref (S n)); (lit "Resources", ODict [])]] in
  Ok (with_pages (with_st s st) (d_pages s ++ [mkPP (S (S n)) (S n) w h [] []]) (Some (List.length (d_pages s)))).

(** What a user of a document does. *)
Inductive op :=
| OpPage (w h : Q)
| OpSelect (i : nat)
| OpText (t : text)
| OpImage (n : str) (o : dict) (w h x y : Q)
| OpAddFont (path : str) (k : fkey).
Definition step (o : op) (s : pdf) : res pdf :=
  match o with
  | OpPage w h => add_page w h s
  | OpSelect i => Ok (with_pages s (d_pages s) (Some i))
  | OpText t => add_text t s
  | OpImage n o w h x y => add_image n o w h x y s
  | OpAddFont path k => do fs <- load_font load_ttf path k (d_fs s); Ok (with_fonts s fs (d_proc s))
  end.
Fixpoint run (ops : list op) (s : pdf) : res pdf :=
  match ops with [] => Ok s | o :: r => do s1 <- step o s; run r s1 end.

(** pdf.py 146-181. *)
Definition catalog : dict := [(lit "Type", name "/Catalog")].
Definition new_pdf (p : process) : res pdf :=
  do (_, s) <- add_or_get_font (lit "Helvetica", lit "n") (mkPdf [catalog] [] None init_fonts p [] [] [] [] []);
  Ok s.

(** pdf.py 1058-1072 up to the call of [PDFBase.output]. *)
Definition output_objects (level : Z) (s : pdf) : res store :=
  match d_pages s with
  | [] => Err PyException
  | _ =>
      do st1 <- build_pages 1 (d_st s) 1 (map (fun p => (pp_id p, Some (num (pp_w p), num (pp_h p)))) (d_pages s));
      do st2 <- build_dests st1 1 (d_dests s);
      Ok (build_outlines st2 1 (d_outl s) level)
  end.
End Doc.
