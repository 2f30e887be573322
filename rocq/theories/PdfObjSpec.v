(** Specification of what a document holds after a history of operations
    (C10-C13, C20-C22): the operations as events on pages, and how a reader
    sees a page in the objects. *)
From Verif Require Import Py PyStr PdfSyntax Parser StreamProofs Store PageTree NameTree OutlineTree Fonts PdfObj.
From Coq Require Import String QArith.
Open Scope N_scope.
Open Scope list_scope.

(** ** Events *)
Inductive link := LRef (l : str) | LUri (u : str).
Inductive event :=
| EPage (w h : Q)                         (* the page is created *)
| EText (styles : list style) (s : str)   (* a text stream in these styles *)
| EUse (st : style)                       (* a style the text uses *)
| EImage (n : str) (o : dict)             (* an image with this name and object is given *)
| EDraw (n : str) (w h x y : Q)           (* the image of this name is drawn *)
| ELabel (l : str) (x y : Q) (r : rect)
| ELink (k : link) (x y : Q) (r : rect)
| EOutline (level : Z) (title label : str).

Definition id_events (x y : Q) (k : idk) (rs : list rect) : list event :=
  match rs with
  | [] => []
  | d :: _ =>
      match k with
      | ILabel l => [ELabel l x y d]
      | IRef l => map (ELink (LRef l) x y) rs
      | IUri u => map (ELink (LUri u) x y) rs
      | IOutline level t l => [EOutline level t l]
      end
  end.
Definition text_events (t : text) : list event :=
  EText (tx_styles t) (tx_stream t) :: map EUse (tx_styles t)
  ++ flat_map (fun kr => id_events (tx_x t) (tx_y t) (fst kr) (snd kr)) (tx_ids t).

(** The events of a history, each with the page it is for: [cur] is the
    current page and [n] the number of pages. *)
Fixpoint events (cur : option nat) (n : nat) (ops : list op) : list (nat * event) :=
  let at_cur es := match cur with Some i => map (pair i) es | None => [] end in
  match ops with
  | [] => []
  | OpPage w h :: r => (n, EPage w h) :: events (Some n) (S n) r
  | OpSelect i :: r => events (Some i) n r
  | OpText t :: r => at_cur (text_events t) ++ events cur n r
  | OpImage nm o w h x y :: r => at_cur [EImage nm o; EDraw nm w h x y] ++ events cur n r
  | OpAddFont _ _ :: r => events cur n r
  end.
Definition history (ops : list op) : list (nat * event) := events None 0 ops.

(** ** Reading a history *)
Definition on (i : nat) (h : list (nat * event)) : list event :=
  map snd (filter (fun e => (fst e =? i)%nat) h).
Definition page_sizes (h : list (nat * event)) : list (Q * Q) :=
  flat_map (fun e => match snd e with EPage w h => [(w, h)] | _ => [] end) h.
(** What is shown, in order. *)
Definition shows (es : list event) : list event :=
  filter (fun e => match e with EText _ _ | EDraw _ _ _ _ _ => true | _ => false end) es.
Definition links (es : list event) : list (link * (Q * Q * rect)) :=
  flat_map (fun e => match e with ELink k x y r => [(k, (x, y, r))] | _ => [] end) es.
(** The object first given for an image name. *)
Definition first_image (n : str) (h : list (nat * event)) : option dict :=
  fold_left (fun acc e => match acc, snd e with
                          | None, EImage n' o => if str_eqb n n' then Some o else None
                          | _, _ => acc
                          end) h None.
(** The place a label was last put on. *)
Definition last_label (l : str) (h : list (nat * event)) : option (nat * (Q * Q * rect)) :=
  fold_left (fun acc e => match snd e with
                          | ELabel l' x y r => if str_eqb l l' then Some (fst e, (x, y, r)) else acc
                          | _ => acc
                          end) h None.
Definition outlines (h : list (nat * event)) : list (Z * (str * str)) :=
  flat_map (fun e => match snd e with EOutline lv t l => [(lv, (t, l))] | _ => [] end) h.

(** ** Fonts *)

(** The name of a variant: n, b, i or bi. *)
Definition variant (b i : bool) : str :=
  if b then if i then [98; 105] else [98] else if i then [105] else [110].
(** The font file key of a style: a standard family without the wanted
    variant uses the regular one. *)
Definition style_key (st : style) : fkey :=
  let '(fam, b, i) := st in
  match dget fam standard_fonts with
  | Some modes => (fam, if dmem (variant b i) modes then variant b i else lit "n")
  | None => (fam, variant b i)
  end.
(** The base font name meant by a key, and the font file if it is not one of
    the standard fonts. *)
Definition wanted_base (load_ttf : str -> res ttf) (reg : list (fkey * str)) (k : fkey) (base : str)
    (file : option ttf) : Prop :=
  match dget (fst k) standard_fonts with
  | Some modes => file = None /\ exists w, dget (snd k) modes = Some (base, w)
  | None => exists path t, kget k reg = Some path /\ load_ttf path = Ok t /\ base = tt_base t /\ file = Some t
  end.

(** The words of a text: what is left between white space. *)
Fixpoint split_words (cur : str) (s : str) : list str :=
  match s with
  | [] => match cur with [] => [] | _ => [rev cur] end
  | c :: r =>
      if (c =? 32) || (c =? 10) then match cur with [] => split_words [] r | _ => rev cur :: split_words [] r end
      else split_words (c :: cur) r
  end.
Definition words (s : str) : list str := split_words [] s.
(** A ToUnicode CMap (PDF 32000, 9.10.3): the words of the frame given
    there, and between them an entry for each character of [m], which says
    that the code of its glyph stands for it. *)
Definition cmap_frame (n : nat) (entries : list str) : list str :=
  map lit ["/CIDInit"; "/ProcSet"; "findresource"; "begin"; "12"; "dict"; "begin"; "begincmap";
           "/CIDSystemInfo"; "<</Registry"; "(Adobe)"; "/Ordering"; "(UCS)"; "/Supplement"; "0"; ">>"; "def";
           "/CMapName"; "/Adobe-Identity-UCS"; "def"; "/CMapType"; "2"; "def";
           "1"; "begincodespacerange"; "<0000>"; "<FFFF>"; "endcodespacerange"]%string
  ++ dec (N.of_nat n) :: lit "beginbfchar" :: flat_map words entries
  ++ map lit ["endbfchar"; "endcmap"; "CMapName"; "currentdict"; "/CMap"; "defineresource"; "pop"; "end"; "end"]%string.
Definition unicode_map (text : str) (m : list (N * N)) : Prop :=
  exists entries, words text = cmap_frame (List.length m) entries /\ List.length entries = List.length m /\
    ((forall c g, In (c, g) m -> bmp c = true /\ g < 65536) ->
     map read_bfchar entries = map (fun cg => Some (snd cg, [fst cg])) m).

(** What a reader needs to know of a font (PDF 32000, 9.6 and 9.7), in the
    dictionary [d] and the objects it refers to; [at_ id e] says that object
    [id] is [e]. *)
Definition described (num : Q -> obj) (descr : ttf -> dict) (file_of : ttf -> bytes)
    (at_ : nat -> dict -> Prop) (d : dict) (base : str) (file : option ttf) : Prop :=
  dget (lit "__stream__") d = None /\
  dget (lit "Type") d = Some (name "/Font") /\ dget (lit "BaseFont") d = Some (OBytes (lit "/" ++ base)) /\
  match file with
  | None => dget (lit "Subtype") d = Some (name "/Type1") /\
            dget (lit "Encoding") d = Some (name "/WinAnsiEncoding")
  | Some t =>
      dget (lit "Subtype") d = Some (name "/Type0") /\ dget (lit "Encoding") d = Some (name "/Identity-H") /\
      exists cid cd fid fd eid ed uid ud text,
        (* the glyphs, with their widths *)
        dget (lit "DescendantFonts") d = Some (OSeq [oref cid]) /\ at_ cid cd /\ dget (lit "__stream__") cd = None /\
        dget (lit "Type") cd = Some (name "/Font") /\ dget (lit "Subtype") cd = Some (name "/CIDFontType2") /\
        dget (lit "BaseFont") cd = Some (OBytes (lit "/" ++ base)) /\
        dget (lit "CIDToGIDMap") cd = Some (name "/Identity") /\
        dget (lit "CIDSystemInfo") cd = Some (ODict [(lit "Registry", OStr (lit "Adobe"));
          (lit "Ordering", OStr (lit "Identity")); (lit "Supplement", OInt 0)]) /\
        dget (lit "W") cd = Some (OSeq (map (fun i => match i with
          | WStart g => OInt (Z.of_N g) | WGroup ws => OSeq (map num ws) end) (compute_char_widths t))) /\
        (* the descriptor of the font file, with the file *)
        dget (lit "FontDescriptor") cd = Some (oref fid) /\ at_ fid fd /\
        (forall k, k <> lit "FontFile2" -> dget k fd = dget k (descr t)) /\
        dget (lit "FontFile2") fd = Some (oref eid) /\ at_ eid ed /\ NoDup (keys ed) /\ dget (lit "__skip_filter__") ed = None /\
        dget (lit "__stream__") ed = Some (OBytes (file_of t)) /\ dget (lit "Filter") ed = Some (name "/FlateDecode") /\
        dget (lit "Length1") ed = Some (OInt (Z.of_nat (List.length (file_of t)))) /\
        (* the characters of the glyphs *)
        dget (lit "ToUnicode") d = Some (oref uid) /\ at_ uid ud /\ NoDup (keys ud) /\ dget (lit "__skip_filter__") ud = None /\
        dget (lit "__stream__") ud = Some (OBytes text) /\ dget (lit "Filter") ud = Some (name "/FlateDecode") /\
        unicode_map text (tt_cmap t)
  end.

(** ** Reading a page *)
Definition pdict (s : pdf) (pg : ppage) : dict :=
  match sget (d_st s) (pp_id pg) with Some d => d | None => [] end.
Definition page_get {A} (s : pdf) (i : nat) (f : ppage -> list A) : list A :=
  match nth_error (d_pages s) i with Some pg => f pg | None => [] end.
Definition fonts_of (s : pdf) (i : nat) : dict := page_get s i (fun pg => res_of (lit "Font") (pdict s pg)).
Definition xobjs_of (s : pdf) (i : nat) : dict := page_get s i (fun pg => res_of (lit "XObject") (pdict s pg)).
Definition annots (d : dict) : list obj :=
  match dget (lit "Annots") d with Some (OSeq l) => l | _ => [] end.
Definition annots_of (s : pdf) (i : nat) : list obj := page_get s i (fun pg => annots (pdict s pg)).
Definition parts_of (s : pdf) (i : nat) : list part := page_get s i pp_parts.
