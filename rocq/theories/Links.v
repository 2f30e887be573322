(** Model of how the ids of a paragraph become links, labels and outlines:
    pdfme/text.py 905-914 and pdfme/pdf.py 592-637. *)
From Coq Require Import String QArith.
From Verif Require Import Py Parser.
From Verif Require TextLayout PdfObj.
Open Scope N_scope.
Open Scope list_scope.

(** text.py 597, 905-914: [self.ids.setdefault(id_, []).append(...)] for each
    rectangle; [e_ids] has the rectangles in the order of these calls. *)
Definition ids_dict (l : list (str * TextLayout.trect)) : list (str * list PdfObj.rect) :=
  fold_left (fun g ir => dset (fst ir) (match dget (fst ir) g with Some rs => rs | None => [] end ++ [snd ir]) g) l [].

Section Ids.
(** [json.loads] of an outline: its level, title and label. *)
Variable loads : str -> res (Z * str * str).

Definition startswith (p s : str) : bool := str_eqb (firstn (List.length p) s) p.
(** pdf.py 594-633: what an id stands for, by its prefix; other ids have no
    effect. *)
Definition id_kind (id : str) : res (option PdfObj.idk) :=
  if startswith (lit "$label:") id then Ok (Some (PdfObj.ILabel (skipn 7 id)))
  else if startswith (lit "$ref:") id then Ok (Some (PdfObj.IRef (skipn 5 id)))
  else if startswith (lit "$uri:") id then Ok (Some (PdfObj.IUri (skipn 5 id)))
  else if startswith (lit "$outline:") id then do (lt, l) <- loads (skipn 9 id); Ok (Some (PdfObj.IOutline (fst lt) (snd lt) l))
  else Ok None.
Fixpoint id_kinds (g : list (str * list PdfObj.rect)) : res (list (PdfObj.idk * list PdfObj.rect)) :=
  match g with
  | [] => Ok []
  | (id, rs) :: r =>
      do k <- id_kind id;
      do ks <- id_kinds r;
      Ok (match k with Some k => [(k, rs)] | None => [] end ++ ks)
  end.
(** pdf.py 579-643 [_add_text] for the paragraph [d] at [x], [y]: the ids of
    its text.  In the code the ids before one whose JSON cannot be read have
    had their effect; here nothing is done. *)
Definition paragraph_ids (d : TextLayout.dyn) : res (list (PdfObj.idk * list PdfObj.rect)) :=
  id_kinds (ids_dict (TextLayout.e_ids (TextLayout.d_em d))).
End Ids.
