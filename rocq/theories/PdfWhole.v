(** Model of the writing of a whole document: pdfme/page.py 71-91 (portions
    of the stream of a page), pdfme/pdf.py 171-173 (the trailer) and
    1058-1072 (output). *)
From Coq Require Import String QArith.
From Verif Require Import Py PyStr PdfSyntax Parser StreamProofs Base Store PageTree NameTree OutlineTree Fonts PdfObj.
Open Scope N_scope.
Open Scope list_scope.

Section Whole.
(** ['{}'.format(round(q, 3))]. *)
Variable txt : Q -> str.

(** page.py 71-91 [add] for a text, page.py 181-188 for an image. *)
Definition portion (p : part) : res bytes :=
  encode_latin
    match p with
    | PText _ stream => stream
    | PImage nm w h x y =>
        lit " q " ++ txt w ++ lit " 0 0 " ++ txt h ++ lit " " ++ txt x ++ lit " " ++ txt y ++ lit " cm /"
        ++ nm ++ lit " Do Q"
    end.
(** The portions with their ids [current_id], from [i] on. *)
Fixpoint portions (i : nat) (ps : list part) : res dict :=
  match ps with
  | [] => Ok []
  | p :: r => do b <- portion p; do l <- portions (S i) r; Ok ((dec (N.of_nat i), OBytes b) :: l)
  end.
(** Put the portions of the pages into their streams.  Simplification: the
    code does this one by one when they are added (page.py 88-90), so that
    text which is not latin-1 raises there and not here. *)
Fixpoint fill (pgs : list ppage) (st : store) : res store :=
  match pgs with
  | [] => Ok st
  | pg :: r => do l <- portions 0 (pp_parts pg); fill r (sset st (pp_stream pg) (lit "__stream__") (ODict l))
  end.

(** pdf.py 171-173: the catalog is the first object. *)
Definition doc_trailer : dict := [(lit "Root", oref 1)].
(** pdf.py 1058-1072: [st] are the objects once the trees are built. *)
Definition write_doc (flate : bytes -> bytes) (u1 u2 : bytes) (version : str) (s : pdf) (st : store) : bytes * res unit :=
  match fill (d_pages s) st with
  | Err e => ([], Err e)
  | Ok st' => fst (base_output flate u1 u2 (st_base version doc_trailer st'))
  end.
End Whole.
