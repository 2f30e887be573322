(** Model of footnotes: pdfme/document.py 200-241 (marks get their names) and
    362-482 (the footnotes of a page).

    The document is a tree: an object that is in two places is not modelled
    here.  The marks are the ids of the paragraphs (text.py 905-911) that begin
    with "$footnote:"; what a mark shows is the value that its name has in the
    context when its paragraph is run (text.py 675-676), so the paragraphs are
    run with a context. *)
From Coq Require Import String QArith ZArith Lia.
From Verif Require Import Py PyStr Parser Base Table Content.
Open Scope list_scope.
Open Scope nat_scope.

(** Values of a document: texts, other scalars (with their [str()]), lists,
    tuples and dicts. *)
Inductive node := NText (s : str) | NOther (shown : str) | NList (l : list node) | NTuple (l : list node) | NDict (d : list (str * node)).

(** document.py 217 [name]. *)
Definition mark : str := lit "$footnote:".
Definition name_of (k : nat) : str := mark ++ dec_Z (Z.of_nat k).

(** document.py 223-228: the footnote as a paragraph dict. *)
Definition wrap (f : node) : node :=
  match f with
  | NDict _ => f
  | NText _ | NList _ | NTuple _ => NDict [(lit ".", f)]
  | NOther s => NDict [(lit ".", NText s)]
  end.
(** document.py 216-221: what is set in the dict of a mark. *)
Definition set_mark (name : str) (d : list (str * node)) : res (list (str * node)) :=
  let d1 := match dget (lit "ids") d with Some _ => d | None => dset (lit "ids") (NList []) d end in
  match dget (lit "ids") d1 with
  | Some (NList l) =>
      Ok (dset (lit "var") (NText name) (dset (lit "style") (NText (lit "$footnote")) (dset (lit "ids") (NList (l ++ [NText name])) d1)))
  | _ => Err AttributeError
  end.
(** document.py 200-241 [_traverse_document_footnotes]: the changed element and
    the footnotes. *)
Fixpoint traverse (fn : list node) (n : node) {struct n} : res (node * list node) :=
  let all := fix all (fn : list node) (l : list node) {struct l} : res (list node * list node) :=
    match l with
    | [] => Ok ([], fn)
    | x :: r => do a <- traverse fn x; do b <- all (snd a) r; Ok (fst a :: fst b, snd b)
    end in
  let vals := fix vals (fn : list node) (d : list (str * node)) {struct d} : res (list (str * node) * list node) :=
    match d with
    | [] => Ok ([], fn)
    | (k, x) :: r => do a <- traverse fn x; do b <- vals (snd a) r; Ok ((k, fst a) :: fst b, snd b)
    end in
  match n with
  | NText _ | NOther _ => Ok (n, fn)
  | NList l => do a <- all fn l; Ok (NList (fst a), snd a)
  | NTuple l => do a <- all fn l; Ok (NTuple (fst a), snd a)
  | NDict d =>
      match dget (lit "footnote") d with
      | Some f => do d' <- set_mark (name_of (List.length fn)) d; Ok (NDict d', fn ++ [wrap f])
      | None => do a <- vals fn d; Ok (NDict (fst a), snd a)
      end
  end.

(** [text.startswith(p)]. *)
Fixpoint starts (p s : str) : bool :=
  match p, s with
  | [], _ => true
  | a :: p, b :: s => N.eqb a b && starts p s
  | _ :: _, [] => false
  end.
(** The context: the values of the names, as they are shown. *)
Definition ctx := list (str * str).

Section Page.
(** [T]: the footnotes. *)
Context {E O S P L T : Type}.
Variable start : E -> res O.
Variable crun : ctx -> O -> Q -> Q -> Q -> Q -> res (O * Q * bool * list P * list L).
Variable save : O -> S.
Variable restore : O -> S -> O.
(** The ids of a part and the number of rectangles of each (none for a part
    that is not a paragraph). *)
Variable ids_of : P -> list (str * nat).
(** document.py 449-462: the height of the footnotes, numbered. *)
Variable notes_height : list (str * T) -> res Q.
Notation content := (@content E O S).

Variable fn : list T.

(** document.py 410-425 [_check_footnote], one id. *)
Definition check_id (c : ctx) (acc : list T) (id : str * nat) : res (ctx * list T) :=
  let '(id, rects) := id in
  if (rects =? 0) then Ok (c, acc)
  else if starts mark id then
    do z <- py_int (skipn 10 id);
    match py_index (List.length fn) z with
    | Some i => match nth_error fn i with
                | Some t => Ok (dset id (dec_Z (Z.of_nat (List.length acc + 1))) c, acc ++ [t])
                | None => Err IndexError
                end
    | None => Err IndexError
    end
  else Ok (c, acc).
Fixpoint check_ids (c : ctx) (acc : list T) (l : list (str * nat)) : res (ctx * list T) :=
  match l with [] => Ok (c, acc) | id :: r => do a <- check_id c acc id; check_ids (fst a) (snd a) r end.
(** document.py 427-437 [_check_footnotes]: the ids of all the paragraphs. *)
Definition page_ids (o : @output O P L) : list (str * nat) :=
  flat_map (fun p => match p with PlLeaf _ _ _ _ _ _ _ _ _ ps => flat_map ids_of ps | PlImage _ _ _ _ _ _ _ => [] end) (o_parts o).

(** document.py 449-455: the numbers of the footnotes of the page. *)
Fixpoint numbered (k : nat) (l : list T) : list (str * T) :=
  match l with [] => [] | t :: r => (dec_Z (Z.of_nat (Datatypes.S k)) ++ lit " ", t) :: numbered (Datatypes.S k) r end.

(** What is on a page: the parts, the context they were run with, and the
    footnotes with their numbers. *)
Record shownp := mkShown { sh_out : @output O P L; sh_ctx : ctx; sh_notes : list (str * T) }.

(** document.py 362-408 [_add_content], of a page with the contents in the
    rectangle (x, y, w, h). *)
Definition add_content (fuel : nat) (x y w h : Q) (k : ctx) (c : content) : ans (content * ctx * shownp) :=
  run! st <- (match c_part c with None => Done (0, [], []) | Some _ => get_state c end);
  run! (c1, out1) <- run start (crun k) save restore fuel x y w h c;
  run! (k1, notes1) <- lift (check_ids k [] (page_ids out1));
  match notes1 with
  | [] => Done (c1, k1, mkShown out1 k [])
  | _ =>
      run! fh <- lift (notes_height (numbered 0 notes1));
      if Qle_bool (h - 10 - 20) fh then Raise PyException
      else
        run! c2 <- set_state st c1;
        let c2' := mkC (c_elems c2) (c_cols c2) (c_gap c2) (c_part c2) false (c_heap c2) (c_tries c2) in
        run! (c3, out3) <- run start (crun k1) save restore fuel x y w (h - fh - 10) c2';
        run! (k3, notes3) <- lift (check_ids k1 [] (page_ids out3));
        match notes3 with
        | [] => Done (c3, k3, mkShown out3 k1 [])
        | _ => run! _ <- lift (notes_height (numbered 0 notes3)); Done (c3, k3, mkShown out3 k1 (numbered 0 notes3))
        end
  end.
End Page.
