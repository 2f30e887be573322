(** Model of content boxes: pdfme/content.py ([PDFContent], [PDFContentPart]).

    Paragraphs and tables are given by functions: [start] builds the object of
    an element, [crun] runs it in a rectangle, [save] and [restore] are its
    [get_state] and [set_state].  Objects live in a heap, because they are
    shared by the copies of the dicts that hold them (utils.py 363-379 copies
    dicts and lists only).  Styles are given merged (content.py 1075-1084 merges
    those of the ancestors), numbers are exact.  The loops have fuel: [Out] is
    what is left when there is none. *)
From Coq Require Import QArith ZArith Lia.
From Verif Require Import Py Table.
Open Scope list_scope.
Open Scope nat_scope.

Inductive ans (A : Type) := Done (a : A) | Raise (e : exn) | Out.
Arguments Done {A}. Arguments Raise {A}. Arguments Out {A}.
Definition abind {A B} (a : ans A) (f : A -> ans B) : ans B := match a with Done x => f x | Raise e => Raise e | Out => Out end.
Definition lift {A} (r : res A) : ans A := match r with Ok x => Done x | Err e => Raise e end.
Notation "'run!' x <- e ; f" := (abind e (fun x => f)) (at level 61, x pattern, right associativity).

Section Content.
(** Elements, their objects, saved states, what they draw, lines and fills. *)
Context {E O S P L : Type}.
Variable start : E -> res O.
Variable crun : O -> Q -> Q -> Q -> Q -> res (O * Q * bool * list P * list L).
Variable save : O -> S.
Variable restore : O -> S -> O.

(** The style that is used of an element. *)
Inductive place := PNormal | PFlow | POther.
Record style := mkStyle { s_mt : Q; s_ml : Q; s_mr : Q; s_mb : Q; s_min : option Q; s_shrink : bool; s_place : place }.
(** Elements: a paragraph or a table; an image with its size in pixels; a
    content box with a number of columns and a gap; a group of the first two.
    The numbers of images and groups say where their [tries] are. *)
Inductive gelem := GLeaf (s : style) (e : E) | GImage (s : style) (iw ih : Q) | GBad.
Inductive elem :=
| Leaf (s : style) (e : E)
| Image (s : style) (id : nat) (iw ih : Q)
| Group (s : style) (id : nat) (l : list gelem)
| Child (s : style) (cols : nat) (gap : option Q) (l : list elem).
(** Elements of [delayed]: an object to be continued from a state, an image or a
    group to be tried again. *)
Inductive delem := DLeaf (s : style) (ref : nat) (sv : S) | DImage (s : style) (iw ih : Q) (tries : nat) | DGroup (s : style) (l : list gelem) (tries : nat).
(** What [children_memory] holds: index and delayed elements, for each level. *)
Definition cmem := list (nat * list delem).

(** What was put in the box: the run of an object in a rectangle, or an image;
    both with the style of the element. *)
Inductive placed :=
| PlLeaf (s : style) (x y w h : Q) (before after : O) (height : Q) (fin : bool) (parts : list P)
| PlImage (s : style) (x y w h : Q) (iw ih : Q).
Record glob := mkG { g_parts : list placed; g_lines : list L; g_heap : list O; g_tries : nat -> nat }.

(** content.py 292-395 [PDFContentPart]. *)
Record part := mkPart {
  f_elems : list elem; f_cols : nat; f_gapspec : option Q; f_last : bool;
  f_sindex : nat; f_sdelayed : list delem; f_memory : cmem; f_partial : option cmem;
  f_minx : Q; f_miny : Q; f_maxy : Q; f_y : Q; f_column : nat; f_starting : bool; f_lastbottom : Q; f_gap : Q; f_colw : Q;
  f_index : nat; f_delayed : list delem; f_will : bool; f_resetting : bool; f_pindex : nat;
  f_difflast : option Q; f_diff : option Q; f_forward : bool }.

(** content.py 361-395 [setup], for [count] columns, at least one (none:
    ZeroDivisionError). *)
Definition setup (minx width miny maxy : Q) (nparts : nat) (f : part) : ans part :=
  match f_cols f with
  | 0 => Raise ZeroDivisionError
  | _ =>
      let gap := match f_gapspec f with Some g => g | None => qmax (width / 25) 7 end in
      let colw := ((width - gap * (inject_Z (Z.of_nat (f_cols f)) - 1)) / inject_Z (Z.of_nat (f_cols f)))%Q in
      Done (mkPart (f_elems f) (f_cols f) (f_gapspec f) (f_last f) (f_sindex f) (f_sdelayed f) (f_memory f) (f_partial f)
              minx miny maxy miny 0 true 0 gap colw (f_sindex f) (f_sdelayed f) false false nparts None None false)
  end.
(** content.py 325-359 [__init__]. *)
Definition new_part (elems : list elem) (cols : nat) (gap : option Q) (last : bool) (minx width miny maxy : Q) (nparts : nat) : ans part :=
  setup minx width miny maxy nparts
    (mkPart elems cols gap last 0 [] [] None 0 0 0 0 0 true 0 0 0 0 [] false false 0 None None false).

(** Updates of a few fields. *)
Definition with_y (f : part) (y : Q) (starting : bool) (lb : Q) : part :=
  mkPart (f_elems f) (f_cols f) (f_gapspec f) (f_last f) (f_sindex f) (f_sdelayed f) (f_memory f) (f_partial f) (f_minx f) (f_miny f) (f_maxy f)
    y (f_column f) starting lb (f_gap f) (f_colw f) (f_index f) (f_delayed f) (f_will f) (f_resetting f) (f_pindex f) (f_difflast f) (f_diff f) (f_forward f).
Definition with_todo (f : part) (index : nat) (delayed : list delem) : part :=
  mkPart (f_elems f) (f_cols f) (f_gapspec f) (f_last f) (f_sindex f) (f_sdelayed f) (f_memory f) (f_partial f) (f_minx f) (f_miny f) (f_maxy f)
    (f_y f) (f_column f) (f_starting f) (f_lastbottom f) (f_gap f) (f_colw f) index delayed (f_will f) (f_resetting f) (f_pindex f) (f_difflast f) (f_diff f) (f_forward f).
Definition with_section (f : part) (sindex : nat) (sdelayed : list delem) (memory : cmem) : part :=
  mkPart (f_elems f) (f_cols f) (f_gapspec f) (f_last f) sindex sdelayed memory (f_partial f) (f_minx f) (f_miny f) (f_maxy f)
    (f_y f) (f_column f) (f_starting f) (f_lastbottom f) (f_gap f) (f_colw f) (f_index f) (f_delayed f) (f_will f) (f_resetting f) (f_pindex f) (f_difflast f) (f_diff f) (f_forward f).
Definition with_partial (f : part) (p : option cmem) : part :=
  mkPart (f_elems f) (f_cols f) (f_gapspec f) (f_last f) (f_sindex f) (f_sdelayed f) (f_memory f) p (f_minx f) (f_miny f) (f_maxy f)
    (f_y f) (f_column f) (f_starting f) (f_lastbottom f) (f_gap f) (f_colw f) (f_index f) (f_delayed f) (f_will f) (f_resetting f) (f_pindex f) (f_difflast f) (f_diff f) (f_forward f).
Definition with_reset (f : part) (will resetting : bool) (maxy : Q) (difflast diff : option Q) (forward : bool) : part :=
  mkPart (f_elems f) (f_cols f) (f_gapspec f) (f_last f) (f_sindex f) (f_sdelayed f) (f_memory f) (f_partial f) (f_minx f) (f_miny f) maxy
    (f_y f) (f_column f) (f_starting f) (f_lastbottom f) (f_gap f) (f_colw f) (f_index f) (f_delayed f) will resetting (f_pindex f) difflast diff forward.
(** The next column; content.py 729-731. *)
Definition with_column (f : part) (column : nat) : part :=
  mkPart (f_elems f) (f_cols f) (f_gapspec f) (f_last f) (f_sindex f) (f_sdelayed f) (f_memory f) (f_partial f) (f_minx f) (f_miny f) (f_maxy f)
    (f_miny f) column true (f_lastbottom f) (f_gap f) (f_colw f) (f_index f) (f_delayed f) (f_will f) (f_resetting f) (f_pindex f) (f_difflast f) (f_diff f) (f_forward f).
(** A new place; content.py 672-679 [go_to_beginning] and 722-725. *)
Definition moved (f : part) (minx miny : Q) (pindex : nat) : part :=
  mkPart (f_elems f) (f_cols f) (f_gapspec f) (f_last f) (f_sindex f) (f_sdelayed f) (f_memory f) (f_partial f) minx miny (f_maxy f)
    miny 0 true (f_lastbottom f) (f_gap f) (f_colw f) (f_index f) (f_delayed f) (f_will f) (f_resetting f) pindex (f_difflast f) (f_diff f) (f_forward f).
Definition with_parts (g : glob) (parts : list placed) : glob := mkG parts (g_lines g) (g_heap g) (g_tries g).

(** content.py 744-751 [get_min_x]. *)
Definition left_edge (f : part) : Q := (f_minx f + inject_Z (Z.of_nat (f_column f)) * (f_colw f + f_gap f))%Q.
(** The rectangle of an element (x, y, width, height): the top margin, then
    content.py 753-769 [update_dimensions]. *)
Definition space (f : part) (s : style) (top : bool) : Q * Q * Q * Q :=
  let y1 := if negb (f_starting f) && top then (f_y f - s_mt s)%Q else f_y f in
  let y2 := if f_starting f then y1 else (y1 - f_lastbottom f)%Q in
  ((left_edge f + s_ml s)%Q, y2, (f_colw f - s_ml s - s_mr s)%Q, qmax 0 (y2 - f_maxy f)).

Record ret := mkRet { r_delayed : option delem; r_next : bool; r_flow : bool }.
(** What stops a box, besides. *)
Inductive action := Interrupt | Break | PartialNext.
Definition hset (n : nat) (o : O) (h : list O) : list O := firstn n h ++ o :: skipn (Datatypes.S n) h.

(** content.py 827-885 [process_text] and 955-1013 [process_table]: an object to
    begin or to continue. *)
Definition process_leaf (f : part) (g : glob) (s : style) (src : E + nat * S) (add top : bool) : ans (ret * part * glob) :=
  let '(x, y, w, h) := space f s top in
  run! (ref, o) <- (match src with
                    | inl e => run! o <- lift (start e); Done (List.length (g_heap g), o)
                    | inr (ref, sv) => match nth_error (g_heap g) ref with Some o => Done (ref, restore o sv) | None => Raise PyException end
                    end);
  run! (o', height, fin, parts, lines) <- lift (crun o x y w h);
  let heap := if ref =? List.length (g_heap g) then g_heap g ++ [o'] else hset ref o' (g_heap g) in
  let g' := mkG (if add then g_parts g ++ [PlLeaf s x y w h o o' height fin parts] else g_parts g) (if add then g_lines g ++ lines else g_lines g) heap (g_tries g) in
  let f' := if qlt 0 height then with_y f (y - height)%Q false (s_mb s) else with_y f (f_y f) (f_starting f) (f_lastbottom f) in
  Done (if fin then mkRet None false false else mkRet (Some (DLeaf s ref (save o'))) true false, f', g').

(** content.py 887-953 [process_image]; [min] is the [min_height] of the style.
    The result says whether it was added. *)
Definition process_image (f : part) (g : glob) (s : style) (min : option Q) (shrink : bool) (iw ih : Q) (add top : bool) : bool * part * glob :=
  let '(x, y, w, h) := space f s top in
  let height := (w * ih / iw)%Q in
  let go x w height := (true, with_y f (y - height)%Q false (s_mb s),
                        if add then with_parts g (g_parts g ++ [PlImage s x (y - height) w height iw ih]) else g) in
  if qlt height h then go x w height
  else match min with
       | Some m =>
           if Qle_bool m h then
             let height := if shrink then m else h in
             let w' := (height * iw / ih)%Q in
             go (x + (w - w') / 2)%Q w' height
           else (false, with_y f (f_y f) (f_starting f) (f_lastbottom f), g)
       | None => (false, with_y f (f_y f) (f_starting f) (f_lastbottom f), g)
       end.
(** content.py 937-951: what happens with an image that is not added, by the
    times it was tried. *)
Definition image_ret (s : style) (iw ih : Q) (tries : nat) : ans ret :=
  if 50 <=? tries then Raise PyException
  else Done (mkRet (Some (DImage s iw ih (Datatypes.S tries)))
               (match s_place s with PNormal => true | _ => false end) (match s_place s with PFlow => true | _ => false end)).

(** content.py 1086-1113 [process_group_element]: whether all of it was
    added.  The [tries] of the images inside a group are left out: they are at
    most those of the group, which are looked at in the same way. *)
Definition group_element (f : part) (g : glob) (el : gelem) (min : option Q) (add top : bool) : ans (bool * part * glob) :=
  match el with
  | GLeaf s e => run! (r, f1, g1) <- process_leaf f g s (inl e) add top; Done (match r_delayed r with None => true | Some _ => false end, f1, g1)
  | GImage s iw ih => Done (process_image f g s (match min with Some m => Some m | None => s_min s end) true iw ih add top)
  | GBad => Raise PyException
  end.
Definition min_of (el : gelem) : Q := match el with GImage s _ _ => match s_min s with Some m => m | None => 0 end | _ => 0 end.
Definition has_min (el : gelem) : bool := match el with GImage s _ _ => match s_min s with Some _ => true | None => false end | _ => false end.
(** content.py 1139-1156: the first pass; whether all were added. *)
Fixpoint group_try (f : part) (g : glob) (first : bool) (l : list gelem) : ans (bool * part * glob) :=
  match l with
  | [] => Done (true, f, g)
  | el :: r =>
      run! (ok, f1, g1) <- group_element f g el None false (negb first);
      if ok then group_try f1 g1 false r else Done (false, f1, g1)
  end.
(** content.py 1162-1169: the second pass. *)
Fixpoint group_add (f : part) (g : glob) (ratio : Q) (first : bool) (l : list gelem) : ans (part * glob) :=
  match l with
  | [] => Done (f, g)
  | el :: r =>
      let min := if has_min el then Some (min_of el * ratio)%Q else None in
      run! (_, f1, g1) <- group_element f g el min true (negb first);
      group_add f1 g1 ratio false r
  end.
(** content.py 1115-1171 [process_group]. *)
Definition process_group (f : part) (g : glob) (s : style) (l : list gelem) (tries : nat) : ans (ret * part * glob) :=
  let y0 := f_y f in
  let f0 := with_y f (if f_starting f then y0 else (y0 - s_mt s)%Q) (f_starting f) (f_lastbottom f) in
  run! (ok, f1, g1) <- group_try f0 g true l;
  if ok : bool then
    let size := qsum (map min_of l) in
    let fresh := (size + f_y f1 - f_maxy f1)%Q in
    run! ratio <- (if existsb has_min l then if Qeq_bool size 0 then Raise ZeroDivisionError else Done (fresh / size)%Q else Done 1%Q);
    run! (f2, g2) <- group_add (with_y f1 y0 (f_starting f1) (f_lastbottom f1)) g1 (if s_shrink s then 1%Q else ratio) true l;
    Done (mkRet None false false, f2, g2)
  else if 50 <=? tries then Raise PyException
  else Done (mkRet (Some (DGroup s l (Datatypes.S tries))) false true, with_y f1 y0 (f_starting f1) (f_lastbottom f1), g1).

(** What a step leaves: an answer, the box and its ancestors (from the parent
    on), and the rest. *)
Definition state := (part * list part * glob)%type.
(** A way to run a box. *)
Definition runner := part -> list part -> glob -> ans ((option action) * state).

(** content.py 1015-1073 [process_child]. *)
Definition process_child (rec : runner) (f : part) (anc : list part) (g : glob) (s : style) (cols : nat) (gap : option Q) (l : list elem) (last : bool)
  : ans ((action + ret) * state) :=
  let '(_, y, _, _) := space f s true in
  let f1 := with_y f y (f_starting f) (f_lastbottom f) in
  run! c0 <- new_part l cols gap last (left_edge f) (f_colw f) y (f_maxy f) (List.length (g_parts g));
  let down1 := match f_memory f with [] => false | _ => f_index f =? f_sindex f end in
  let mem := if down1 then Some (f_memory f) else f_partial f in
  run! (c1, f2) <-
    (match mem with
     | Some m => match rev m with
                 | (i, d) :: up => Done (with_todo (with_section c0 i d (rev up)) i d, with_partial f1 None)
                 | [] => Raise IndexError
                 end
     | None => Done (c0, f1)
     end);
  run! (act, (c, anc1, g1)) <- rec c1 (f2 :: anc) g;
  match anc1 with
  | [] => Raise PyException
  | f3 :: anc2 =>
      let height := (f_miny c - (if 1 <? f_cols c then f_maxy c else f_y c))%Q in
      let f4 := match act with
                | Some PartialNext => f3
                | _ => if qlt 0 height then with_y f3 (f_y f3 - height)%Q false (s_mb s) else with_y f3 (f_y f) (f_starting f3) (f_lastbottom f3)
                end in
      match act with
      | Some a => Done (inl a, (f4, anc2, g1))
      | None => Done (inr (mkRet None false false), (with_y f4 (f_y f4) false (f_lastbottom f4), anc2, g1))
      end
  end.

Definition bump (g : glob) (id : nat) : glob :=
  mkG (g_parts g) (g_lines g) (g_heap g) (fun i => if i =? id then Datatypes.S (g_tries g i) else g_tries g i).
(** content.py 796-825 [process], for an element of the box and for a delayed
    one. *)
Definition process (rec : runner) (f : part) (anc : list part) (g : glob) (el : elem) (last : bool) : ans ((action + ret) * state) :=
  match el with
  | Leaf s e => run! (r, f1, g1) <- process_leaf f g s (inl e) true true; Done (inr r, (f1, anc, g1))
  | Image s id iw ih =>
      let '(ok, f1, g1) := process_image f g s (s_min s) (s_shrink s) iw ih true true in
      if ok : bool then Done (inr (mkRet None false false), (f1, anc, g1))
      else run! r <- image_ret s iw ih (g_tries g id); Done (inr r, (f1, anc, bump g1 id))
  | Group s id l =>
      run! (r, f1, g1) <- process_group f g s l (g_tries g id);
      Done (inr r, (f1, anc, match r_delayed r with Some _ => bump g1 id | None => g1 end))
  | Child s cols gap l => process_child rec f anc g s cols gap l last
  end.
Definition process_delayed (f : part) (g : glob) (d : delem) : ans (ret * part * glob) :=
  match d with
  | DLeaf s ref sv => process_leaf f g s (inr (ref, sv)) true true
  | DImage s iw ih tries =>
      let '(ok, f1, g1) := process_image f g s (s_min s) (s_shrink s) iw ih true true in
      if ok : bool then Done (mkRet None false false, f1, g1)
      else run! r <- image_ret s iw ih tries; Done (r, f1, g1)
  | DGroup s l tries => process_group f g s l tries
  end.

(** What [add_delayed] and [add_elements] answer. *)
Inductive answer := Stop (a : action) | Next | Goon.
Definition replace_nth (n : nat) (d : option delem) (l : list delem) : list delem :=
  firstn n l ++ match d with Some x => [x] | None => [] end ++ skipn (Datatypes.S n) l.
(** content.py 434-469 [add_delayed]. *)
Fixpoint add_delayed (fuel : nat) (n : nat) (f : part) (g : glob) : ans (answer * part * glob) :=
  match fuel with
  | 0 => Out
  | Datatypes.S fuel =>
      match nth_error (f_delayed f) n with
      | None => Done (match f_delayed f with
                      | [] => Goon
                      | _ => if Nat.leb (List.length (f_elems f)) (Datatypes.S (f_index f)) then Next else Goon
                      end, f, g)
      | Some d =>
          run! (r, f1, g1) <- process_delayed f g d;
          let f2 := with_todo f1 (f_index f1) (replace_nth n (r_delayed r) (f_delayed f1)) in
          if r_next r then Done (Next, f2, g1)
          else add_delayed fuel (if r_flow r then Datatypes.S n else n) f2 g1
      end
  end.
(** content.py 471-519 [add_elements]. *)
Fixpoint add_elements (rec : runner) (fuel : nat) (f : part) (anc : list part) (g : glob) : ans (answer * state) :=
  match fuel with
  | 0 => Out
  | Datatypes.S fuel =>
      match nth_error (f_elems f) (f_index f) with
      | None => Done (Goon, (f, anc, g))
      | Some el =>
          run! (r, (f1, anc1, g1)) <- process rec f anc g el (Datatypes.S (f_index f) =? List.length (f_elems f));
          match r with
          | inl a => Done (Stop a, (f1, anc1, g1))
          | inr r =>
              let f2 := with_todo f1 (Datatypes.S (f_index f1)) (f_delayed f1 ++ match r_delayed r with Some d => [d] | None => [] end) in
              if r_next r then Done (Next, (f2, anc1, g1)) else add_elements rec fuel f2 anc1 g1
          end
      end
  end.

(** content.py 635-670 [reset]: whether to go on. *)
Definition reset (f : part) (g : glob) : bool * part * glob :=
  let stop :=
    match f_difflast f with
    | Some l => negb (Qeq_bool l 0) && qlt (l - match f_diff f with Some d => d | None => 0 end) 1
    | None => false
    end in
  if stop && negb (f_forward f) then (false, f, g)
  else
    let diff0 := if stop then match f_diff f with Some d => Some (d * 2)%Q | None => None end else f_diff f in
    let '(maxy, difflast, diff) :=
      match diff0 with
      | None => let d := ((f_miny f - f_maxy f) / 2)%Q in ((f_maxy f + d)%Q, f_difflast f, Some d)
      | Some d => let d' := (d / 2)%Q in ((if f_forward f then f_maxy f - d' else f_maxy f + d')%Q, Some d, Some d')
      end in
    let f1 := with_reset (moved f (f_minx f) (f_miny f) (f_pindex f)) false true maxy difflast diff (f_forward f) in
    (true, with_todo f1 (f_sindex f) (f_sdelayed f), with_parts g (firstn (f_pindex f) (g_parts g))).

Inductive sect := SInterrupt | SBreak | SPartial | SRetry | SPos (minx miny : Q).
(** content.py 681-742 [next_section], of a box with its ancestors. *)
Fixpoint next_section (nparts : nat) (cm : option cmem) (stack : list part) : sect * list part :=
  match stack with
  | [] => (SInterrupt, [])
  | f :: anc =>
      if Datatypes.S (f_column f) =? f_cols f then
        if f_resetting f then (SBreak, with_reset f (f_will f) (f_resetting f) (f_maxy f) (f_difflast f) (f_diff f) true :: anc)
        else
          let below := match cm with Some c => c | None => [] end in
          let f1 := with_section f (f_index f) (f_delayed f) below in
          match anc with
          | [] => (SInterrupt, [f1])
          | _ =>
              let '(r, anc') := next_section nparts (Some (below ++ [(f_index f, f_delayed f)])) anc in
              match r with
              | SPos x y => (match cm with None => SRetry | Some _ => r end, moved f1 x y nparts :: anc')
              | _ => (r, f1 :: anc')
              end
          end
      else
        let f1 := with_column f (Datatypes.S (f_column f)) in
        match cm, f_delayed f with
        | Some c, _ :: _ => (SPartial, with_partial f1 (Some c) :: anc)
        | None, _ => (SRetry, f1 :: anc)
        | Some _, [] => (SPos (left_edge f1) (f_miny f1), f1 :: anc)
        end
  end.

Inductive step := Return (a : action) | Retry | Proceed.
(** content.py 521-533 [is_element_resetting]. *)
Definition if_resetting (f : part) (g : glob) : step * part * glob :=
  if f_will f || f_resetting f then let '(go, f1, g1) := reset f g in (if go then Retry else Proceed, f1, g1)
  else (Return Break, f, g).
(** content.py 535-561 [process_add_ans]. *)
Definition after (a : answer) (f : part) (anc : list part) (g : glob) : ans (step * state) :=
  match a with
  | Goon => Done (Proceed, (f, anc, g))
  | Stop Interrupt => Done (Return Interrupt, (f, anc, g))
  | Stop PartialNext => Done (match f_partial f with None => Return PartialNext | Some _ => Retry end, (f, anc, g))
  | Stop Break => let '(s, f1, g1) := if_resetting f g in Done (s, (f1, anc, g1))
  | Next =>
      match next_section (List.length (g_parts g)) None (f :: anc) with
      | (r, f1 :: anc1) =>
          match r with
          | SInterrupt => Done (Return Interrupt, (f1, anc1, g))
          | SPartial => Done (Return PartialNext, (f1, anc1, g))
          | SBreak => let '(s, f2, g1) := if_resetting f1 g in Done (s, (f2, anc1, g1))
          | _ => Done (Retry, (f1, anc1, g))
          end
      | (_, []) => Raise PyException
      end
  end.

(** content.py 604-621 [last_child_of_resetting]; line 616 assigns to another
    name, which has no effect. *)
Fixpoint last_child (f : part) (anc : list part) : bool :=
  match anc with [] => false | p :: rest => f_last f && (f_resetting p || last_child p rest) end.
(** content.py 623-633 [start_resetting]. *)
Fixpoint start_resetting (stack : list part) : list part :=
  match stack with
  | [] => []
  | f :: anc =>
      match anc with
      | p :: _ => if f_last f && (1 <? f_cols p) then f :: start_resetting anc
                  else with_reset f true (f_resetting f) (f_maxy f) (f_difflast f) (f_diff f) (f_forward f) :: anc
      | [] => [with_reset f true (f_resetting f) (f_maxy f) (f_difflast f) (f_diff f) (f_forward f)]
      end
  end.

(** content.py 563-602 [run]. *)
Fixpoint loop (rec : runner) (fuel : nat) (f : part) (anc : list part) (g : glob) : ans (option action * state) :=
  match fuel with
  | 0 => Out
  | Datatypes.S fuel =>
      run! (a1, f1, g1) <- add_delayed fuel 0 f g;
      run! (s1, (f2, anc2, g2)) <- after a1 f1 anc g1;
      match s1 with
      | Retry => loop rec fuel f2 anc2 g2
      | Return a => Done (Some a, (f2, anc2, g2))
      | Proceed =>
          run! (a2, (f3, anc3, g3)) <- add_elements rec fuel f2 anc2 g2;
          run! (s2, (f4, anc4, g4)) <- after a2 f3 anc3 g3;
          match s2 with
          | Retry => loop rec fuel f4 anc4 g4
          | Return a => Done (Some a, (f4, anc4, g4))
          | Proceed =>
              match f_delayed f4 with
              | _ :: _ => loop rec fuel f4 anc4 g4
              | [] =>
                  if negb (f_resetting f4) && (1 <? f_cols f4) then
                    if last_child f4 anc4 then Done (None, (f4, anc4, g4))
                    else
                      match start_resetting (f4 :: anc4) with
                      | f5 :: anc5 =>
                          if f_will f5 then let '(_, f6, g6) := reset f5 g4 in loop rec fuel f6 anc5 g6
                          else Done (Some Break, (f5, anc5, g4))
                      | [] => Raise PyException
                      end
                  else if f_resetting f4 then
                    let f5 := with_reset f4 (f_will f4) (f_resetting f4) (f_maxy f4) (f_difflast f4) (f_diff f4) false in
                    let '(go, f6, g6) := reset f5 g4 in
                    if go then loop rec fuel f6 anc4 g6 else Done (None, (f6, anc4, g6))
                  else Done (None, (f4, anc4, g4))
              end
          end
      end
  end.
(** A box, and those inside: the levels use the fuel too. *)
Fixpoint run_part (fuel : nat) (f : part) (anc : list part) (g : glob) : ans (option action * state) :=
  match fuel with 0 => Out | Datatypes.S n => loop (run_part n) n f anc g end.

(** content.py 179-259 [PDFContent]: the part is made in the first run.
    A run begins with no parts. *)
Record content := mkC { c_elems : list elem; c_cols : nat; c_gap : option Q; c_part : option part; c_finished : bool; c_heap : list O; c_tries : nat -> nat }.
Record output := mkO { o_parts : list placed; o_lines : list L; o_height : Q }.
Definition fresh_content (elems : list elem) (cols : nat) (gap : option Q) : content := mkC elems cols gap None false [] (fun _ => 0).
Definition run (fuel : nat) (x y w h : Q) (c : content) : ans (content * output) :=
  run! f <- (match c_part c with
             | None => new_part (c_elems c) (c_cols c) (c_gap c) true x w y (y - h)%Q 0
             | Some p => setup x w y (y - h)%Q 0 p
             end);
  run! (act, (f1, _, g)) <- run_part fuel f [] (mkG [] [] (c_heap c) (c_tries c));
  let height := (f_miny f1 - (if (1 <? f_cols f1)%nat then f_maxy f1 else f_y f1))%Q in
  Done (mkC (c_elems c) (c_cols c) (c_gap c) (Some f1) (match act with None => true | Some _ => c_finished c end) (g_heap g) (g_tries g),
        mkO (g_parts g) (g_lines g) height).

(** content.py 261-290 and 397-432: [get_state], [set_state] (both need a part). *)
Definition get_state (c : content) : ans (nat * list delem * cmem) :=
  match c_part c with Some f => Done (f_sindex f, f_sdelayed f, f_memory f) | None => Raise AttributeError end.
Definition set_state (st : nat * list delem * cmem) (c : content) : ans content :=
  match c_part c with
  | Some f => let '(i, d, m) := st in Done (mkC (c_elems c) (c_cols c) (c_gap c) (Some (with_section f i d m)) (c_finished c) (c_heap c) (c_tries c))
  | None => Raise AttributeError
  end.
End Content.
