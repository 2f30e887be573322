(** Model of tables: pdfme/table.py ([PDFTable]).

    What a cell shows (a paragraph, an image, a content box, a table) is given
    by functions [start] and [crun]: any element, any state, any result of
    running it in a rectangle.  Numbers are exact.  The style of a cell is
    given by its margins and fill (table.py 674-717 computes them), the borders
    by a function of the position (table.py 318-359), colours and fills by
    themselves.  Column and row spans are natural numbers. *)
From Coq Require Import QArith ZArith Lia.
From Verif Require Import Py.
Open Scope list_scope.
Open Scope nat_scope.

(** Dicts with the number of a column as key. *)
Section Dict.
Context {V : Type}.
Definition ndict := list (nat * V).
Fixpoint nget (k : nat) (d : ndict) : option V :=
  match d with [] => None | (k', v) :: r => if k =? k' then Some v else nget k r end.
Fixpoint nset (k : nat) (v : V) (d : ndict) : ndict :=
  match d with [] => [(k, v)] | (k', v') :: r => if k =? k' then (k', v) :: r else (k', v') :: nset k v r end.
Definition npop (k : nat) (d : ndict) : ndict := filter (fun kv => negb (k =? fst kv)) d.
End Dict.
Arguments ndict : clear implicits.

Fixpoint qsum (l : list Q) : Q := match l with [] => 0 | x :: r => (x + qsum r)%Q end.
Definition qmax (a b : Q) : Q := if Qle_bool b a then a else b.

Section Table.
(** Contents of cells, their states, what they draw; colours of fills; colour
    and style of borders. *)
Context {E W P F B : Type}.
Variable start : E -> res W.
(** Position and size; the new state, the height, whether it is finished, what
    is drawn. *)
Variable crun : W -> Q -> Q -> Q -> Q -> res (W * Q * bool * list P).
Variable b_eqb : B -> B -> bool.

Record cstyle := mkCS { m_top : Q; m_right : Q; m_bottom : Q; m_left : Q; s_fill : option F }.
Record cell := mkCell { c_colspan : nat; c_rowspan : nat; c_style : cstyle; c_elem : E }.
(** The dict of an unfinished cell, table.py 787-790 and 870, 914, 955, 1000. *)
Record dcell := mkD { d_colspan : nat; d_rowspan : nat; d_row : nat; d_style : cstyle; d_state : W }.
Record border := mkB { b_width : Q; b_kind : B }.

(** The arguments of the constructor, and what it computes from them.
    [t_blank] is what [None] in a row is: an empty text with the style of the
    table. *)
Record table := mkTable {
  t_rows : list (list cell); t_cols : nat; t_widths : list Q; t_blank : cell;
  t_bv : nat -> nat -> border; t_bh : nat -> nat -> border; t_fills : nat -> nat -> option F }.
(** table.py 178-191. *)
Definition col_widths (cols : nat) (given : option (list Q)) : res (list Q) :=
  match given with
  | Some ws =>
      if negb (List.length ws =? cols) then Err PyException
      else if Qeq_bool (qsum ws) 0 then Err PyException
      else Ok (map (fun w => w / qsum ws)%Q ws)
  | None => Ok (repeat (1 / inject_Z (Z.of_nat cols))%Q cols)
  end.

(** What stays between runs. *)
Record tstate := mkT { t_index : nat; t_delayed : ndict dcell; t_first : bool; t_finished : bool }.
Definition fresh_table : tstate := mkT 0 [] true false.
(** table.py 221-249: [get_state] and [set_state]. *)
Definition get_state (s : tstate) : nat * ndict dcell := (t_index s, t_delayed s).
Definition set_state (index : option nat) (delayed : option (ndict dcell)) (s : tstate) : tstate :=
  match index, delayed with
  | Some i, _ => mkT i (t_delayed s) (t_first s) (t_finished s)
  | None, Some d => mkT (t_index s) d (t_first s) (t_finished s)
  | None, None => s
  end.

Record line := mkLine { l_border : border; l_x1 : Q; l_y1 : Q; l_x2 : Q; l_y2 : Q }.
Record fill := mkFill { f_x : Q; f_y : Q; f_w : Q; f_h : Q; f_color : F; f_later : bool }.
(** A cell that was processed: the row and the column, what was in its place,
    the rectangle its content got, the states of the content before and after,
    the height it took, the height its row needs for it, and what it drew.
    [Blank] is the [None] in the place of a finished cell, when unfinished
    ones are continued. *)
Inductive incell := New (c : cell) | Blank | Cont (d : dcell).
Record event := mkEv {
  e_row : nat; e_col : nat; e_what : incell; e_x : Q; e_y : Q; e_w : Q; e_h : Q;
  e_in : W; e_out : W; e_height : Q; e_need : Q; e_fin : bool; e_parts : list P }.

(** The attributes used in a run.  [r_events] is not in the code: it records
    the cells that are processed. *)
Record rstate := mkR {
  r_parts : list P; r_lines : list line; r_fills : list fill; r_fmem : ndict fill; r_hmem : ndict Q;
  r_span : ndict (Z * Z); r_vert : list (list line * bool); r_height : Q;
  r_max : Q; r_colspan : Z; r_top : list line; r_topint : bool; r_isrow : bool;
  r_delayed : ndict dcell; r_events : list event }.

Variable t : table.
Variable x y width height : Q.

Definition bwidth (b : option border) : Q := match b with Some b => b_width b | None => 0%Q end.
Definition qlt (a b : Q) : bool := negb (Qle_bool b a).
(** table.py 380-391. *)
Definition compare_borders (a b : border) : bool := Qeq_bool (b_width a) (b_width b) && b_eqb (b_kind a) (b_kind b).
(** The last line of a list, changed. *)
Definition upd_last (f : line -> line) (l : list line) : list line :=
  match rev l with [] => [] | a :: r => rev (f a :: r) end.
Definition last_line (l : list line) : option line := match rev l with [] => None | a :: _ => Some a end.
Definition set_x2 (v : Q) (l : line) : line := mkLine (l_border l) (l_x1 l) (l_y1 l) v (l_y2 l).
Definition set_y2 (v : Q) (l : line) : line := mkLine (l_border l) (l_x1 l) (l_y1 l) (l_x2 l) v.
Definition nth_vert (col : nat) (v : list (list line * bool)) : list line * bool := nth col v ([], true).
Definition set_vert (col : nat) (e : list line * bool) (v : list (list line * bool)) : list (list line * bool) :=
  firstn col v ++ match skipn col v with [] => [] | _ :: r => e :: r end.
Definition col_width (col : nat) : Q := (nth col (t_widths t) 0 * width)%Q.
Definition with_borders (r : rstate) (vert : list (list line * bool)) (top : list line) (topint : bool) : rstate :=
  mkR (r_parts r) (r_lines r) (r_fills r) (r_fmem r) (r_hmem r) (r_span r) vert (r_height r) (r_max r) (r_colspan r) top topint
    (r_isrow r) (r_delayed r) (r_events r).
(** table.py 393-449 [process_borders].  A vertical line has its [y2] only when
    it ends; until then it is that of its beginning. *)
Definition process_borders (r : rstate) (col : nat) (x_abs y_abs : Q) (bleft btop : option border) : rstate :=
  let vc0 := (bwidth btop / 2)%Q in
  let vc := if r_topint r then vc0
            else match last_line (r_top r) with
                 | Some l => let aux := (b_width (l_border l) / 2)%Q in if qlt vc0 aux then aux else vc0
                 | None => vc0
                 end in
  let '(vl, vint) := nth_vert col (r_vert r) in
  let hc0 := (bwidth bleft / 2)%Q in
  let vl1 := if vint then vl else upd_last (set_y2 (y_abs - vc)%Q) vl in
  let hc := if vint then hc0
            else match last_line vl with
                 | Some l => let aux := (b_width (l_border l) / 2)%Q in if qlt hc0 aux then aux else hc0
                 | None => hc0
                 end in
  let top1 := if r_topint r then r_top r else upd_last (fun l => set_x2 (l_x2 l + hc)%Q l) (r_top r) in
  let '(top2, topint2) :=
    match btop with
    | Some b =>
        if qlt 0 (b_width b) then
          let x2 := (x_abs + col_width col)%Q in
          let same := match r_topint r, last_line top1 with false, Some l => compare_borders (l_border l) b | _, _ => false end in
          if same then (upd_last (set_x2 x2) top1, false)
          else (top1 ++ [mkLine b (x_abs - hc)%Q y_abs x2 y_abs], false)
        else (top1, true)
    | None => (top1, true)
    end in
  let '(vl2, vint2) :=
    match bleft with
    | Some b =>
        if qlt 0 (b_width b) then
          let same := match vint, last_line vl1 with false, Some l => compare_borders (l_border l) b | _, _ => false end in
          if same then (vl1, false)
          else (vl1 ++ [mkLine b x_abs (y_abs + vc)%Q x_abs (y_abs + vc)%Q], false)
        else (vl1, true)
    | None => (vl1, true)
    end in
  with_borders r (set_vert col (vl2, vint2) (r_vert r)) top2 topint2.

Definition zero (b : border) : border := mkB 0 (b_kind b).
(** table.py 629-672 [is_span]: whether the cell is part of a spanned one, and
    the borders. *)
Definition is_span (r : rstate) (col : nat) (bleft btop : border) (is_delayed : bool) : bool * rstate * border * border :=
  let upd span colspan isrow fmem max :=
    mkR (r_parts r) (r_lines r) (r_fills r) fmem (r_hmem r) span (r_vert r) (r_height r) max colspan (r_top r) (r_topint r) isrow
      (r_delayed r) (r_events r) in
  match nget col (r_span r) with
  | None =>
      if (0 <? r_colspan r)%Z then
        let k := (r_colspan r - 1)%Z in
        if r_isrow r then (true, upd (r_span r) k (negb (k =? 0)%Z) (r_fmem r) (r_max r), zero bleft, zero btop)
        else (true, upd (r_span r) k false (r_fmem r) (r_max r), zero bleft, btop)
      else (false, r, bleft, btop)
  | Some (rows, cols) =>
      if is_delayed then (false, r, bleft, btop)
      else
        let rows1 := (rows - 1)%Z in
        if (rows1 =? 0)%Z then
          let fmem := match nget col (r_fmem r) with
                      | Some f => nset col (mkFill (f_x f) (f_y f) (f_w f) (f_h f) (f_color f) false) (r_fmem r)
                      | None => r_fmem r
                      end in
          let h := match nget col (r_hmem r) with Some h => h | None => 0%Q end in
          (true, upd (npop col (r_span r)) cols (negb (cols =? 0)%Z) fmem (if qlt (r_max r) h then h else r_max r), bleft, zero btop)
        else (true, upd (nset col (rows1, cols) (r_span r)) cols true (r_fmem r) (r_max r), bleft, zero btop)
  end.

(** [sum(widths[0:n])] and [sum(widths[a:b])]. *)
Definition sum_widths (a b : nat) : Q := qsum (firstn (b - a) (skipn a (t_widths t))).
(** table.py 752-828 [add_cell], with [get_cell_dimensions] (586-627) and
    [_setup_cell_fill] (719-744). *)
Definition add_cell (index : nat) (first : bool) (is_delayed : bool) (y_abs rowmax : Q) (r : rstate) (col : nat) (el : incell) : res rstate :=
  let x_abs := (x + sum_widths 0 col * width)%Q in
  let '(skip, r1, bleft, btop) := is_span r col (t_bv t index col) (t_bh t index col) is_delayed in
  let r2 := process_borders r1 col x_abs y_abs (Some bleft) (Some btop) in
  if skip then Ok r2
  else
    let '(cs0, rs0, row, st) :=
      match el with
      | New c => (c_colspan c, c_rowspan c, index, c_style c)
      | Blank => (c_colspan (t_blank t), c_rowspan (t_blank t), index, c_style (t_blank t))
      | Cont d => (d_colspan d, d_rowspan d, d_row d, d_style d)
      end in
    do s0 <- (match el with New c => start (c_elem c) | Blank => start (c_elem (t_blank t)) | Cont d => Ok (d_state d) end);
    let colspan := (Z.of_nat cs0 - 1)%Z in
    let rowspan := (Z.of_nat rs0 - 1 - Z.of_nat index + Z.of_nat row)%Z in
    let span := if (0 <? rowspan)%Z then nset col (rowspan, colspan) (r_span r2) else r_span r2 in
    let bright := t_bv t index (col + cs0) in
    let bbottom := t_bh t (Z.to_nat (Z.of_nat index + rowspan + 1)) col in
    let full_width := (sum_widths col (col + cs0) * width)%Q in
    let pl := (b_width bleft / 2 + m_left st)%Q in
    let pr := (b_width bright / 2 + m_right st)%Q in
    let pt := (b_width btop / 2 + m_top st)%Q in
    let pb := (b_width bbottom / 2 + m_bottom st)%Q in
    let cx := (x_abs + pl)%Q in
    let cy := (y_abs - pt)%Q in
    let cw := (full_width - (pl + pr))%Q in
    let ch := (rowmax - (pt + pb))%Q in
    let fcolor := match s_fill st with Some f => Some f | None => t_fills t index col end in
    let fmem := match fcolor with
                | Some f => nset col (mkFill x_abs y_abs (cw + (pl + pr))%Q 0 f (0 <? rowspan)%Z) (r_fmem r2)
                | None => r_fmem r2
                end in
    do (s1, h, fin, ps) <- crun s0 cx cy cw ch;
    let delayed := if (fin : bool) then npop col (r_delayed r2) else nset col (mkD cs0 rs0 row st s1) (r_delayed r2) in
    let need := (h + (if qlt 0 h then pt + pb else if first then 0 else 4))%Q in
    let hmem := if (0 <? rowspan)%Z then nset col need (r_hmem r2) else r_hmem r2 in
    let need' := if (0 <? rowspan)%Z then 0%Q else need in
    Ok (mkR (r_parts r2 ++ ps) (r_lines r2) (r_fills r2) fmem hmem span (r_vert r2) (r_height r2)
          (if qlt (r_max r2) need' then need' else r_max r2) colspan (r_top r2) (r_topint r2) (r_isrow r2) delayed
          (r_events r2 ++ [mkEv index col el cx cy cw ch s0 s1 h need fin ps])).

Fixpoint add_cells (index : nat) (first is_delayed : bool) (y_abs rowmax : Q) (r : rstate) (col : nat) (row : list incell) : res rstate :=
  match row with
  | [] => Ok r
  | el :: rest => do r1 <- add_cell index first is_delayed y_abs rowmax r col el; add_cells index first is_delayed y_abs rowmax r1 (S col) rest
  end.

Inductive action := Continue | Interrupt | Cancel.
(** table.py 575-580: the fills that are done. *)
Fixpoint flush_fills (max : Q) (ret : bool) (mem : ndict fill) : ndict fill * list fill :=
  match mem with
  | [] => ([], [])
  | (k, f) :: r =>
      let h := (f_h f + max)%Q in
      let '(mem', fs) := flush_fills max ret r in
      if negb (f_later f) || negb ret then (mem', mkFill (f_x f) (f_y f - h)%Q (f_w f) h (f_color f) (f_later f) :: fs)
      else ((k, mkFill (f_x f) (f_y f) (f_w f) h (f_color f) (f_later f)) :: mem', fs)
  end.
(** table.py 525-584 [add_row]. *)
Definition add_row (index : nat) (first is_delayed : bool) (r : rstate) (row : list incell) : res (action * rstate) :=
  if negb (List.length row =? t_cols t) then Err PyException
  else
    let y_abs := (y - r_height r)%Q in
    let r0 := mkR (r_parts r) (r_lines r) (r_fills r) (r_fmem r) (r_hmem r) (r_span r) (r_vert r) (r_height r) 0 0 [] true false
                (r_delayed r) (r_events r) in
    do r1 <- add_cells index first is_delayed y_abs (height - r_height r)%Q r0 0 row;
    if first && Qeq_bool (r_max r1) 0 then Ok (Cancel, r1)
    else
      let ret := negb (list_sum (map (fun kv => d_colspan (snd kv)) (r_delayed r1)) =? t_cols t)
                 && forallb (fun kv => match nget (fst kv) (r_span r1) with Some _ => true | None => false end) (r_delayed r1) in
      let r2 := process_borders r1 (List.length row) (x + width)%Q y_abs (Some (t_bv t index (List.length row))) None in
      let '(fmem, fs) := flush_fills (r_max r2) ret (r_fmem r2) in
      Ok (if ret then Continue else Interrupt,
          mkR (r_parts r2) (r_lines r2 ++ r_top r2) (r_fills r2 ++ fs) fmem (map (fun kv => (fst kv, (snd kv - r_max r2)%Q)) (r_hmem r2))
            (r_span r2) (r_vert r2) (r_height r2 + r_max r2)%Q (r_max r2) (r_colspan r2) (r_top r2) (r_topint r2) (r_isrow r2)
            (r_delayed r2) (r_events r2)).

(** table.py 490-499: the rows that are left. *)
Fixpoint add_rows (index : nat) (first : bool) (r : rstate) (rows : list (list cell)) : res (action * rstate * nat * bool) :=
  match rows with
  | [] => Ok (Continue, r, index, first)
  | row :: rest =>
      do (a, r1) <- add_row index first false r (map New row);
      match a with
      | Continue => add_rows (S index) false r1 rest
      | _ => Ok (a, r1, index, false)
      end
  end.
Definition empty_run (delayed : ndict dcell) : rstate :=
  mkR [] [] [] [] [] [] (repeat ([], true) (S (t_cols t))) 0 0 0 [] true false delayed [].
Definition delayed_row (d : ndict dcell) : list incell :=
  map (fun i => match nget i d with Some c => Cont c | None => Blank end) (seq 0 (t_cols t)).
(** table.py 507-520: the borders at the end. *)
Definition last_borders (index : nat) (r : rstate) : rstate :=
  let y_abs := (y - r_height r)%Q in
  let r0 := with_borders r (r_vert r) [] true in
  let r1 := fold_left (fun r col => process_borders r col (x + sum_widths 0 col * width)%Q y_abs None (Some (t_bh t index col)))
              (seq 0 (t_cols t)) r0 in
  let r2 := process_borders r1 (t_cols t) (x + width)%Q y_abs None None in
  mkR (r_parts r2) (r_lines r2 ++ r_top r2 ++ List.concat (map fst (r_vert r2))) (r_fills r2) (r_fmem r2) (r_hmem r2) (r_span r2) (r_vert r2)
    (r_height r2) (r_max r2) (r_colspan r2) (r_top r2) (r_topint r2) (r_isrow r2) (r_delayed r2) (r_events r2).
(** What a run leaves: [parts], [lines], [fills], [current_height]; and the
    cells that were processed. *)
Record output := mkOut { o_parts : list P; o_lines : list line; o_fills : list fill; o_height : Q; o_events : list event; o_cancel : bool }.
(** table.py 451-523 [run], for a table with columns. *)
Definition run (s : tstate) : res (tstate * output) :=
  let r0 := empty_run (t_delayed s) in
  let rows := skipn (t_index s) (t_rows t) in
  do (a, r1, index, first) <-
    (match t_delayed s with
     | [] => add_rows (t_index s) (t_first s) r0 rows
     | _ :: _ =>
         do (a, r1) <- add_row (t_index s) (t_first s) true r0 (delayed_row (t_delayed s));
         match a with
         | Continue => add_rows (S (t_index s)) false r1 (tl rows)
         | _ => Ok (Interrupt, r1, t_index s, false)
         end
     end);
  match a with
  | Cancel => Ok (mkT index (r_delayed r1) first (t_finished s), mkOut [] [] [] (r_height r1) (r_events r1) true)
  | _ =>
      let r2 := last_borders index r1 in
      let fin := (List.length (t_rows t) <=? index) && match r_delayed r2 with [] => true | _ => false end in
      Ok (mkT index (r_delayed r2) first (fin || t_finished s),
          mkOut (r_parts r2) (r_lines r2) (r_fills r2) (r_height r2) (r_events r2) false)
  end.
End Table.

(** Runs in a sequence of rectangles (x, y, width, height), until the table is
    finished. *)
Fixpoint runs {E W P F B} start crun b_eqb (t : @table E F B) (s : tstate) (rects : list (Q * Q * Q * Q)) : res (list (tstate * output)) :=
  match rects with
  | [] => Ok []
  | (x, y, w, h) :: rest =>
      do (s1, o) <- @run E W P F B start crun b_eqb t x y w h s;
      if t_finished s1 then Ok [(s1, o)]
      else do l <- runs start crun b_eqb t s1 rest; Ok ((s1, o) :: l)
  end.
Arguments table : clear implicits.
