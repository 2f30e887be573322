(** Model of the paragraph layout: pdfme/text.py 11-1025.

    Simplifications: lengths are exact rationals; fonts are found and have a
    width for every word (C29 and C30 are about that); the text of a part that
    names a variable is its value (TextVars.v); operators stay structured
    ([Gfx.gop]) and [GShow] carries the text before it is escaped (C25, C26). *)
From Coq Require Import String QArith Lqa.
From Verif Require Import Py PyStr Gfx.
Open Scope list_scope.

Definition fkey := (str * str)%type.

(** text.py 11-40: [PDFState]. *)
Record tstate := mkState { t_font : fkey; t_size : Q; t_color : option rgb; t_rise : Q }.
(** The style of a part: the state, underline and background (text.py 76-92). *)
Record style := mkStyle { y_state : tstate; y_under : bool; y_bg : option rgb }.

(** text.py 66-92: [PDFTextLinePart]. *)
Record lpart := mkLP { lp_style : style; lp_ids : list str; lp_words : list str; lp_width : Q; lp_spaces : Q }.

(** text.py 172-214: [PDFTextLine]; [text_align] is a parameter of the paragraph. *)
Inductive line := mkLine {
  l_max : Q; l_parts : list lpart; l_top : Q; l_next : option line;
  l_lws : bool; l_first : bool; l_started : bool }.
Definition new_line (max top : Q) : line := mkLine max [] top None true false false.

Inductive align := ALeft | ACenter | ARight | AJust.
Definition is_just (a : align) : bool := match a with AJust => true | _ => false end.
Definition is_rc (a : align) : bool := match a with ACenter | ARight => true | _ => false end.

(** [s.isspace()] and the tokens of a text. *)
Definition isspace (s : str) : bool := match s with [] => false | _ => forallb is_space s end.
Definition sp : str := [32%N].
Definition is_sp (w : str) : bool := str_eqb w sp.

(** [re.split('( +)', s)] without the empty pieces: the maximal runs of
    spaces and of other characters. *)
Fixpoint raw_tokens (s : str) : list str :=
  match s with
  | [] => []
  | c :: r =>
      match raw_tokens r with
      | (d :: w) :: l => if Bool.eqb (c =? 32)%N (d =? 32)%N then (c :: d :: w) :: l else [c] :: (d :: w) :: l
      | _ => [[c]]
      end
  end.
(** text.py 696-702. *)
Definition tokenize (s : str) : list str := map (fun w => if isspace w then sp else w) (raw_tokens s).

(** The elements of [content]: a line break, a text with style and ids, and
    any other part (without text). *)
Inductive cpart := CBr | CText (text : str) (y : style) (ids : list str) | COther.

(** A list paragraph: the text, the indent if given, and the style of the
    text as a function of the style of the first part (text.py 776-792). *)
Record listinfo := mkList { li_text : str; li_indent : option Q; li_style : style -> style }.
(** What is fixed in a paragraph (text.py 434-475). *)
Record config := mkCfg {
  c_content : list cpart; c_align : align; c_lh : Q; c_indent : Q; c_list : option listinfo }.

(** What the emission of lines keeps (text.py 587-614). *)
Definition trect := (Q * Q * Q * Q)%type.
Record em := mkEm {
  e_started : bool; e_y : Q; e_indent : Q; e_text : list gop; e_gfx : list gop; e_ids : list (str * trect);
  e_state : option tstate; e_tw : option Q;
  e_fill : option rgb; e_color : option (option rgb); e_sw : option Q }.
Definition em0 : em := mkEm false 0 0 [] [] [] None None None None None.

(** For each line in [d_lines], how it was written: if it was a last line,
    where it starts and the factor of its spaces.  Like [d_lines] itself this
    is kept for the statements only; the code does not use it. *)
Record mark := mkMark { k_last : bool; k_x : Q; k_factor : Q }.
(** The paragraph between and during runs.  [d_used] and [d_cused] are the
    sets [used_fonts] and [current_line_used_fonts]. *)
Record dyn := mkDyn {
  d_part : nat; d_word : nat; d_lpart : nat; d_lword : nat; d_apart : nat; d_aword : nat;
  d_first : bool; d_correct : bool; d_listdone : bool; d_fin : bool;
  d_lindent : option Q; d_lstate : option tstate;
  d_width : Q; d_height : Q;
  d_added : bool; d_h : Q; d_lines : list line; d_em : em;
  d_used : list fkey; d_cused : list fkey; d_marks : list mark }.

Section Layout.
Variable round3 : Q -> Q.
(** [font.get_text_width(word)], [font.get_char_width(' ')] and [font.ref]. *)
Variable text_w : fkey -> str -> Q.
Variable space_w : fkey -> Q.
Variable fref : fkey -> str.

(** text.py 154-170. *)
Definition word_w (y : style) (w : str) : Q := (t_size (y_state y) * text_w (t_font (y_state y)) w)%Q.
Definition spw (y : style) : Q := (t_size (y_state y) * space_w (t_font (y_state y)))%Q.

Definition new_part (y : style) (ids : list str) : lpart := mkLP y ids [] 0 0.
(** text.py 94-123 [pop_word] (the last one) and [add_word]. *)
Definition part_pop (p : lpart) : lpart :=
  match rev (lp_words p) with
  | [] => p
  | w :: r =>
      if is_sp w then mkLP (lp_style p) (lp_ids p) (rev r) (lp_width p) (lp_spaces p - spw (lp_style p))
      else mkLP (lp_style p) (lp_ids p) (rev r) (lp_width p - word_w (lp_style p) w) (lp_spaces p)
  end.
Definition part_add (p : lpart) (w : str) : lpart :=
  if is_sp w then mkLP (lp_style p) (lp_ids p) (lp_words p ++ [w]) (lp_width p) (lp_spaces p + spw (lp_style p))
  else mkLP (lp_style p) (lp_ids p) (lp_words p ++ [w]) (lp_width p + word_w (lp_style p) w) (lp_spaces p).
(** text.py 125-137. *)
Definition part_width (p : lpart) (factor : Q) : Q := (lp_width p + lp_spaces p * factor)%Q.

(** text.py 216-232 and 246-258: [height] and [bottom]. *)
Definition qgtb (a b : Q) : bool := negb (Qle_bool a b).
Definition top_rise (ps : list lpart) : Q :=
  fold_left (fun t p => if qgtb (t_rise (y_state (lp_style p))) 0 && qgtb (t_rise (y_state (lp_style p))) t
                        then t_rise (y_state (lp_style p)) else t) ps 0%Q.
Definition max_size (ps : list lpart) : Q :=
  fold_left (fun h p => if qgtb (t_size (y_state (lp_style p))) h then t_size (y_state (lp_style p)) else h) ps 0%Q.
Definition line_height (l : line) : Q := (max_size (l_parts l) + l_top l + top_rise (l_parts l))%Q.
Definition line_bottom (l : line) : Q :=
  fold_left (fun b p => let r := t_rise (y_state (lp_style p)) in
               if qgtb 0 r && qgtb (- r) b then (- r)%Q else b) (l_parts l) 0%Q.

(** text.py 260-272 and 234-244. *)
Definition words_w (ps : list lpart) : Q := fold_left (fun q p => (q + lp_width p)%Q) ps 0%Q.
Definition spaces_w (ps : list lpart) : Q := fold_left (fun q p => (q + lp_spaces p)%Q) ps 0%Q.
Definition factor_of (a : align) : Q := if is_just a then (7#10)%Q else 1%Q.
Definition min_width (a : align) (l : line) : Q := (words_w (l_parts l) + spaces_w (l_parts l) * factor_of a)%Q.

Definition with_parts (l : line) (ps : list lpart) : line :=
  mkLine (l_max l) ps (l_top l) (l_next l) (l_lws l) (l_first l) (l_started l).
Definition with_next (l : line) (n : option line) : line :=
  mkLine (l_max l) (l_parts l) (l_top l) n (l_lws l) (l_first l) (l_started l).
Definition with_flags (l : line) (lws first started : bool) : line :=
  mkLine (l_max l) (l_parts l) (l_top l) (l_next l) lws first started.

(** text.py 274-293 [add_line_part]. *)
Definition add_line_part (l : line) (y : style) (ids : list str) : line :=
  let n := match l_next l with Some n => n | None => new_line (l_max l) 0 end in
  with_next l (Some (with_parts n (l_parts n ++ [new_part y ids]))).

(** [xs[-1]] replaced by [f xs[-1]]. *)
Definition upd_last {A} (f : A -> A) (l : list A) : res (list A) :=
  match rev l with [] => Err IndexError | x :: r => Ok (rev r ++ [f x]) end.

(** text.py 295-309 [add_accumulated]. *)
Definition add_accumulated (l : line) : res line :=
  match l_next l with
  | None => Err AttributeError
  | Some n =>
      do pr <- match l_parts l with
               | [] => Ok ([], l_parts n)
               | _ => match l_parts n with
                      | [] => Err IndexError
                      | f :: r => do ps <- upd_last (fun p => fold_left part_add (lp_words f) p) (l_parts l); Ok (ps, r)
                      end
               end;
      let '(ps, rest) := pr in
      do ps2 <- upd_last (fun p => part_add p sp) (ps ++ rest);
      match rev ps2 with
      | [] => Err IndexError
      | lst :: _ => Ok (with_next (with_parts l ps2) (Some (with_parts n [new_part (lp_style lst) (lp_ids lst)])))
      end
  end.

(** [self.next_line.line_parts[-1].add_word(word)]. *)
Definition next_add (l : line) (w : str) : res line :=
  match l_next l with
  | None => Err AttributeError
  | Some n => do ps <- upd_last (fun p => part_add p w) (l_parts n); Ok (with_next l (Some (with_parts n ps)))
  end.

(** text.py 311-366 [add_word]: the status, the line itself and, when it is
    finished, the new line. *)
Inductive status := Added | Ignored | Preadded | Finished (nl : line).
Definition add_word (a : align) (l : line) (w : str) : res (status * line) :=
  if negb (l_started l) then
    if isspace w then
      if l_first l then
        do l1 <- add_accumulated (with_flags l (l_lws l) (l_first l) true); Ok (Added, l1)
      else Ok (Ignored, l)
    else do l1 <- next_add (with_flags l (l_lws l) true (l_started l)) w; Ok (Added, l1)
  else
    if isspace w then
      if l_lws l then Ok (Ignored, l)
      else do l1 <- add_accumulated l; Ok (Added, l1)
    else
      do l1 <- next_add (with_flags l false (l_first l) (l_started l)) w;
      match l_next l1 with
      | None => Err AttributeError
      | Some n =>
          if qgtb (l_max l1) (min_width a l1 + min_width a n) then Ok (Preadded, l1)
          else
            match rev (l_parts l1) with
            | [] => Err IndexError
            | lst :: init =>
                let l2 := match rev (lp_words lst) with
                          | x :: _ => if is_sp x then with_parts l1 (rev init ++ [part_pop lst]) else l1
                          | [] => l1
                          end in
                (* [self.next_line] is the object that is returned, so the
                   finished line also refers to it, with its parts moved away *)
                let nl := mkLine (l_max n) [] (line_bottom l2)
                            (Some (mkLine (l_max l2) (l_parts n) 0 None true false false))
                            (l_lws n) true (l_started n) in
                Ok (Finished nl, with_next l2 (Some nl))
            end
      end.

(** ** Emission (text.py 806-1024) *)

Definition ocolor_eqb (a b : option rgb) : bool :=
  match a, b with Some x, Some y => rgb_eqb x y | None, None => true | _, _ => false end.
Definition str_pair_eqb (a b : fkey) : bool := str_eqb (fst a) (fst b) && str_eqb (snd a) (snd b).

(** text.py 42-64 [PDFState.compare]. *)
Definition compare (s : tstate) (o : option tstate) : list gop :=
  let ne {A} (f : tstate -> A) (eqb : A -> A -> bool) :=
    match o with None => true | Some s' => negb (eqb (f s) (f s')) end in
  (if ne t_font str_pair_eqb || ne t_size Qeq_bool then [GFont (fref (t_font s)) (round3 (t_size s))] else [])
  ++ (if ne t_color ocolor_eqb then match t_color s with Some c => [GFillColor (round_rgb round3 c)] | None => [] end else [])
  ++ (if ne t_rise Qeq_bool then [GRise (round3 (t_rise s))] else []).

(** text.py 935-978 [output_text]. *)
Definition output_text (p : lpart) (factor : Q) (e : em) : em :=
  let ops1 := compare (y_state (lp_style p)) (e_state e) in
  let tw := round3 (spw (lp_style p) * (factor - 1)) in
  let differs := match e_tw e with Some t => negb (Qeq_bool t tw) | None => true end in
  let ops2 := if differs then [GSpacing tw] else [] in
  let text := List.concat (lp_words p) in
  let ops3 := match text with [] => [] | _ => [GShow text] end in
  mkEm (e_started e) (e_y e) (e_indent e) (e_text e ++ ops1 ++ ops2 ++ ops3) (e_gfx e) (e_ids e)
    (Some (y_state (lp_style p))) (if differs then Some tw else e_tw e) (e_fill e) (e_color e) (e_sw e).

(** text.py 980-1024 [output_graphics]. *)
Definition output_graphics (p : lpart) (x y w : Q) (e : em) : em :=
  let st := y_state (lp_style p) in
  let '(fill, g1) :=
    match y_bg (lp_style p) with
    | None => (e_fill e, [])
    | Some c =>
        let differs := match e_fill e with Some c' => negb (rgb_eqb c c') | None => true end in
        (if differs then Some c else e_fill e,
         (if differs then [GFillColor (round_rgb round3 c)] else []) ++
         [GRect (round3 x) (round3 (y + t_rise st - t_size st * (1#4))) (round3 w) (round3 (t_size st * (6#5))); GFill])
    end in
  let '(color, sw, g2) :=
    if y_under (lp_style p) then
      let c := t_color st in
      let width := (t_size st * (7#100))%Q in
      let yu := round3 (y + t_rise st - width) in
      let dc := match e_color e with
                | None => match c with None => false | Some _ => true end
                | Some c' => negb (ocolor_eqb c c')
                end in
      let dw := match e_sw e with None => true | Some s => negb (Qeq_bool width s) end in
      (if dc then Some c else e_color e, if dw then Some width else e_sw e,
       (if dc then match c with Some c' => [GStrokeColor (round_rgb round3 c')] | None => [] end else []) ++
       (if dw then [GWidth (round3 width)] else []) ++
       [GMove (round3 x) yu; GLine (round3 (x + w)) yu; GStroke])
    else (e_color e, e_sw e, []) in
  mkEm (e_started e) (e_y e) (e_indent e) (e_text e) (e_gfx e ++ g1 ++ g2) (e_ids e)
    (e_state e) (e_tw e) fill color sw.

(** text.py 899-917: one part of a line, at [x]. *)
Definition emit_part (p : lpart) (factor x : Q) (e : em) : em * Q :=
  let e1 := output_text p factor e in
  let w := part_width p factor in
  let size := round3 (t_size (y_state (lp_style p))) in
  let text := List.concat (lp_words p) in
  let e2 :=
    match text with
    | [] => e1
    | _ =>
        if isspace text then e1
        else
          let y := (e_y e1 + t_rise (y_state (lp_style p)) - size * (1#4))%Q in
          let rects := map (fun id => (id, (round3 x, round3 y, round3 (x + w), round3 (y + size)))) (lp_ids p) in
          output_graphics p x (e_y e1) w
            (mkEm (e_started e1) (e_y e1) (e_indent e1) (e_text e1) (e_gfx e1) (e_ids e1 ++ rects)
               (e_state e1) (e_tw e1) (e_fill e1) (e_color e1) (e_sw e1))
    end in
  (e2, (x + w)%Q).
Fixpoint emit_parts (ps : list lpart) (factor x : Q) (e : em) : em :=
  match ps with [] => e | p :: r => let '(e1, x1) := emit_part p factor x e in emit_parts r factor x1 e1 end.

Definition add_ops (e : em) (ops : list gop) (started : bool) (y indent : Q) : em :=
  mkEm started y indent (e_text e ++ ops) (e_gfx e) (e_ids e) (e_state e) (e_tw e) (e_fill e) (e_color e) (e_sw e).

(** text.py 806-917 [add_line_to_stream]: the start of the line: where it is,
    the operators that go there, the flags [is_first_line] and
    [correct_indent] and the space to distribute.  The list text needs
    [setup_list]: without it attributes are missing. *)
Definition start_line (c : config) (d : dyn) (l : line) (is_last : bool)
  : res (em * Q * Q * bool * bool) :=
  let e := d_em d in
  let ww := words_w (l_parts l) in
  let sw := spaces_w (l_parts l) in
  do x0 <- match c_list c with
           | None => Ok 0%Q
           | Some _ => match d_lindent d with Some q => Ok q | None => Err TypeError end
           end;
  let h := line_height l in
  let ignore := negb (is_just (c_align c)) || is_last || Qeq_bool sw 0 in
  let fw := (d_width d - ww - x0)%Q in
  let indent := (if is_rc (c_align c) then
                   match c_align c with ACenter => (d_width d - ww - sw) / 2 | _ => d_width d - ww - sw end
                 else 0)%Q in
  let x1 := (if is_rc (c_align c) then x0 + indent else x0)%Q in
  let adj := (if is_rc (c_align c) then indent - e_indent e else 0)%Q in
  let last_indent := if is_rc (c_align c) then indent else e_indent e in
  let factor fw := (if ignore then 1 else fw / sw)%Q in
  if negb (e_started e) then
    if d_first d then
      let first_indent := if is_rc (c_align c) then adj else c_indent c in
      match c_list c with
      | Some li =>
          match d_lstate d with
          | None => Err AttributeError
          | Some ls =>
              let fh := if qgtb (t_size ls) h then t_size ls else h in
              Ok (add_ops e ([GTd 0 (- round3 fh)] ++ compare ls (e_state e) ++
                             [GShow (li_text li); GTd (first_indent + x0) 0]) true (e_y e - fh) last_indent,
                  (x1 + c_indent c)%Q, factor (fw - c_indent c)%Q, false, d_correct d)
          end
      | None =>
          Ok (add_ops e [GTd (round3 first_indent) (- round3 h)] true (e_y e - h) last_indent,
              (x1 + c_indent c)%Q, factor (fw - c_indent c)%Q, false, d_correct d)
      end
    else
      let first_indent := (match c_list c with Some _ => adj + x0 | None => adj end)%Q in
      Ok (add_ops e [GTd (round3 first_indent) (- round3 h)] true (e_y e - h) last_indent,
          x1, factor fw, d_first d, d_correct d)
  else
    let adj' := (if d_correct d then adj - c_indent c else adj)%Q in
    let fh := (h * c_lh c)%Q in
    Ok (add_ops e [GTd (round3 adj') (- round3 fh)] true (e_y e - fh) last_indent,
        x1, factor fw, d_first d, false).
Definition add_line_to_stream (c : config) (d : dyn) (l : line) (is_last : bool) : res (em * Q * Q * bool * bool) :=
  do r <- start_line c d l is_last;
  let '(e, x, factor, first, correct) := r in
  Ok (emit_parts (l_parts l) factor x e, x, factor, first, correct).

(** ** The run *)

(** text.py 726-762 [add_current_line].  The line that was added is kept in
    [lines]. *)
Definition add_current_line (c : config) (d : dyn) (cur : line) (is_last : bool) : res (bool * dyn) :=
  let cur1 := if is_last then match l_next cur with
                              | Some n => with_parts cur (l_parts cur ++ l_parts n)
                              | None => cur
                              end else cur in
  let h := (if d_added d then line_height cur1 * c_lh c else line_height cur1)%Q in
  if qgtb (h + d_h d) (d_height d) then
    Ok (false, mkDyn (d_lpart d) (d_lword d) (d_lpart d) (d_lword d) (d_apart d) (d_aword d)
                 (d_first d) (d_correct d) (d_listdone d) (d_fin d) (d_lindent d) (d_lstate d)
                 (d_width d) (d_height d) true (d_h d) (d_lines d) (d_em d) (d_used d) (d_cused d) (d_marks d))
  else
    do r <- add_line_to_stream c d cur1 is_last;
    let '(e, x, factor, first, correct) := r in
    Ok (true, mkDyn (d_part d) (d_word d) (d_apart d) (d_aword d) (d_apart d) (d_aword d)
                first correct (d_listdone d) (d_fin d) (d_lindent d) (d_lstate d)
                (d_width d) (d_height d) true (d_h d + h) (d_lines d ++ [cur1]) e (d_used d ++ d_cused d) []
                (d_marks d ++ [mkMark is_last x factor])).

Definition set_added (d : dyn) (p w : nat) : dyn :=
  mkDyn (d_part d) (d_word d) (d_lpart d) (d_lword d) p w (d_first d) (d_correct d) (d_listdone d) (d_fin d)
    (d_lindent d) (d_lstate d) (d_width d) (d_height d) (d_added d) (d_h d) (d_lines d) (d_em d) (d_used d) (d_cused d) (d_marks d).
Definition set_word (d : dyn) (w : nat) : dyn :=
  mkDyn (d_part d) w (d_lpart d) (d_lword d) (d_apart d) (d_aword d) (d_first d) (d_correct d) (d_listdone d) (d_fin d)
    (d_lindent d) (d_lstate d) (d_width d) (d_height d) (d_added d) (d_h d) (d_lines d) (d_em d) (d_used d) (d_cused d) (d_marks d).
Definition set_fin (d : dyn) : dyn :=
  mkDyn (d_part d) (d_word d) (d_lpart d) (d_lword d) (d_apart d) (d_aword d) (d_first d) (d_correct d) (d_listdone d) true
    (d_lindent d) (d_lstate d) (d_width d) (d_height d) (d_added d) (d_h d) (d_lines d) (d_em d) (d_used d) (d_cused d) (d_marks d).

Definition add_used (d : dyn) (k : fkey) : dyn :=
  mkDyn (d_part d) (d_word d) (d_lpart d) (d_lword d) (d_apart d) (d_aword d) (d_first d) (d_correct d) (d_listdone d) (d_fin d)
    (d_lindent d) (d_lstate d) (d_width d) (d_height d) (d_added d) (d_h d) (d_lines d) (d_em d)
    (d_used d) (d_cused d ++ [k]) (d_marks d).

(** text.py 764-804 [setup_list]: the state, the line with less width. *)
Definition setup_list (li : listinfo) (d : dyn) (cur : line) : res (dyn * line) :=
  match l_next cur with
  | None => Err AttributeError
  | Some n =>
      match l_parts n with
      | [] => Err IndexError
      | p :: _ =>
          let y := li_style li (lp_style p) in
          let ind := match d_lindent d with Some q => q | None => word_w y (li_text li) end in
          Ok (mkDyn (d_part d) (d_word d) (d_lpart d) (d_lword d) (d_apart d) (d_aword d) (d_first d) (d_correct d)
                true (d_fin d) (Some ind) (Some (y_state y)) (d_width d) (d_height d)
                (d_added d) (d_h d) (d_lines d) (d_em d) (d_used d) (d_cused d ++ [t_font (y_state y)]) (d_marks d),
              mkLine (l_max cur - ind)%Q (l_parts cur) (l_top cur) (l_next cur)
                (l_lws cur) (l_first cur) (l_started cur))
      end
  end.

(** text.py 704-722: the loop over the words of a part, from word [i] of [n]
    words of part [p]. *)
Fixpoint words_loop (c : config) (p : nat) (last_part : bool) (i : nat) (ws : list str) (d : dyn) (cur : line)
  : res (bool * dyn * line) :=
  match ws with
  | [] => Ok (true, d, cur)
  | w :: r =>
      do (st, cur1) <- add_word (c_align c) cur w;
      match st with
      | Added => words_loop c p last_part (S i) r (set_added d p (S i)) cur1
      | Finished nl =>
          do (go, d1) <- add_current_line c d cur1 (last_part && match r with [] => true | _ => false end);
          do mx <- match c_list c with
                   | None => Ok (d_width d1)
                   | Some _ => match d_lindent d1 with Some q => Ok (d_width d1 - q)%Q | None => Err TypeError end
                   end;
          let nl1 := mkLine mx (l_parts nl) (l_top nl)
                       (match l_next nl with
                        | Some n => Some (mkLine mx (l_parts n) (l_top n) (l_next n) (l_lws n) (l_first n) (l_started n))
                        | None => None
                        end) (l_lws nl) (l_first nl) (l_started nl) in
          if go then words_loop c p last_part (S i) r d1 nl1 else Ok (false, d1, nl1)
      | _ => words_loop c p last_part (S i) r d cur1
      end
  end.

(** text.py 663-724 [add_part]. *)
Definition add_part (c : config) (p : nat) (text : str) (y : style) (ids : list str) (d : dyn) (cur : line)
  : res (bool * dyn * line) :=
  let cur1 := add_line_part cur y ids in
  do dl <- match c_list c with
           | Some li => if d_listdone d then Ok (d, cur1) else setup_list li d cur1
           | None => Ok (d, cur1)
           end;
  let '(d0, cur2) := dl in
  let d1 := add_used d0 (t_font (y_state y)) in
  let ws := tokenize text in
  do r <- words_loop c p (S p =? List.length (c_content c))%nat (d_word d1) (skipn (d_word d1) ws) d1 cur2;
  let '(go, d2, cur3) := r in
  if go then Ok (true, set_word d2 0, cur3) else Ok (false, d2, cur3).

(** text.py 634-661: the loop over the parts, from part [p] on. *)
Fixpoint parts_loop (c : config) (p : nat) (parts : list cpart) (d : dyn) (cur : line) : res (bool * dyn * line) :=
  match parts with
  | [] => Ok (true, d, cur)
  | CBr :: r =>
      do (go, d1) <- add_current_line c (set_added d (S p) 0) cur true;
      let cur1 := new_line (d_width d1) (c_lh c) in
      if go then parts_loop c (S p) r d1 cur1 else Ok (false, d1, cur1)
  | CText text y ids :: r =>
      do r1 <- add_part c p text y ids d cur;
      let '(go, d1, cur1) := r1 in
      if go then parts_loop c (S p) r d1 cur1 else Ok (false, d1, cur1)
  | COther :: r => parts_loop c (S p) r d cur
  end.

(** text.py 587-614 [init] with the new rectangle. *)
Definition init_run (d : dyn) (w h : Q) : dyn :=
  mkDyn (d_part d) (d_word d) (d_lpart d) (d_lword d) (d_apart d) (d_aword d) (d_first d) (d_correct d) (d_listdone d) (d_fin d)
    (d_lindent d) (d_lstate d) w h false 0 [] em0 [] [] [].
(** text.py 616-661 [run]. *)
Definition run (c : config) (d0 : dyn) (w h : Q) : res dyn :=
  let d := init_run d0 w h in
  let cur := new_line (w - (if d_first d then c_indent c else 0))%Q (c_lh c) in
  do r <- parts_loop c (d_part d) (skipn (d_part d) (c_content c)) d cur;
  let '(go, d1, cur1) := r in
  if go then
    do (go2, d2) <- add_current_line c d1 cur1 true;
    Ok (if go2 then set_fin d2 else d2)
  else Ok d1.

(** text.py 434-475 [__init__]. *)
Definition fresh (c : config) : dyn :=
  mkDyn 0 0 0 0 0 0 true true false false (match c_list c with Some li => li_indent li | None => None end) None
    0 0 false 0 [] em0 [] [] [].
(** text.py 525-551. *)
Definition get_state (d : dyn) : nat * nat := (d_part d, d_word d).
Definition set_state (d : dyn) (s : nat * nat) : dyn :=
  mkDyn (fst s) (snd s) (d_lpart d) (d_lword d) (d_apart d) (d_aword d) (d_first d) (d_correct d) (d_listdone d) (d_fin d)
    (d_lindent d) (d_lstate d) (d_width d) (d_height d) (d_added d) (d_h d) (d_lines d) (d_em d) (d_used d) (d_cused d) (d_marks d).

(** [run] in one rectangle after the other, while it is not finished (content
    boxes and [PDF.text], pdf.py 703-714): the states after each run. *)
Fixpoint runs (c : config) (d : dyn) (rects : list (Q * Q)) : res (list dyn) :=
  match rects with
  | [] => Ok []
  | (w, h) :: r =>
      do d1 <- run c d w h;
      if d_fin d1 then Ok [d1] else do rest <- runs c d1 r; Ok (d1 :: rest)
  end.
End Layout.
