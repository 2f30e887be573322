(** Model of how a document is split into pages: pdfme/document.py 158-187,
    243-360 (page styles, rules per page, running sections).

    What a section draws on a page and what a running section draws are given
    by functions; a style dict is given by the three page keys; a key whose
    value is None is not modelled (it is the same as no key, but it hides the
    value of an earlier rule).  Lengths are exact rationals. *)
From Coq Require Import String QArith ZArith Lia List Permutation.
From Verif Require Import Py PyStr Parser StreamProofs Ranges Roman Margins PageGeom.
Open Scope list_scope.

(** document.py 19 [PAGE_PROPS]: the page keys of a style dict. *)
Record pstyle := mkPStyle { y_size : option psize; y_rot : option bool; y_margin : option mvalue }.
Definition over {A} (old new : option A) : option A := match new with Some _ => new | None => old end.
(** [dict.update] of the page keys. *)
Definition overlay (old new : pstyle) : pstyle :=
  mkPStyle (over (y_size old) (y_size new)) (over (y_rot old) (y_rot new)) (over (y_margin old) (y_margin new)).
Definition no_style : pstyle := mkPStyle None None None.

(** A dict of [per_page]: as the user writes it ([u_pages] is a text) and as it
    is kept (document.py 183-187). *)
Record urule := mkURule { u_pages : str; u_style : option pstyle; u_rs : option (list str * list str) }.
Record rule := mkRule { l_pages : multirange; l_style : option pstyle; l_rs : option (list str * list str) }.
Definition read_rule (u : urule) : res rule :=
  do m <- parse_range_string (u_pages u); Ok (mkRule m (u_style u) (u_rs u)).

(** Python sets of names. *)
Definition sadd (l : list str) (x : str) : list str := if existsb (str_eqb x) l then l else l ++ [x].
Definition sunion (l m : list str) : list str := fold_left sadd m l.
Definition sminus (l m : list str) : list str := filter (fun x => negb (existsb (str_eqb x) m)) l.
Definition sset (l : list str) : list str := sunion [] l.

(** document.py 316-330: the page arguments and the running sections of page
    [n] after each rule. *)
Definition apply_rule (n : Z) (st : pstyle * list str) (r : rule) : pstyle * list str :=
  if mr_mem (l_pages r) n then
    (match l_style r with Some y => overlay (fst st) y | None => fst st end,
     match l_rs r with Some (exc, inc) => sunion (sminus (snd st) (sset exc)) (sset inc) | None => snd st end)
  else st.
Definition page_plan (rules : list rule) (n : Z) (own : pstyle) (names : list str) : pstyle * list str :=
  fold_left (apply_rule n) rules (own, sset names).

(** A value of the keys x, y, width, height of a running section. *)
Inductive pos := PosNum (q : Q) | PosName (s : str) | PosNone.
Record rsec {B : Type} := mkRsec { rs_w : option pos; rs_h : option pos; rs_x : option pos; rs_y : option pos; rs_box : B }.
Arguments rsec : clear implicits. Arguments mkRsec {B}.

(** [margin[k]]. *)
Definition need (k : str) (d : list (str * Q)) : res Q := match dget k d with Some v => Ok v | None => Err KeyError end.
Definition is_name (s : str) (l : list string) : bool := existsb (fun k => str_eqb s (lit k)) l.

(** document.py 257-280: a key of a running section.  [names] gives the value
    of a name; another text is left as it is, and it fails when used as a
    number (modelled here). *)
Definition resolve (names : str -> option (res Q)) (dflt : Q) (v : option pos) : res (option Q) :=
  match v with
  | Some (PosName s) => match names s with Some r => do q <- r; Ok (Some q) | None => Err TypeError end
  | Some (PosNum q) => Ok (Some q)
  | Some PosNone => Ok None
  | None => Ok (Some dflt)
  end.

(** The arguments of [add_running_section]. *)
Record rsargs := mkArgs { a_x : option Q; a_y : option Q; a_w : option Q; a_h : option Q }.

Definition running_args {B} (pw ph : Q) (m : list (str * Q)) (r : rsec B) : res rsargs :=
  do mr <- need (lit "right") m; do ml <- need (lit "left") m;
  do mt <- need (lit "top") m; do mb <- need (lit "bottom") m;
  do w <- resolve (fun s => if is_name s ["left"; "right"]%string then Some (need s m)
                            else if is_name s ["full"]%string then Some (Ok pw) else None)
            (pw - mr - ml)%Q (rs_w r);
  do h <- resolve (fun s => if is_name s ["top"; "bottom"]%string then Some (need s m)
                            else if is_name s ["full"]%string then Some (Ok ph) else None)
            (ph - mt - mb)%Q (rs_h r);
  do x <- resolve (fun s => if is_name s ["left"]%string then Some (Ok ml)
                            else if is_name s ["right"]%string then Some (Ok (pw - mr)%Q) else None)
            (0#1)%Q (rs_x r);
  do y <- resolve (fun s => if is_name s ["top"]%string then Some (Ok mt)
                            else if is_name s ["bottom"]%string then Some (Ok (ph - mb)%Q) else None)
            (0#1)%Q (rs_y r);
  Ok (mkArgs x y w h).

Section Doc.
Variable float_of : str -> res Q.
(** [C]: what is left of a section.  [B]: the box of a running section. *)
Context {C B : Type}.
(** [_add_content] on a page: what is left, and whether it is finished. *)
Variable fill : C -> Q * Q * Q * Q -> page -> res (C * bool).
(** pdf.py 824-858 for a running section: the new cursor of the page. *)
Variable draw : B -> Q * Q * Q * Q -> page -> res (Q * Q).
(** The order in which python iterates a set. *)
Variable iter : list str -> list str.

Record section := mkSection { n_style : pstyle; n_offset : option Z; n_numstyle : option str; n_reset : option bool;
  n_running : list str; n_content : C }.
Record document := mkDocument { o_style : pstyle; o_offset : option Z; o_numstyle : option str; o_reset : option bool;
  o_running : list (str * rsec B); o_rules : list urule; o_sections : list section }.

(** What happened on each page: the section, the running sections with their
    arguments, the rectangle of the contents and the variable [$page]. *)
Record entry := mkEntry { e_section : nat; e_running : list (str * rsargs); e_rect : Q * Q * Q * Q;
  e_number : option str }.

(** document.py 253-280 [_set_running_sections]. *)
Fixpoint running_plan (dict : list (str * rsec B)) (pw ph : Q) (m : list (str * Q)) (names : list str) :
    res (list (str * rsargs * B)) :=
  match names with
  | [] => Ok []
  | k :: rest =>
      do r <- match dget k dict with Some r => Ok r | None => Err KeyError end;
      do a <- running_args pw ph m r;
      do l <- running_plan dict pw ph m rest;
      Ok ((k, a, rs_box r) :: l)
  end.

(** pdf.py 843 and 276-277: a running section on a page. *)
Definition draw_running (x : str * rsargs * B) (p : page) : res (Q * Q) :=
  let '(_, a, b) := x in
  let '(p', rect) := position_and_size p (a_x a) (a_y a) (a_w a) (a_h a) in
  draw b rect p'.

Definition with_sections (s : pages_state) (l : list (page -> res (Q * Q))) : pages_state :=
  mkPS (ps_w s) (ps_h s) (ps_rot s) (ps_margin s) (ps_pages s) (ps_index s) (ps_number s) (ps_offset s) (ps_roman s) l.

(** document.py 309-357: one turn of the loop of [_process_section]. *)
Definition do_page (rules : list rule) (dict : list (str * rsec B)) (k : nat) (own : pstyle) (names : list str)
    (s : pages_state) (c : C) : res (pages_state * C * bool * entry) :=
  let n := Z.of_nat (length (ps_pages s)) in
  let '(args, set_) := page_plan rules n own names in
  do s1 <- setup_page float_of s (y_size args) (y_rot args) (y_margin args);
  let '(pw, ph) := if ps_rot s1 then (ps_h s1, ps_w s1) else (ps_w s1, ps_h s1) in
  do ml <- need (lit "left") (ps_margin s1);
  do mr <- need (lit "right") (ps_margin s1);
  do mt <- need (lit "top") (ps_margin s1);
  do mb <- need (lit "bottom") (ps_margin s1);
  let rect := (ml, ph - mt, pw - mr - ml, ph - mt - mb)%Q in
  do plan <- running_plan dict pw ph (ps_margin s1) (iter set_);
  match add_page float_of (with_sections s1 (map draw_running plan)) None None None with
  | (Err e, _) => Err e
  | (Ok _, s2) =>
      match rev (ps_pages s2) with
      | [] => Err IndexError
      | p :: _ =>
          do cf <- fill c rect p;
          Ok (s2, fst cf, snd cf, mkEntry k (map fst plan) rect (ps_number s2))
      end
  end.

(** document.py 309-360: the loop, for at most [fuel] pages. *)
Fixpoint pages_loop (rules : list rule) (dict : list (str * rsec B)) (k : nat) (own : pstyle) (names : list str)
    (fuel : nat) (s : pages_state) (c : C) : res (pages_state * list entry) :=
  match fuel with
  | O => Err OutOfFuel
  | S fuel =>
      do r <- do_page rules dict k own names s c;
      let '(s', c', fin, e) := r in
      if fin : bool then Ok (s', [e])
      else do r' <- pages_loop rules dict k own names fuel s' c';
           Ok (fst r', e :: snd r')
  end.

(** document.py 290-307: the styles of the document and of the section are
    merged. *)
Definition process_section (d : document) (rules : list rule) (k : nat) (fuel : nat) (s : pages_state) (n : section) :
    res (pages_state * list entry) :=
  let own := overlay (o_style d) (n_style n) in
  let s1 := section_numbering s (over (o_offset d) (n_offset n)) (over (o_numstyle d) (n_numstyle n))
              (match over (o_reset d) (n_reset n) with Some b => b | None => false end) in
  pages_loop rules (o_running d) k own (n_running n) fuel s1 (n_content n).

Fixpoint process_sections (d : document) (rules : list rule) (k : nat) (fuel : nat) (s : pages_state) (l : list section) :
    res (pages_state * list entry) :=
  match l with
  | [] => Ok (s, [])
  | n :: rest =>
      do r <- process_section d rules k fuel s n;
      do r' <- process_sections d rules (S k) fuel (fst r) rest;
      Ok (fst r', snd r ++ snd r')
  end.

(** pdf.py 146-156 with document.py 165-172: the instance before any page. *)
Definition defaults : pstyle := mkPStyle (Some (PName (lit "a4"))) (Some false) (Some (MNum (milli 56693))).
Definition first_state (d : document) : res pages_state :=
  let y := overlay defaults (o_style d) in
  setup_page float_of (mkPS (0#1) (0#1) false [] [] 0%nat None
      (match o_offset d with Some z => z | None => 0%Z end)
      (match o_numstyle d with Some t => str_eqb t (lit "roman") | None => false end) [])
    (y_size y) (y_rot y) (y_margin y).

(** document.py 158-198 and 284-288. *)
Definition build (fuel : nat) (d : document) : res (pages_state * list entry) :=
  do rules <- mapM read_rule (o_rules d);
  do s <- first_state d;
  process_sections d rules 0%nat fuel s (o_sections d).
End Doc.
Arguments section : clear implicits. Arguments mkSection {C}.
Arguments document : clear implicits. Arguments mkDocument {C B}.
