(** Model of how a document described by a dict gets its styles:
    pdfme/document.py 6-9 and 158-181 ([PDFDocument.__init__]), 253-254 (running
    sections), 296-309 ([_process_section]), 449-461 ([_get_footnotes_obj]);
    pdfme/pdf.py 146-163 ([PDF.__init__]).

    Styles, elements and how an element passes its style to what is in it are
    those of Styles.v.  What the contents do with a style is not here. *)
From Coq Require Import String ZArith Lia.
From Verif Require Import Py PyStr Parser StreamProofs Styles.
Open Scope list_scope.
Open Scope nat_scope.

Section DocStyles.
Context {V : Type}.
Variables none five : V.
(** 'Helvetica', 11, 0.1, 'l', 1.1 and 0 of [PDF.__init__]; 0.5, 6, 10 of the
    formats of notes; '$footnote'; the list text of a note with its number. *)
Variables helvetica eleven tenth left_ eleven_tenths zero half six ten footnote_name : V.
Variable note_text : nat -> V.
Variable parse_str : str -> res (sdict V).
Notation sdict := (sdict V).
Notation elem := (elem V).
Notation sty := (sty V).

(** ** Model *)

(** A section: its style as it is given, and its content. *)
Record section := mkSection { s_style : sty; s_content : list elem }.
(** A document: its style, formats, running sections with their names, sections
    and the notes of its pages in order (document.py 200-241 collects them, see
    Footnotes.v). *)
Record doc := mkDoc {
  g_style : sdict; g_formats : str -> option sdict;
  g_running : list (str * elem); g_sections : list section }.

(** document.py 6-9 [STYLE_PROPS]. *)
Definition style_props : list (str * str) :=
  [(lit "f", lit "font_family"); (lit "s", lit "font_size"); (lit "c", lit "font_color"); (lit "text_align", lit "text_align");
   (lit "line_height", lit "line_height"); (lit "indent", lit "indent")].
(** document.py 161-163. *)
Definition style_args (st : sdict) : list (str * V) :=
  flat_map (fun kv => match st (fst kv) with Some v => [(snd kv, v)] | None => [] end) style_props.
(** pdf.py 146-163: the arguments with their defaults. *)
Definition create_pdf (args : list (str * V)) : defaults V :=
  let arg (k : string) (d : V) := match dget (lit k) args with Some v => v | None => d end in
  mkDefaults (arg "font_family"%string helvetica) (arg "font_size"%string eleven) (arg "font_color"%string tenth) (arg "text_align"%string left_)
    (arg "line_height"%string eleven_tenths) (arg "indent"%string zero).
Definition doc_defaults (d : doc) : defaults V := create_pdf (style_args (g_style d)).
(** document.py 178-181. *)
Definition doc_formats (d : doc) : str -> option sdict :=
  let own := fun n => if str_eqb n (lit "$footnotes") then Some (update (single (lit "s") ten) (single (lit "c") zero))
             else if str_eqb n (lit "$footnote") then Some (update (single (lit "r") half) (single (lit "s") six)) else None in
  fun n => match g_formats d n with Some st => Some st | None => own n end.

(** document.py 296-309: the box of a section.  Without style it gets {}. *)
Definition section_box (d : doc) (s : section) : res elem :=
  do own <- process_style (doc_formats d) (s_style s);
  Ok (EBox (SDict (update (g_style d) own)) (s_content s)).
Definition section_styles (d : doc) (s : section) : res (list (used V)) :=
  do e <- section_box d s; document_styles none five (doc_formats d) parse_str (doc_defaults d) e.
(** document.py 253-254, 282 and pdf.py 278-281: a running section is copied and
    becomes a content box. *)
Definition running_styles (d : doc) (name : str) : res (list (used V)) :=
  match dget name (g_running d) with
  | Some e => document_styles none five (doc_formats d) parse_str (doc_defaults d) e
  | None => Err KeyError
  end.
(** document.py 449-461: the note with its list text; a style that is a name is a
    string and has no method update. *)
Definition with_style (e : elem) (st : sty) : elem :=
  match e with
  | EPar s _ => EPar s st | EImg _ => EImg st | ETable _ rows => ETable st rows | EBox _ ch => EBox st ch | EGroup _ ch => EGroup st ch
  end.
Definition numbered_note (n : nat) (e : elem) : res elem :=
  let add st := update st (update (single (lit "list_text") (note_text n)) (single (lit "list_style") footnote_name)) in
  match style_of e with
  | SNone => Ok (with_style e (SDict (add empty)))
  | SDict st => Ok (with_style e (SDict (add st)))
  | SName _ | SOther => Err AttributeError
  end.
Fixpoint numbered_notes (n : nat) (l : list elem) : res (list elem) :=
  match l with [] => Ok [] | e :: r => do x <- numbered_note (S n) e; do y <- numbered_notes (S n) r; Ok (x :: y) end.
Definition notes_styles (d : doc) (notes : list elem) : res (list (used V)) :=
  do l <- numbered_notes 0 notes;
  document_styles none five (doc_formats d) parse_str (doc_defaults d) (EBox (SName (lit "$footnotes")) l).

(** ** Specification *)

(** The first thing that was said. *)
Fixpoint first_said (l : list (option V)) : option V :=
  match l with [] => None | Some v :: _ => Some v | None :: r => first_said r end.
(** The formats of a document: those given, and the two for notes. *)
Definition format_of (d : doc) (n : str) (k : str) : option V :=
  match g_formats d n with
  | Some st => st k
  | None => dget k (if str_eqb n (lit "$footnote") then [(lit "r", half); (lit "s", six)]
                    else if str_eqb n (lit "$footnotes") then [(lit "s", ten); (lit "c", zero)] else [])
  end.
Definition has_format (d : doc) (n : str) : Prop := g_formats d n <> None \/ n = lit "$footnote" \/ n = lit "$footnotes".
Definition given (d : doc) (st : sty) (k : str) : option V :=
  match st with SDict x => x k | SName n => format_of d n k | SNone | SOther => None end.
(** What an element says: its style, or else its style string. *)
Definition tells (d : doc) (e : elem) (k : str) : option V :=
  first_said [given d (style_of e) k; match e with EPar s _ => match parse_str s with Ok x => x k | Err _ => None end | _ => None end].
(** What is said from a place to the root, the root last. *)
Definition inside_out (d : doc) (w : list elem) (k : str) : list (option V) := rev (map (fun e => tells d e k) w).
(** What holds when nothing is said. *)
Definition constants : list (str * V) :=
  [(lit "f", helvetica); (lit "s", eleven); (lit "c", tenth); (lit "text_align", left_); (lit "line_height", eleven_tenths); (lit "indent", zero)].
Definition text_key (k : str) : Prop := In k [lit "f"; lit "s"; lit "c"; lit "text_align"; lit "line_height"; lit "indent"].

(** ** Proofs *)

Lemma first_said_app l m : first_said (l ++ m) = match first_said l with Some v => Some v | None => first_said m end.
Proof. induction l as [|[v|] l IH]; cbn; auto. Qed.
Lemma format_of_eq d n : match doc_formats d n with Some x => forall k, x k = format_of d n k | None => ~ has_format d n /\ forall k, format_of d n k = None end.
Proof.
  unfold doc_formats, format_of, has_format. destruct (g_formats d n) as [st|]; [reflexivity|].
  destruct (str_eqb n (lit "$footnotes")) eqn:E1.
  - apply str_eqb_eq in E1 as ->. cbn [str_eqb]. intros k. change (str_eqb (lit "$footnotes") (lit "$footnote")) with false.
    cbn [dget]. unfold update, single. destruct (str_eqb k (lit "c")) eqn:Ec.
    + apply str_eqb_eq in Ec as ->. reflexivity.
    + destruct (str_eqb k (lit "s")); reflexivity.
  - destruct (str_eqb n (lit "$footnote")) eqn:E2.
    + intros k. cbn [dget]. unfold update, single. destruct (str_eqb k (lit "s")) eqn:Ec.
      * apply str_eqb_eq in Ec as ->. reflexivity.
      * destruct (str_eqb k (lit "r")); reflexivity.
    + split; [|reflexivity]. intros [H|[H|H]]; [congruence| |]; subst n; rewrite str_eqb_refl in *; discriminate.
Qed.
Lemma tells_eq d e k : tells d e k = says (doc_formats d) parse_str e k.
Proof.
  unfold tells, says, written, given. cbn [first_said].
  assert (H : match style_of e with SDict x => x k | SName n => format_of d n k | _ => None end =
    match style_of e with SDict x => x k | SName n => match doc_formats d n with Some x => x k | None => None end | _ => None end).
  { destruct (style_of e) as [|n|x|]; try reflexivity. pose proof (format_of_eq d n) as H. destruct (doc_formats d n); [symmetry; apply H|apply H]. }
  rewrite <- H. clear H. destruct (style_of e) as [|n|x|]; cbn; try (destruct (x k); [reflexivity|]); try (destruct (format_of d n k); [reflexivity|]);
    destruct e; try reflexivity; destruct (parse_str s) as [y|]; try reflexivity; destruct (y k); reflexivity.
Qed.
Lemma way_first d w k :
  (exists v, nearest (doc_formats d) parse_str w k v /\ first_said (inside_out d w k) = Some v) \/
  (silent (doc_formats d) parse_str w k /\ first_said (inside_out d w k) = None).
Proof.
  unfold inside_out. induction w as [|e w IH] using rev_ind.
  - right. split; [intros e []|reflexivity].
  - rewrite map_app, rev_app_distr. cbn [map rev app first_said]. rewrite tells_eq.
    destruct (says (doc_formats d) parse_str e k) as [v|] eqn:E.
    + left. exists v. split; [|reflexivity]. exists w, e, []. split; [reflexivity|]. split; [exact E|intros ? []].
    + destruct IH as [(v & (a & x & b & -> & Hx & Hb) & Hv)|[Hs Hv]].
      * left. exists v. split; [|exact Hv]. exists a, x, (b ++ [e]). split; [now rewrite <- app_assoc|]. split; [exact Hx|].
        intros e' He. apply in_app_iff in He as [He|[<-|[]]]; [exact (Hb e' He)|exact E].
      * right. split; [|exact Hv]. intros e' He. apply in_app_iff in He as [He|[<-|[]]]; [exact (Hs e' He)|exact E].
Qed.

(** The styles in terms of what is said: [above] is what is said above the ways,
    [base] what holds then.  A side of a cell has the margin that is said for it,
    or else the one that is said for all of them, or else 5. *)
Definition style_is (d : doc) (above base : str -> list (option V)) (u : used V) (t : target V) : Prop :=
  match u, t with
  | ULeaf st, TLeaf w => forall k, plain k -> st k = first_said (inside_out d w k ++ above k ++ base k)
  | UCell st, TCell w inner =>
      let said k := inside_out d w k ++ (if inner then [] else above k) in
      (forall k, In k margins -> st k = first_said (said k ++ said (lit "cell_margin") ++ [Some five])) /\
      st (lit "cell_fill") = first_said (said (lit "cell_fill") ++ [Some none])
  | _, _ => False
  end.
Lemma said_is d base u t : as_said none five (doc_formats d) parse_str base u t -> style_is d (fun _ => []) (fun k => [base k]) u t.
Proof.
  destruct u as [st|st], t as [w|w inner]; try (intros []; fail).
  - intros H k Hk. cbn [as_said] in H. destruct (H k Hk) as [H1 H2].
    cbn [app]. rewrite first_said_app. destruct (way_first d w k) as [(v & G & ->)|[G ->]]; [exact (H1 v G)|].
    rewrite (H2 G). cbn. destruct (base k); reflexivity.
  - intros (H & F1 & F2). cbn [as_said style_is]. replace (if inner then [] else []) with (@nil (option V)) by (destruct inner; reflexivity). rewrite app_nil_r. split.
    + intros k Hk. destruct (H k Hk) as [H1 H2]. rewrite ?app_nil_r, !first_said_app.
      destruct (way_first d w k) as [(v & G & ->)|[G ->]]; [exact (H1 v G)|]. destruct (H2 G) as [H3 H4].
      destruct (way_first d w (lit "cell_margin")) as [(v & G' & ->)|[G' ->]]; [exact (H3 v G')|]. exact (H4 G').
    + rewrite ?app_nil_r, first_said_app. destruct (way_first d w (lit "cell_fill")) as [(v & G & ->)|[G ->]]; [exact (F1 v G)|exact (F2 G)].
Qed.

(** The root of the ways told apart. *)
Lemma under_is d root above base u t : (forall k, first_said (above k) = tells d root k) ->
  style_is d (fun _ => []) base u (under InBox root t) -> style_is d above base u t.
Proof.
  intros Ha. destruct u as [st|st], t as [w|w inner]; cbn [under is_cell]; try (intros []; fail).
  - intros H k Hk. specialize (H k Hk). rewrite H. unfold inside_out. cbn [map rev app]. rewrite <- app_assoc, !first_said_app. cbn [app first_said].
    rewrite Ha. destruct (first_said (rev _)); [reflexivity|]. destruct (tells d root k); reflexivity.
  - rewrite orb_false_r. destruct inner; cbn [style_is orb]; intros H; [exact H|]. rewrite !app_nil_r in H. destruct H as [H1 H2].
    assert (Hs : forall k, first_said (inside_out d (root :: w) k) = first_said (inside_out d w k ++ above k)).
    { intros k. unfold inside_out. cbn [map rev]. rewrite !first_said_app, Ha. cbn [first_said]. destruct (tells d root k); reflexivity. }
    split.
    + intros k Hk. rewrite (H1 k Hk), app_nil_r, !(first_said_app _ ((_ ++ _) ++ _)), (first_said_app _ [Some five]), first_said_app, (first_said_app _ [Some five]), !Hs. reflexivity.
    + rewrite H2, first_said_app, (first_said_app _ [Some none]), Hs. reflexivity.
Qed.

Lemma default_eq d k : default_style (doc_defaults d) k =
  if existsb (fun kv => str_eqb k (fst kv)) constants then first_said [g_style d k; dget k constants] else None.
Proof.
  unfold default_style, doc_defaults, create_pdf, style_args, style_props, constants. cbn [flat_map fst snd existsb].
  assert (Hd : forall key s, str_eqb k (lit s) = true -> key = s -> g_style d k = g_style d (lit key)) by (intros key s E ->; apply str_eqb_eq in E as ->; reflexivity).
  destruct (g_style d (lit "f")) eqn:E1, (g_style d (lit "s")) eqn:E2, (g_style d (lit "c")) eqn:E3, (g_style d (lit "text_align")) eqn:E4,
    (g_style d (lit "line_height")) eqn:E5, (g_style d (lit "indent")) eqn:E6; cbn [app df_f df_s df_c df_align df_lh df_indent];
    repeat match goal with |- context [if str_eqb k (lit ?x) then _ else _] =>
      let E := fresh "E" in destruct (str_eqb k (lit x)) eqn:E; [apply str_eqb_eq in E as ->; rewrite ?E1, ?E2, ?E3, ?E4, ?E5, ?E6; reflexivity|]
    end; cbn [orb]; reflexivity.
Qed.
End DocStyles.
