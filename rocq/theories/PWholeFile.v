(** Property C86: the words of contents are found again in the bytes of the
    file, each once and in its font, size and colour. *)
From Coq Require Import String QArith Qabs Qround Lqa Lia List Permutation.
From Verif Require Import Py PyStr PdfSyntax PdfFile Parser Denote StreamProofs Store Gfx TextLayout TextProofs TextOrder PText PText2 Alone PageText PPageText TextSplit WholeFile.
From Verif Require Fonts PdfObj PdfObjSpec PdfObjRun PdfObjDoc PdfWhole PdfReader FileSpec GoodObjs FileProofs PDoc PFile Table TableTokens Content ContentFlow Whole WholeProofs PWhole WholeMade.
Import ListNotations.
Open Scope N_scope.
Open Scope list_scope.

(** A file says one thing: its pages and the texts of a page are determined
    by the bytes. *)
Theorem C86_one_reading : forall inflate file,
  (forall ids ids', PdfReader.has_pages file ids -> PdfReader.has_pages file ids' -> ids = ids') /\
  (forall id l l', page_texts inflate file id l -> page_texts inflate file id l' -> l = l').
Proof. intros inflate file. split; [exact (has_pages_one file)|exact (texts_one inflate file)]. Qed.
Print Assumptions C86_one_reading.

Section Book.
Variable round3 : Q -> Q.
Variable text_w : fkey -> str -> Q.
Variable space_w : fkey -> Q.
Variable fref : fkey -> str.
Hypothesis round3_proper : forall x y, (x == y)%Q -> (round3 x == round3 y)%Q.
Hypothesis thousandths : forall q, exists k : Z, (round3 q == k # 1000)%Q.
Hypothesis regular : forall k, forallb is_regular (fref k) = true.

(** The document: it was made by [ops] in a process that had loaded no fonts,
    and written to [file]. *)
Variable load_ttf : str -> res Fonts.ttf.
Variable num : Q -> obj.
Variable descr : Fonts.ttf -> Store.dict.
Variable ttf_file : Fonts.ttf -> bytes.
Variable txt : Q -> str.
Variable flate : bytes -> bytes.
Variable inflate : bytes -> option bytes.
Variables u1 u2 version : str.
Variable reg : list (Fonts.fkey * str).
Variable ops : list PdfObj.op.
Variable level : Z.
Variable s : PdfObj.pdf.
Variable st : Store.store.
Variable file : bytes.
Hypothesis num_ok : forall q, denote (num q) <> None.
Hypothesis fonts_ok : PFile.readable_fonts load_ttf descr.
Hypothesis printed : forall q, py_number (round3 q) (txt q).
Hypothesis inflates : forall b, inflate (flate b) = Some b.
Hypothesis clear : Forall GoodObjs.clear_op ops.
Hypothesis no_fonts : Forall PdfObjRun.no_add_font ops.
Hypothesis W : PdfObjDoc.written load_ttf num round3 descr ttf_file (Fonts.mkProc reg []) ops level s st.
Hypothesis O : PdfWhole.write_doc txt flate u1 u2 version s st = (file, Ok tt).
Hypothesis small : blen file < 10 ^ 10.
Hypothesis hex1 : forallb is_hex u1 = true.
Hypothesis hex2 : forallb is_hex u2 = true.
(** The texts were written with the names that the document has for fonts. *)
Hypothesis names : forall k r id, Fonts.kget k (PdfObj.d_used s) = Some (r, id) -> r = fref k.

(** The things on each page: paragraphs, graphics and images. *)
Variable pages : list (list piece).
Hypothesis all_pages : List.length pages = List.length (PdfObjSpec.page_sizes (PdfObjSpec.history ops)).
Hypothesis on_pages : forall i ps, nth_error pages i = Some ps -> Forall2 (put round3) ps (PdfObjSpec.shows (PdfObjSpec.on i (PdfObjSpec.history ops))).
Hypothesis all_fair : Forall (Forall (fair round3)) pages.

Definition no_list_runs : Prop := forall ps x y d, In ps pages -> In (Paragraph x y d) ps ->
  exists c d0 w h, c_list c = None /\ TextLayout.run round3 text_w space_w fref c d0 w h = Ok d.
Lemma runs_drawn : no_list_runs -> forall ps, In ps pages -> Forall (drawn_by round3 text_w space_w fref) ps.
Proof. intros runs ps H. apply Forall_forall. intros p Hp x y d ->. exact (runs _ _ _ _ H Hp). Qed.

(** C86 for documents: a reader of the file sees, on each page, the texts of
    the parts of the lines of its paragraphs, in order, each in the font,
    size, rise and colour of its style, and no other text.  The paragraphs
    are results of runs and have no list text. *)
Theorem C86_texts_partial : no_list_runs -> exists ids texts, PdfReader.has_pages file ids /\ Forall2 (page_texts inflate file) ids texts /\
  Forall2 (fun ps l => Forall2 (seen_as round3 load_ttf reg) (flat_map piece_parts ps) l) pages texts.
Proof.
  intros runs. destruct (PFile.C85_file_partial load_ttf num round3 descr ttf_file txt flate u1 u2 version _ ops level s st file num_ok fonts_ok clear W O small hex1 hex2)
    as (ids & P1 & _ & P2 & P3 & _ & _).
  pose proof (PFile.readable_num _ num_ok) as Hn. pose proof (PFile.readable_ok _ _ fonts_ok) as Hf.
  assert (Hid : ids = map PdfObj.pp_id (PdfObj.d_pages s)).
  { apply (has_pages_one file); [exact P1|]. eapply FileProofs.doc_has_pages; eauto. }
  assert (F : forall i id, nth_error ids i = Some id -> FileSpec.fonts_at load_ttf descr ttf_file flate file reg (fun k => Fonts.kget k (PdfObj.d_used s)) (PdfObjSpec.history ops) i id).
  { intros i id Hi. rewrite Hid in Hi. eapply FileProofs.doc_page_fonts; eauto. }
  assert (K : forall i id ps, nth_error ids i = Some id -> nth_error pages i = Some ps ->
    exists l, page_texts inflate file id l /\ Forall2 (seen_as round3 load_ttf reg) (flat_map piece_parts ps) l).
  { intros i id ps Hi Hps. destruct (nth_error (PdfObjSpec.page_sizes (PdfObjSpec.history ops)) i) as [size|] eqn:Es.
    - eapply (file_texts round3 text_w space_w fref) with (num := num) (txt := txt) (flate := flate) (font_of := fun k => Fonts.kget k (PdfObj.d_used s)); eauto.
      + apply (runs_drawn runs). eapply nth_error_In, Hps.
      + rewrite Forall_forall in all_fair. apply all_fair. eapply nth_error_In, Hps.
    - exfalso. apply nth_error_None in Es. assert (i < List.length pages)%nat by (apply nth_error_Some; congruence). rewrite all_pages in H. lia. }
  exists ids. clear - K P1 P2 all_pages.
  assert (E : exists texts, Forall2 (page_texts inflate file) ids texts /\ Forall2 (fun ps l => Forall2 (seen_as round3 load_ttf reg) (flat_map piece_parts ps) l) pages texts).
  { rewrite <- all_pages in P2. clear P1 all_pages. revert ids P2 K. induction pages as [|ps r IH]; intros [|id ids] L K; try discriminate.
    - exists []. split; constructor.
    - destruct (K 0%nat id ps eq_refl eq_refl) as (l & L1 & L2). destruct (IH ids) as (ls & M1 & M2); [now injection L|intros i; exact (K (S i))|].
      exists (l :: ls). split; constructor; assumption. }
  destruct E as (texts & E1 & E2). exists texts. auto.
Qed.

Definition no_lists (pgs : list (list Whole.drawn)) : Prop := forall its c x y d, In its pgs -> In (Whole.DPar c x y d) its -> c_list c = None.
(** What was drawn on the pages is what was made by runs. *)
Lemma items_seen pgs : Forall (Forall (WholeMade.made round3 text_w space_w fref)) pgs -> Forall2 holds_items pages pgs -> no_lists pgs ->
  exists ids texts, PdfReader.has_pages file ids /\ Forall2 (page_texts inflate file) ids texts /\
    Forall2 (word_seen round3 load_ttf reg) (PWhole.shown_on pgs) (flat_map (flat_map seen_words) texts).
Proof.
  intros M Hi Hn.
  assert (runs : no_list_runs).
  { unfold no_lists in Hn.
    intros ps x y d H1 H2. clear - Hi Hn M H1 H2. revert Hn M. induction Hi as [|ps0 its pages0 pgs H _ IH]; intros Hn M; [destruct H1|].
    apply Forall_cons_iff in M as [M1 M2]. destruct H1 as [->|H1]; [|apply IH; [exact H1|intros; eapply Hn; [right|]; eassumption|exact M2]].
    unfold holds_items in H. assert (H2' : In (Paragraph x y d) (filter (fun p => negb (is_graphics p)) ps)) by (apply filter_In; split; [exact H2|reflexivity]).
    assert (E : exists c, In (Whole.DPar c x y d) its).
    { clear - H H2'. induction H as [|p it l l' H _ IH]; [destruct H2'|]. destruct H2' as [->|H2'].
      - destruct it as [c x' y' d'|]; cbn [same_thing] in H; [|contradiction]. destruct H as (<- & <- & <-). exists c. now left.
      - destruct (IH H2') as [c Hc]. exists c. now right. }
    destruct E as [c E]. rewrite Forall_forall in M1. destruct (M1 _ E) as (ds & d0 & w & h & _ & Er). exists c, d0, w, h. split; [|exact Er].
    exact (Hn its c x y d (or_introl eq_refl) E). }
  destruct (C86_texts_partial runs) as (ids & texts & T1 & T2 & T3). exists ids, texts. split; [exact T1|]. split; [exact T2|]. unfold PWhole.shown_on.
  assert (D : Forall (Forall (drawn_by round3 text_w space_w fref)) pages) by (apply Forall_forall; exact (runs_drawn runs)).
  clear - T3 Hi D. revert texts T3 D. induction Hi as [|ps its pages pgs H _ IH]; intros texts T3 D; inversion T3 as [|? l ? texts' T4 T5]; subst; [constructor|].
  apply Forall_cons_iff in D as [D1 D2]. cbn [flat_map]. apply Forall2_app; [|now apply IH]. exact (items_words round3 text_w space_w fref load_ttf reg _ _ D1 H _ T4).
Qed.

Section Contents.
Context {F B : Type}.
Variable b_eqb : B -> B -> bool.
Variable fuel : nat.
Notation kit := (@Whole.leaf_kit F B b_eqb round3 text_w space_w fref fuel).
Notation spec := (@WholeProofs.leaf_spec F B b_eqb round3 text_w space_w fref fuel).
Lemma contents_seen n l gap W0 rs fin pgs : WholeProofs.els_ok (kit n) (spec n) (Some W0) l -> Forall (fun r => (W0 <= Whole.rc_w r)%Q) rs ->
  Whole.pages (Whole.content_kit fuel (kit n)) (Content.fresh_content l 1 gap) rs = Ok (fin, pgs) -> Forall2 holds_items pages pgs -> no_lists pgs ->
  exists ids texts, PdfReader.has_pages file ids /\ Forall2 (page_texts inflate file) ids texts /\
    Forall2 (word_seen round3 load_ttf reg) (PWhole.shown_on pgs) (flat_map (flat_map seen_words) texts).
Proof. intros Hl Hr Hp Hi Hn. apply items_seen; [exact (WholeMade.pages_made b_eqb round3 text_w space_w fref fuel n l gap W0 rs fin pgs Hl Hr Hp)|exact Hi|exact Hn]. Qed.

(** C86 for contents of paragraphs, tables, boxes and images inside one
    another: the words between the spaces of the texts that a reader of the
    file sees are the words of the contents, each as often as it is written
    and in its own font, size, rise and colour; all of them when the
    contents were finished. *)
Theorem C86_words_partial : forall n l gap W0 rs fin pgs,
  WholeProofs.els_ok (kit n) (spec n) (Some W0) l -> Forall (fun r => (W0 <= Whole.rc_w r)%Q) rs ->
  Whole.pages (Whole.content_kit fuel (kit n)) (Content.fresh_content l 1 gap) rs = Ok (fin, pgs) ->
  Forall2 holds_items pages pgs -> no_lists pgs ->
  exists ids texts, PdfReader.has_pages file ids /\ Forall2 (page_texts inflate file) ids texts /\
    exists shown rest, Permutation (flat_map (WholeProofs.el_words (kit n) (spec n)) l) (shown ++ rest) /\ (fin = true -> rest = []) /\
      Forall2 (word_seen round3 load_ttf reg) shown (flat_map (flat_map seen_words) texts).
Proof.
  intros n l gap W0 rs fin pgs Hl Hr Hp Hi Hn. destruct (contents_seen n l gap W0 rs fin pgs Hl Hr Hp Hi Hn) as (ids & texts & T1 & T2 & T3).
  exists ids, texts. split; [exact T1|]. split; [exact T2|].
  destruct (PWhole.C75_words_partial b_eqb round3 text_w space_w fref fuel n l gap W0 rs fin pgs Hl Hr Hp) as (rest & R1 & R2).
  exists (PWhole.shown_on pgs), rest. auto.
Qed.
(** Without tables, also in the order in which they are written. *)
Theorem C86_order_partial : forall l gap W0 rs fin pgs,
  WholeProofs.els_ok (kit 0) (spec 0) (Some W0) l -> Forall (fun r => (W0 <= Whole.rc_w r)%Q) rs ->
  Whole.pages (Whole.content_kit fuel (kit 0)) (Content.fresh_content l 1 gap) rs = Ok (fin, pgs) ->
  Forall2 holds_items pages pgs -> no_lists pgs ->
  exists ids texts, PdfReader.has_pages file ids /\ Forall2 (page_texts inflate file) ids texts /\
    exists shown rest, flat_map (WholeProofs.el_words (kit 0) (spec 0)) l = shown ++ rest /\ (fin = true -> rest = []) /\
      Forall2 (word_seen round3 load_ttf reg) shown (flat_map (flat_map seen_words) texts).
Proof.
  intros l gap W0 rs fin pgs Hl Hr Hp Hi Hn. destruct (contents_seen 0 l gap W0 rs fin pgs Hl Hr Hp Hi Hn) as (ids & texts & T1 & T2 & T3).
  exists ids, texts. split; [exact T1|]. split; [exact T2|].
  destruct (PWhole.C75_order_partial b_eqb round3 text_w space_w fref fuel l gap W0 rs fin pgs Hl Hr Hp) as (rest & R1 & R2).
  exists (PWhole.shown_on pgs), rest. auto.
Qed.
End Contents.
End Book.
Print Assumptions C86_texts_partial.
Print Assumptions C86_words_partial.
Print Assumptions C86_order_partial.

(** ** Example: a document with contents over two pages *)

(** A printer of operators. *)
Definition ex_float (k : Z) : str := if (k =? 0)%Z then float_str false 0 0 else float_str (k <? 0)%Z (Z.abs_N k) (-4).
Lemma ex_float_ok k q : (q == k # 10000)%Q -> py_number q (ex_float k).
Proof.
  intros H. unfold ex_float. destruct (k =? 0)%Z eqn:E.
  - apply Z.eqb_eq in E. subst k. constructor; [reflexivity|]. rewrite H. reflexivity.
  - apply Z.eqb_neq in E. constructor; [intros Hz; lia|]. rewrite H. unfold float_value.
    assert (T : (inject_Z 10 ^ (-4) == 1 # 10000)%Q) by reflexivity. cbv zeta.
    destruct (k <? 0)%Z eqn:En; [apply Z.ltb_lt in En|apply Z.ltb_ge in En]; rewrite T; unfold Qeq, Qopp, Qmult, inject_Z; cbn [Qnum Qden]; rewrite N2Z.inj_abs_N; lia.
Qed.
Definition ex_txt86 (q : Q) : str := ex_float (Qfloor (q * 1000 + (1#2)) * 10).
Lemma ex_printed q : py_number (ex_round q) (ex_txt86 q).
Proof. apply ex_float_ok. unfold ex_round, Qeq. cbn [Qnum Qden]. lia. Qed.
Definition num_str (q : Q) : option str := let k := Qfloor (q * 10000) in if Qeq_bool q (k # 10000) then Some (ex_float k) else None.
Lemma num_str_ok q t : num_str q = Some t -> py_number q t.
Proof.
  unfold num_str. destruct (Qeq_bool q _) eqn:E; [|discriminate]. intros H. injection H as <-. apply Qeq_bool_iff in E. now apply ex_float_ok.
Qed.
Definition qsame (a b : Q) : bool := (Qnum a =? Qnum b)%Z && (Qden a =? Qden b)%positive.
Lemma qsame_eq a b : qsame a b = true -> a = b.
Proof. unfold qsame. intros H. apply andb_true_iff in H as [H1 H2]. apply Z.eqb_eq in H1. apply Pos.eqb_eq in H2. destruct a, b. cbn in *. congruence. Qed.
Definition print_op (o : gop) : option str :=
  match o with
  | GSave => Some (lit " q") | GRestore => Some (lit " Q") | GFill => Some (lit " F") | GStroke => Some (lit " S")
  | GBegin => Some (lit " BT") | GEnd => Some (lit " ET")
  | GConcat a b c d x y =>
      if qsame a 1 && qsame b 0 && qsame c 0 && qsame d 1 then
        match num_str x, num_str y with Some x, Some y => Some (lit " 1 0 0 1" +++ x +++ y +++ lit "cm") | _, _ => None end
      else None
  | GFillColor (Gray a) => match num_str a with Some a => Some ([] +++ a +++ lit "g") | None => None end
  | GStrokeColor (Gray a) => match num_str a with Some a => Some ([] +++ a +++ lit "G") | None => None end
  | GWidth a => match num_str a with Some a => Some ([] +++ a +++ lit "w") | None => None end
  | GCap z => if (z =? 0)%Z then Some (lit " 0 J") else None
  | GDash [] p => if qsame p 0 then Some (lit " [] 0 d") else None
  | GRect x y w h => match num_str x, num_str y, num_str w, num_str h with
                     | Some x, Some y, Some w, Some h => Some ([] +++ x +++ y +++ w +++ h +++ lit "re") | _, _, _, _ => None end
  | GMove x y => match num_str x, num_str y with Some x, Some y => Some ([] +++ x +++ y +++ lit "m") | _, _ => None end
  | GLine x y => match num_str x, num_str y with Some x, Some y => Some ([] +++ x +++ y +++ lit "l") | _, _ => None end
  | GTm x y => match num_str x, num_str y with Some x, Some y => Some (lit " 1 0 0 1" +++ x +++ y +++ lit "Tm") | _, _ => None end
  | GFont n a => match num_str a with Some a => Some (lit " /" ++ n +++ a +++ lit "Tf") | None => None end
  | GRise a => match num_str a with Some a => Some ([] +++ a +++ lit "Ts") | None => None end
  | GSpacing a => match num_str a with Some a => Some ([] +++ a +++ lit "Tw") | None => None end
  | GTd x y => match num_str x, num_str (- y)%Q with
               | Some x, Some h => if hd 0 h =? 45 then None else Some ([] +++ x +++ 45 :: h +++ lit "Td") | _, _ => None end
  | GShow t => Some (lit " (" ++ Fonts.escape_string t ++ lit ")Tj")
  | _ => None
  end.
Lemma print_op_ok o t : print_op o = Some t -> writes (fun _ => False) o t.
Proof.
  destruct o as [| |a b c d x y|[]|[]|w|z|[|? ?] p|x y w h|x y|x y| | | | |x y|n a|r|w|x y|u|n]; cbn [print_op]; try discriminate; intros H;
    repeat match type of H with context [match num_str ?q with _ => _ end] => let E := fresh "E" in destruct (num_str q) eqn:E; [apply num_str_ok in E|discriminate] end;
    try (injection H as <-; constructor; assumption).
  - destruct (qsame a 1 && qsame b 0 && qsame c 0 && qsame d 1) eqn:Eq; [|discriminate].
    repeat match type of H with context [match num_str ?q with _ => _ end] => let E := fresh "E" in destruct (num_str q) eqn:E; [apply num_str_ok in E|discriminate] end.
    apply andb_true_iff in Eq as [Eq E4]. apply andb_true_iff in Eq as [Eq E3]. apply andb_true_iff in Eq as [E1 E2].
    apply qsame_eq in E1, E2, E3, E4. subst. injection H as <-. constructor; assumption.
  - destruct (z =? 0)%Z eqn:Ez; [|discriminate]. apply Z.eqb_eq in Ez. subst z. injection H as <-. constructor.
  - destruct (qsame p 0) eqn:Ep; [|discriminate]. apply qsame_eq in Ep. subst p. injection H as <-. constructor.
  - destruct (hd 0 s0 =? 45) eqn:Eh; [discriminate|]. injection H as <-. apply N.eqb_neq in Eh. eapply W_td; try eassumption; [intros _; exact Eh|].
    rewrite Qopp_opp. reflexivity.
Qed.
Fixpoint print_ops (l : list gop) : option str :=
  match l with
  | [] => Some []
  | o :: r => match print_op o, print_ops r with Some a, Some b => Some (a ++ b) | _, _ => None end
  end.
Lemma print_ops_ok l : forall t, print_ops l = Some t -> writes_all (fun _ => False) l t.
Proof.
  induction l as [|o l IH]; intros t H; cbn [print_ops] in H; [injection H as <-; constructor|].
  destruct (print_op o) as [a|] eqn:E1; [|discriminate]. destruct (print_ops l) as [b|] eqn:E2; [|discriminate]. injection H as <-.
  constructor; [now apply print_op_ok|now apply IH].
Qed.
Definition fair_opb (o : gop) : bool :=
  forallb (fun q => negb (Qle_bool (inject_Z (10 ^ 16)) (Qabs q))) (op_numbers o) &&
  match o with GTd _ y => Qle_bool y 0 | GShow t => negb (existsb (fun c => c =? 13) t) | _ => true end.
Lemma fair_opb_ok o : fair_opb o = true -> fair_op o.
Proof.
  unfold fair_opb, fair_op. intros H. apply andb_true_iff in H as [H1 H2]. split.
  - intros q Hq. rewrite forallb_forall in H1. specialize (H1 _ Hq). apply negb_true_iff in H1.
    destruct (Qlt_le_dec (Qabs q) (inject_Z (10 ^ 16))) as [L|L]; [exact L|]. apply Qle_bool_iff in L. congruence.
  - destruct o; try exact I; [now apply Qle_bool_iff|]. intros Hin. apply negb_true_iff in H2.
    assert (X : existsb (fun c => c =? 13) s = true) by (apply existsb_exists; exists 13; split; [exact Hin|reflexivity]). congruence.
Qed.

(** The contents: a paragraph with a marked part, a table with a cell over
    two columns, an image and a box. *)
Definition ex_fref (k : fkey) : str := if str_eqb (snd k) (lit "n") then lit "F1" else lit "F2".
Definition ex_y (mode : str) (size : Q) (m : bool) : style :=
  mkStyle (mkState (lit "Helvetica", mode) size (Some (Gray (if m then 1#2 else 0))) 0) m (if m then Some (Gray (1#4)) else None).
Definition ex_par86 (t : str) : config := mkCfg [CText t (ex_y (lit "n") 4 false) []] ALeft (11#10) 0 None.
Definition ex_two : config := mkCfg [CText (lit "one two ") (ex_y (lit "n") 4 false) []; CText (lit "three(3)") (ex_y (lit "b") 4 true) []] ALeft (11#10) 0 None.
Notation ex_kit := (@Whole.leaf_kit unit unit (fun _ _ => true) ex_round ex_text_w ex_space_w ex_fref 60).
Notation ex_spec := (@WholeProofs.leaf_spec unit unit (fun _ _ => true) ex_round ex_text_w ex_space_w ex_fref 60).
Definition ex_grid : Whole.kE (ex_kit 1) :=
  inr (PWhole.ex_table [[PWhole.ex_cell 2 (inl (ex_par86 (lit "a b c d e"))); PWhole.ex_cell 1 (inl (ex_par86 (lit "not shown")))]; [PWhole.ex_cell 1 (inl (ex_par86 (lit "f g"))); PWhole.ex_cell 1 (inl (ex_par86 (lit "h")))]] 2 (inl (ex_par86 []))).
Definition ex_contents : list (@Content.elem (Whole.kE (ex_kit 1))) :=
  [Content.Leaf PWhole.ex_st (inl ex_two); Content.Leaf PWhole.ex_st ex_grid; Content.Image PWhole.ex_st 0 20 10;
   Content.Child PWhole.ex_st 1 None [Content.Leaf PWhole.ex_st (inl (ex_par86 (lit "the end")))]].
Definition ex_rects : list Whole.rect := repeat (Whole.mkRect 10 100 40 40) 4.
Notation ex_pgs := (Whole.pages (Whole.content_kit 60 (ex_kit 1)) (Content.fresh_content ex_contents 1 None) ex_rects).
Lemma ex_contents_ok : WholeProofs.els_ok (ex_kit 1) (ex_spec 1) (Some 40%Q) ex_contents.
Proof.
  assert (Hb : forall E (sp : E -> Prop) (ws : E -> list WholeProofs.word) rows cols (blank : E), (0 < cols)%nat -> (forall row c, In row rows -> In c row -> TableTokens.cell_ok sp c) ->
    sp blank -> ws blank = [] -> TableTokens.table_ok sp ws (PWhole.ex_table rows cols blank)).
  { intros E sp ws rows cols blank H1 H2 H3 H4. constructor; [exact H1|exact H2| |intros; cbn; lra].
    split; [|split; [reflexivity|exact H4]]. split; [cbn; lia|]. split; [cbn; lra|]. split; [cbn; lra|exact H3]. }
  assert (Hp : forall s, (0 < c_lh (ex_par86 s))%Q) by (intros s; reflexivity).
  assert (Hc : forall E (sp : E -> Prop) n e, (0 < n)%nat -> sp e -> TableTokens.cell_ok sp (PWhole.ex_cell n e)).
  { intros E sp n e Hn H. split; [cbn; lia|]. split; [cbn; lra|]. split; [cbn; lra|exact H]. }
  assert (Hs : ContentFlow.plain_style PWhole.ex_st) by (split; cbn; lra).
  assert (Ho : WholeProofs.sp_ok (ex_kit 1) (ex_spec 1) ex_grid).
  { apply Hb; [lia| |exact (Hp _)|reflexivity]. intros row c Hr Hin.
    repeat (destruct Hr as [<-|Hr]; [repeat (destruct Hin as [<-|Hin]; [apply Hc; [lia|exact (Hp _)]|]); try contradiction|]); try contradiction. }
  split; [split; [exact Hs|reflexivity]|]. split; [split; [exact Hs|exact Ho]|]. split; [split; [exact Hs|]; split; [reflexivity|cbn; lra]|].
  split; [|exact I]. split; [exact Hs|]. split; [reflexivity|]. split; [split; [exact Hs|exact (Hp _)]|exact I].
Qed.

(** The document: each page has some graphics and what was drawn there. *)
Definition ex_lines : list graphic := [Fill (3#2) 20 (1#2) 9 (Gray (1#2)); Line 0 0 9 0 1 (Gray 0) Solid].
Definition ex_piece (it : Whole.drawn) : piece :=
  match it with Whole.DPar _ x y d => Paragraph x y d | Whole.DPic x y w h _ _ => Picture (lit "a.jpg") w h x y end.
Definition ex_book (pgs : list (list Whole.drawn)) : list (list piece) := map (fun its => Graphics ex_lines :: map ex_piece its) pgs.
Definition ex_styles : list PdfObj.style := [(lit "Helvetica", false, false); (lit "Helvetica", true, false)].
Definition ex_stream (p : piece) : str :=
  match piece_ops ex_round p with Ok l => match print_ops l with Some t => t | None => [] end | Err _ => [] end.
Definition ex_op (p : piece) : PdfObj.op :=
  match p with
  | Picture nm w h x y => PdfObj.OpImage nm PDoc.ex_img w h x y
  | Graphics _ => PdfObj.OpText (PdfObj.mkText 0 0 (ex_stream p) [] [])
  | Paragraph x y _ => PdfObj.OpText (PdfObj.mkText x y (ex_stream p) ex_styles [])
  end.
Definition ex_ops86 (pages : list (list piece)) : list PdfObj.op := flat_map (fun ps => PdfObj.OpPage 100 120 :: map ex_op ps) pages.
Lemma ex_clear pages : Forall GoodObjs.clear_op (ex_ops86 pages) /\ Forall PdfObjRun.no_add_font (ex_ops86 pages).
Proof.
  unfold ex_ops86. induction pages as [|ps pages [I1 I2]]; [split; constructor|]. cbn [flat_map].
  split; (constructor; [exact I|]); (apply Forall_app; split; [|assumption]); clear; induction ps as [|p ps IH]; cbn [map]; constructor; try exact IH;
    destruct p; cbn [ex_op GoodObjs.clear_op PdfObjRun.no_add_font PdfObj.tx_ids]; try exact I; try apply Forall_nil.
  split; [unfold PDoc.ex_img; apply Forall_cons; [right; split; [reflexivity|discriminate]|apply Forall_nil]|].
  cbn [In map fst PDoc.ex_img]. intros k Hk. repeat destruct Hk as [<-|Hk]; try contradiction; reflexivity.
Qed.
Definition ex_flate (b : bytes) : bytes := 120 :: rev b.
Definition ex_inflate (b : bytes) : option bytes := match b with 120 :: r => Some (rev r) | _ => None end.
Definition forall2b {A B} (f : A -> B -> bool) := fix go (l : list A) (m : list B) : bool :=
  match l, m with [], [] => true | a :: l, b :: m => f a b && go l m | _, _ => false end.
Lemma forall2b_ok {A B} (f : A -> B -> bool) (P : A -> B -> Prop) : (forall a b, f a b = true -> P a b) -> forall l m, forall2b f l m = true -> Forall2 P l m.
Proof.
  intros H. induction l as [|a l IH]; intros [|b m] E; try discriminate; constructor; cbn in E; apply andb_true_iff in E as [E1 E2]; auto.
Qed.
Definition put_b (p : piece) (e : PdfObjSpec.event) : bool :=
  match p, e with
  | Paragraph _ _ d, PdfObjSpec.EText styles t =>
      match piece_ops ex_round p with Ok l => match print_ops l with Some u => str_eqb t u | None => false end | Err _ => false end &&
      forallb (fun k => existsb (fun sty => Fonts.fkey_eqb (PdfObjSpec.style_key sty) k) styles) (d_used d)
  | Graphics _, PdfObjSpec.EText _ t => match piece_ops ex_round p with Ok l => match print_ops l with Some u => str_eqb t u | None => false end | Err _ => false end
  | Picture nm w h x y, PdfObjSpec.EDraw nm' w' h' x' y' => str_eqb nm nm' && qsame w w' && qsame h h' && qsame x x' && qsame y y'
  | _, _ => false
  end.
Lemma fkey_same a b : Fonts.fkey_eqb a b = true -> a = b.
Proof. unfold Fonts.fkey_eqb. intros H. apply andb_true_iff in H as [H1 H2]. apply str_eqb_eq in H1, H2. destruct a, b. cbn in *. congruence. Qed.
Lemma printed_ok p t : match piece_ops ex_round p with Ok l => match print_ops l with Some u => str_eqb t u | None => false end | Err _ => false end = true ->
  exists ops, piece_ops ex_round p = Ok ops /\ writes_all (fun _ => False) ops t.
Proof.
  destruct (piece_ops ex_round p) as [l|] eqn:E; [|discriminate]. destruct (print_ops l) as [u|] eqn:Ep; [|discriminate]. intros H. apply str_eqb_eq in H. subst u.
  exists l. split; [reflexivity|now apply print_ops_ok].
Qed.
Lemma put_b_ok p e : put_b p e = true -> put ex_round p e.
Proof.
  destruct p as [x y d|g|nm w h x y], e as [| styles t| | |n w' h' x' y'| | |]; cbn [put_b put]; try discriminate; intros H.
  - apply andb_true_iff in H as [H1 H2]. split; [now apply printed_ok|]. intros k Hk. rewrite forallb_forall in H2. specialize (H2 _ Hk).
    apply existsb_exists in H2 as (sty & S1 & S2). exists sty. split; [exact S1|now apply fkey_same].
  - now apply printed_ok.
  - repeat (apply andb_true_iff in H as [H ?Hq]). apply str_eqb_eq in H. repeat match goal with K : qsame _ _ = true |- _ => apply qsame_eq in K end. auto.
Qed.
Definition ex_names (s : PdfObj.pdf) : bool := forallb (fun kv : Fonts.fkey * (str * nat) => str_eqb (fst (snd kv)) (ex_fref (fst kv))) (PdfObj.d_used s).
Definition ex_write86 (ops : list PdfObj.op) : res (PdfObj.pdf * Store.store) :=
  do s0 <- PdfObj.new_pdf PDoc.ex_load PDoc.ex_num (fun _ => []) (fun _ => []) (Fonts.mkProc [] []);
  do s <- PdfObj.run PDoc.ex_load PDoc.ex_num ex_round (fun _ => []) (fun _ => []) ops s0;
  do st <- PdfObj.output_objects PDoc.ex_num 1 s;
  Ok (s, st).
Definition ex_file (s : PdfObj.pdf) (st : Store.store) := PdfWhole.write_doc ex_txt86 ex_flate (lit "0a") (lit "1b") (lit "1.5") s st.
Definition ex_check (pages : list (list piece)) (s : PdfObj.pdf) (st : Store.store) : bool :=
  let h := PdfObjSpec.history (ex_ops86 pages) in
  match ex_file s st with (f, Ok _) => blen f <? 10 ^ 10 | _ => false end && ex_names s &&
  (List.length pages =? List.length (PdfObjSpec.page_sizes h))%nat &&
  forallb (fun i => match nth_error pages i with Some ps => forall2b put_b ps (PdfObjSpec.shows (PdfObjSpec.on i h)) | None => false end) (seq 0 (List.length pages)) &&
  forallb (forallb (fun p => match piece_ops ex_round p with Ok l => forallb fair_opb l | Err _ => true end)) pages.
Definition ex_words : list str := map lit ["one"; "two"; "three(3)"; "a"; "b"; "c"; "d"; "e"; "f"; "g"; "h"; "the"; "end"]%string.
(** The hypotheses hold for it, and so the words are in the file. *)
Lemma ex_round_proper x y : (x == y)%Q -> (ex_round x == ex_round y)%Q.
Proof. intros H. unfold ex_round. assert (E : Qfloor (x * 1000 + (1#2)) = Qfloor (y * 1000 + (1#2))) by (apply Qfloor_comp; now rewrite H). rewrite E. reflexivity. Qed.
Example C86_applies : exists s st file, PdfObjDoc.written PDoc.ex_load PDoc.ex_num ex_round (fun _ => []) (fun _ => []) (Fonts.mkProc [] [])
    (match ex_pgs with Ok (_, pgs) => ex_ops86 (ex_book pgs) | Err _ => [] end) 1 s st /\
  ex_file s st = (file, Ok tt) /\
  exists ids texts, PdfReader.has_pages file ids /\ List.length ids = 2%nat /\ Forall2 (page_texts ex_inflate file) ids texts /\
    Permutation ex_words (map snd (flat_map (flat_map seen_words) texts)).
Proof.
  assert (C : match ex_pgs with
              | Ok (fin, pgs) => fin && (List.length pgs =? 2)%nat && forallb (forallb (fun it => match it with Whole.DPar c _ _ _ => match c_list c with None => true | Some _ => false end | _ => true end)) pgs &&
                  match ex_write86 (ex_ops86 (ex_book pgs)) with Ok (s, st) => ex_check (ex_book pgs) s st | Err _ => false end
              | Err _ => false end = true) by (vm_compute; reflexivity).
  destruct ex_pgs as [[fin pgs]|] eqn:Ep; [|discriminate]. apply andb_true_iff in C as [C C4]. apply andb_true_iff in C as [C C3]. apply andb_true_iff in C as [C1 C2].
  subst fin. apply Nat.eqb_eq in C2. destruct (ex_write86 (ex_ops86 (ex_book pgs))) as [[s st]|] eqn:Ew; [|discriminate].
  unfold ex_write86 in Ew. destruct (PdfObj.new_pdf _ _ _ _ _) as [s0|] eqn:E0; [|discriminate]. cbn [bind] in Ew.
  destruct (PdfObj.run _ _ _ _ _ _ s0) as [s1|] eqn:E1; [|discriminate]. cbn [bind] in Ew.
  destruct (PdfObj.output_objects _ _ s1) as [st1|] eqn:E2; [|discriminate]. cbn [bind] in Ew. injection Ew as -> ->.
  unfold ex_check in C4. cbv zeta in C4. apply andb_true_iff in C4 as [C4 C9]. apply andb_true_iff in C4 as [C4 C8]. apply andb_true_iff in C4 as [C4 C7]. apply andb_true_iff in C4 as [C5 C6].
  destruct (ex_file s st) as [file [[]|]] eqn:Ef; [|discriminate]. apply N.ltb_lt in C5. apply Nat.eqb_eq in C7.
  assert (Wr : PdfObjDoc.written PDoc.ex_load PDoc.ex_num ex_round (fun _ => []) (fun _ => []) (Fonts.mkProc [] []) (ex_ops86 (ex_book pgs)) 1 s st).
  { split; [exists s0; split; assumption|exact E2]. }
  exists s, st, file. split; [exact Wr|]. split; [exact Ef|].
  destruct (C86_words_partial ex_round ex_text_w ex_space_w ex_fref ex_round_proper ex_thousandths) with
    (load_ttf := PDoc.ex_load) (num := PDoc.ex_num) (descr := fun _ : Fonts.ttf => [] : Store.dict) (ttf_file := fun _ : Fonts.ttf => [] : bytes) (txt := ex_txt86) (flate := ex_flate) (inflate := ex_inflate)
    (u1 := lit "0a") (u2 := lit "1b") (version := lit "1.5") (reg := [] : list (Fonts.fkey * str)) (ops := ex_ops86 (ex_book pgs)) (level := 1%Z) (s := s) (st := st) (file := file) (pages := ex_book pgs)
    (F := unit) (B := unit) (b_eqb := fun _ _ : unit => true) (fuel := 60%nat) (n := 1%nat) (l := ex_contents) (gap := @None Q) (W0 := 40%Q) (rs := ex_rects) (fin := true) (pgs := pgs)
    as (ids & texts & T1 & T2 & shown & rest & T3 & T4 & T5).
  - intros k. unfold ex_fref. destruct (str_eqb (snd k) (lit "n")); reflexivity.
  - discriminate.
  - intros path t. discriminate.
  - exact ex_printed.
  - intros b. unfold ex_flate, ex_inflate. now rewrite rev_involutive.
  - apply ex_clear.
  - apply ex_clear.
  - exact Wr.
  - exact Ef.
  - exact C5.
  - reflexivity.
  - reflexivity.
  - intros k r id Hk. unfold ex_names in C6. rewrite forallb_forall in C6.
    assert (Hin : exists k', In (k', (r, id)) (PdfObj.d_used s) /\ k = k').
    { clear - Hk. induction (PdfObj.d_used s) as [|[k1 v1] m IH]; [discriminate|]. cbn [Fonts.kget] in Hk. destruct (Fonts.fkey_eqb k k1) eqn:E.
      - injection Hk as ->. exists k1. split; [now left|now apply fkey_same].
      - destruct (IH Hk) as (k' & K1 & K2). exists k'. split; [now right|exact K2]. }
    destruct Hin as (k' & Hin & <-). specialize (C6 _ Hin). now apply str_eqb_eq in C6.
  - exact C7.
  - intros i ps Hi. rewrite forallb_forall in C8. assert (L : (i < List.length (ex_book pgs))%nat) by (apply nth_error_Some; congruence).
    specialize (C8 i). rewrite Hi in C8. apply (forall2b_ok put_b _ put_b_ok). apply C8. apply in_seq. lia.
  - rewrite forallb_forall in C9. apply Forall_forall. intros ps Hps. specialize (C9 _ Hps). rewrite forallb_forall in C9. apply Forall_forall. intros p Hp l Hl.
    specialize (C9 _ Hp). rewrite Hl in C9. rewrite forallb_forall in C9. apply Forall_forall. intros o Ho. apply fair_opb_ok. now apply C9.
  - exact ex_contents_ok.
  - apply Forall_forall. intros r Hr. apply repeat_spec in Hr. subst r. cbn. lra.
  - exact Ep.
  - clear. unfold ex_book, holds_items. induction pgs as [|its pgs IH]; cbn [map]; constructor; [|exact IH]. cbn [filter is_graphics negb].
    induction its as [|it its IH2]; cbn [map filter]; [constructor|]. destruct it; cbn [ex_piece is_graphics negb]; constructor; try exact IH2; cbn [same_thing]; auto.
  - intros its c x y d H1 H2. rewrite forallb_forall in C3. specialize (C3 _ H1). rewrite forallb_forall in C3. specialize (C3 _ H2). cbn in C3. destruct (c_list c); [discriminate|reflexivity].
  - exists ids, texts. split; [exact T1|]. split.
    { assert (H1 : forall q, denote (PDoc.ex_num q) <> None) by discriminate.
      assert (H2 : PFile.readable_fonts PDoc.ex_load (fun _ => [])) by (intros path t; discriminate).
      destruct (PFile.C85_file_partial _ _ _ _ _ ex_txt86 ex_flate (lit "0a") (lit "1b") (lit "1.5") _ _ _ s st file H1 H2 (proj1 (ex_clear _)) Wr Ef C5 eq_refl eq_refl)
        as (ids' & P1 & _ & P2 & _).
      rewrite (has_pages_one _ _ _ T1 P1), P2, <- C7. unfold ex_book. now rewrite map_length. }
    split; [exact T2|]. rewrite (T4 eq_refl), app_nil_r in T3.
    assert (M : map (fun w : WholeProofs.word => snd w) shown = map snd (flat_map (flat_map seen_words) texts)).
    { clear - T5. induction T5 as [|[[y ids] w] sv l m [H _] _ IH]; [reflexivity|]. cbn [map snd]. congruence. }
    rewrite <- M. refine (Permutation_trans _ (Permutation_map _ T3)). vm_compute. reflexivity.
Qed.
