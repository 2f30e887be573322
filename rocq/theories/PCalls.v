(** Property C88: what is given to the methods of a document is found again in
    the bytes of the file. *)
From Coq Require Import String QArith Qabs Qround Lqa Lia List Permutation.
From Verif Require Import Py PyStr PdfSyntax PdfFile Parser Denote StreamProofs Gfx TextLayout TextProofs TextPaint PText Alone PageText PPageText WholeFile Links LinkFile Calls CallsProofs.
From Verif Require PageGeom Content Flow Fonts PdfObj PdfObjSpec PdfObjRun PdfObjDoc PdfWhole PdfReader FileSpec GoodObjs PDoc PFile Whole WholeProofs PWhole WholeMade PWholeFile PLinks.
Import ListNotations.
Open Scope N_scope.
Open Scope list_scope.

Section Shape.
Context {F B : Type}.
Variable round3 : Q -> Q.
Variable loads : str -> res (Z * str * str).
Variable print : list gop -> str.
Variable style_of : fkey -> PdfObj.style.
Variable pic : Q -> Q -> str * Store.dict.
Variable graphic_of : @Whole.rule F B -> graphic.
Variable P : PdfObj.op -> Prop.
Hypothesis on_text : forall t, P (PdfObj.OpText t).
Hypothesis on_image : forall iw ih w h x y, P (PdfObj.OpImage (fst (pic iw ih)) (snd (pic iw ih)) w h x y).
Lemma deliver_shape : forall ds ops, (forall w h, In (NewPage w h) ds -> P (PdfObj.OpPage w h)) -> deliver round3 loads print style_of pic graphic_of ds = Ok ops -> Forall P ops.
Proof.
  assert (A : forall ps os, add_all round3 loads print style_of pic ps = Ok os -> Forall P os).
  { induction ps as [|it ps IH]; intros os E; cbn [add_all] in E; [injection E as <-; constructor|].
    destruct (add_drawn round3 loads print style_of pic it) as [o|] eqn:Eo; [|discriminate]. cbn [bind] in E. destruct (add_all _ _ _ _ _ ps) as [os'|] eqn:Es; [|discriminate]. cbn [bind] in E. injection E as <-.
    constructor; [|now apply IH]. destruct it as [c x y d|x y w h iw ih]; cbn [add_drawn] in Eo; [|injection Eo as <-; apply on_image].
    destruct (piece_ops round3 (Paragraph x y d)) as [l|]; [|discriminate]. cbn [bind] in Eo. destruct (paragraph_ids loads d) as [l'|]; [|discriminate]. cbn [bind] in Eo. injection Eo as <-. apply on_text. }
  induction ds as [|[w h|box rs ps] l IH]; intros ops on_page E; cbn [deliver] in E.
  - injection E as <-. constructor.
  - destruct (deliver _ _ _ _ _ _ l) as [os|]; [|discriminate]. cbn [bind] in E. injection E as <-. constructor; [apply on_page; now left|apply IH; [|reflexivity]]. intros; apply on_page; now right.
  - destruct (if box then _ else _) as [g|] eqn:Eg; [|discriminate]. cbn [bind] in E. destruct (add_all _ _ _ _ _ ps) as [os|] eqn:Es; [|discriminate]. cbn [bind] in E.
    destruct (deliver _ _ _ _ _ _ l) as [more|]; [|discriminate]. cbn [bind] in E. injection E as <-. apply Forall_app. split; [|apply Forall_app; split; [exact (A _ _ Es)|apply IH; [intros; apply on_page; now right|reflexivity]]].
    destruct box; [|injection Eg as <-; constructor]. destruct (add_graphics round3 print graphic_of rs) as [o|] eqn:Eo; [|discriminate]. cbn [bind] in Eg. injection Eg as <-.
    constructor; [|constructor]. unfold add_graphics in Eo. destruct (piece_ops _ _); [|discriminate]. cbn [bind] in Eo. injection Eo as <-. apply on_text.
Qed.
End Shape.

Section Document.
Variable round3 : Q -> Q.
Variable text_w : fkey -> str -> Q.
Variable space_w : fkey -> Q.
Variable fref : fkey -> str.
Hypothesis round3_proper : forall x y, (x == y)%Q -> (round3 x == round3 y)%Q.
Hypothesis thousandths : forall q, exists k : Z, (round3 q == k # 1000)%Q.
Hypothesis regular : forall k, forallb is_regular (fref k) = true.

(** A new document with no running sections, and the calls. *)
Context {F B : Type}.
Variable b_eqb : B -> B -> bool.
Variable float_of : str -> res Q.
Variables fuel pfuel n : nat.
Notation call := (@call F B b_eqb round3 text_w space_w fref fuel n).
Variable start : PageGeom.pages_state.
Hypothesis new : PageGeom.ps_pages start = [].
Hypothesis can : Flow.can_add start.
Variable W0 : Q.
Hypothesis wide : forall p, Flow.default_page start p -> (W0 <= PageGeom.p_cw p)%Q.
Variable cs : list call.
Hypothesis cs_ok : Forall (call_ok b_eqb round3 text_w space_w fref fuel n W0) cs.
(** They end, with this on the pages. *)
Variable ds : list (@dev F B).
Variable finish : PageGeom.pages_state.
Hypothesis ends : calls_run b_eqb round3 text_w space_w fref float_of fuel pfuel n cs start = Content.Done (ds, finish).
Hypothesis no_lists : forall c x y d, In (Whole.DPar c x y d) (flat_map dev_items ds) -> c_list c = None.

(** It is handed to the pages. *)
Variable loads : str -> res (Z * str * str).
Variable print : list gop -> str.
Variable style_of : fkey -> PdfObj.style.
Variable pic : Q -> Q -> str * Store.dict.
Variable graphic_of : @Whole.rule F B -> graphic.
Variable ops : list PdfObj.op.
Hypothesis handed : deliver round3 loads print style_of pic graphic_of ds = Ok ops.
Hypothesis printing : forall p, In p (flat_map (dev_pieces graphic_of pic) ds) -> well_printed round3 print style_of p.

(** The document is written to [file]. *)
Variable load_ttf : str -> res Fonts.ttf.
Variable num : Q -> obj.
Variable descr : Fonts.ttf -> Store.dict.
Variable ttf_file : Fonts.ttf -> bytes.
Variable txt : Q -> str.
Variable flate : bytes -> bytes.
Variables u1 u2 version : str.
Variable reg : list (Fonts.fkey * str).
Variable level : Z.
Variable s : PdfObj.pdf.
Variable st : Store.store.
Variable file : bytes.
Hypothesis num_ok : forall q, denote (num q) <> None.
Hypothesis fonts_ok : PFile.readable_fonts load_ttf descr.
Hypothesis clear : Forall GoodObjs.clear_op ops.
Hypothesis W : PdfObjDoc.written load_ttf num round3 descr ttf_file (Fonts.mkProc reg []) ops level s st.
Hypothesis O : PdfWhole.write_doc txt flate u1 u2 version s st = (file, Ok tt).
Hypothesis small : blen file < 10 ^ 10.
Hypothesis hex1 : forallb is_hex u1 = true.
Hypothesis hex2 : forallb is_hex u2 = true.

Notation pieces := (dev_pieces graphic_of pic).
Lemma all_printed : Forall (well_printed round3 print style_of) (flat_map pieces ds).
Proof. apply Forall_forall. exact printing. Qed.
Lemma started : between_calls start start.
Proof. split; [apply Flow.same_refl|rewrite new; intros p; destruct (PageGeom.ps_index start); discriminate|now left]. Qed.
Lemma book_pages : List.length (snd (by_page pieces ds)) = List.length (PdfObjSpec.page_sizes (PdfObjSpec.history ops)).
Proof. rewrite by_page_length. unfold PdfObjSpec.history. symmetry. exact (deliver_sizes round3 loads print style_of pic graphic_of ds ops handed all_printed None 0%nat). Qed.
Lemma book_adds i ps : nth_error (snd (by_page pieces ds)) i = Some ps -> Forall2 (adds round3 loads) ps (ops_on i ops).
Proof.
  intros H. pose proof (deliver_adds round3 loads print style_of pic graphic_of ds ops handed all_printed None 0%nat i I) as A. cbn [app] in A. rewrite Nat.sub_0_r in A. cbn in A.
  rewrite (nth_error_nth _ _ _ H) in A. exact A.
Qed.
Lemma run_facts : List.length (PageGeom.ps_pages finish) = List.length (on_each_page ds).
Proof.
  destruct (calls_run_ok b_eqb round3 text_w space_w fref float_of fuel pfuel n start can W0 wide cs start ds finish started cs_ok ends) as (_ & L & _).
  unfold on_each_page. rewrite by_page_length. rewrite new in L. exact L.
Qed.
Lemma first_is_page : fst (by_page dev_items ds) = [].
Proof.
  destruct (calls_run_ok b_eqb round3 text_w space_w fref float_of fuel pfuel n start can W0 wide cs start ds finish started cs_ok ends) as (_ & _ & K & _).
  destruct (K new) as [->|(w & h & r & ->)]; [reflexivity|]. cbn [by_page]. now destruct (by_page dev_items r).
Qed.
Lemma in_each its it : In its (on_each_page ds) -> In it its -> In it (flat_map dev_items ds).
Proof.
  intros H1 H2. rewrite <- (by_page_all dev_items ds (fun _ _ => eq_refl)). apply in_or_app. right. apply in_concat. now exists its.
Qed.
Lemma each_made : Forall (Forall (WholeMade.made round3 text_w space_w fref)) (on_each_page ds).
Proof.
  destruct (calls_run_ok b_eqb round3 text_w space_w fref float_of fuel pfuel n start can W0 wide cs start ds finish started cs_ok ends) as (_ & _ & _ & M & _).
  rewrite Forall_forall in M. apply Forall_forall. intros its H1. apply Forall_forall. intros it H2. exact (M _ (in_each _ _ H1 H2)).
Qed.
Lemma each_no_lists : PWholeFile.no_lists (on_each_page ds).
Proof. intros its c x y d H1 H2. exact (no_lists c x y d (in_each _ _ H1 H2)). Qed.
Lemma shown_each : exists shown,
  Forall2 (fun c ws => Permutation (call_words b_eqb round3 text_w space_w fref fuel n c) ws /\ (is_text b_eqb round3 text_w space_w fref fuel n c -> call_words b_eqb round3 text_w space_w fref fuel n c = ws)) cs shown /\
  PWhole.shown_on (on_each_page ds) = concat shown.
Proof.
  destruct (calls_run_ok b_eqb round3 text_w space_w fref float_of fuel pfuel n start can W0 wide cs start ds finish started cs_ok ends) as (_ & _ & _ & _ & shown & K1 & K2).
  exists shown. split; [exact K1|]. rewrite shown_concat, <- K2. f_equal. unfold on_each_page. rewrite <- (by_page_all dev_items ds (fun _ _ => eq_refl)). now rewrite first_is_page.
Qed.
Lemma no_fonts_added : Forall PdfObjRun.no_add_font ops.
Proof. refine (deliver_shape round3 loads print style_of pic graphic_of _ _ _ ds ops _ handed); intros; exact I. Qed.

Lemma sizes_in : forall l cur m w h, In (w, h) (PdfObjSpec.page_sizes (PdfObjSpec.events cur m l)) -> In (PdfObj.OpPage w h) l.
Proof.
  assert (T : forall t w h e, In e (PdfObjSpec.text_events t) -> e <> PdfObjSpec.EPage w h).
  { intros t w h e H ->. unfold PdfObjSpec.text_events in H. destruct H as [H|H]; [discriminate|]. apply in_app_or in H as [H|H]; [apply in_map_iff in H as (? & ? & _); discriminate|].
    apply in_flat_map in H as ([k rs] & _ & H). cbn [fst snd] in H. unfold PdfObjSpec.id_events in H.
    destruct k; cbn in H; repeat match goal with K : In _ (match ?x with _ => _ end) |- _ => destruct x; cbn in K end; try contradiction;
      try (destruct H as [H|H]; try discriminate; try contradiction); apply in_map_iff in H as (? & ? & _); discriminate. }
  induction l as [|o l IH]; intros cur m w h H; [contradiction|]. unfold PdfObjSpec.page_sizes in H. destruct o; cbn [PdfObjSpec.events] in H.
  - cbn [flat_map snd app] in H. destruct H as [H|H]; [left; congruence|right; exact (IH _ _ _ _ H)].
  - right. exact (IH _ _ _ _ H).
  - rewrite flat_map_app in H. apply in_app_or in H as [H|H]; [|right; exact (IH _ _ _ _ H)]. destruct cur as [i|]; [|contradiction].
    apply in_flat_map in H as (e & H1 & H2). apply in_map_iff in H1 as (e' & <- & H1). cbn [snd] in H2. destruct e'; try contradiction. destruct H2 as [H2|[]]. injection H2 as -> ->. exfalso. exact (T _ _ _ _ H1 eq_refl).
  - rewrite flat_map_app in H. apply in_app_or in H as [H|H]; [|right; exact (IH _ _ _ _ H)]. destruct cur; cbn in H; contradiction.
  - right. exact (IH _ _ _ _ H).
Qed.
(** C88, the pages: the file has the pages of the document, all of them of its
    size. *)
Theorem C88_pages_partial : PageGeom.ps_sections start = [] -> exists ids, PdfReader.has_pages file ids /\ List.length ids = List.length (PageGeom.ps_pages finish) /\
  forall i id, nth_error ids i = Some id -> exists pv a b, PdfReader.value_at file id (VDict pv) /\ assoc (lit "MediaBox") pv = Some (VArr [VInt 0; VInt 0; a; b]) /\
    FileSpec.is_num num (if PageGeom.ps_rot start then PageGeom.ps_h start else PageGeom.ps_w start) a /\ FileSpec.is_num num (if PageGeom.ps_rot start then PageGeom.ps_w start else PageGeom.ps_h start) b.
Proof.
  intros _. destruct (PFile.C85_file_partial _ _ _ _ _ txt flate u1 u2 version _ _ _ s st file num_ok fonts_ok clear W O small hex1 hex2) as (ids & P1 & _ & P2 & P3 & _).
  exists ids. split; [exact P1|]. split.
  - rewrite P2, <- book_pages, by_page_length, run_facts. unfold on_each_page. now rewrite by_page_length.
  - intros i id Hi. destruct (nth_error (PdfObjSpec.page_sizes (PdfObjSpec.history ops)) i) as [[w h]|] eqn:Es; [|apply nth_error_None in Es; assert (i < List.length ids)%nat by (apply nth_error_Some; congruence); lia].
    destruct (P3 i id (w, h) Hi Es) as (pv & a & b & _ & _ & _ & V & M & N1 & N2 & _). exists pv, a, b. split; [exact V|]. split; [exact M|]. cbn [fst snd] in N1, N2.
    apply nth_error_In in Es. apply sizes_in in Es.
    pose proof (calls_sizes b_eqb round3 text_w space_w fref float_of fuel pfuel n start can W0 wide cs start ds finish started cs_ok ends) as S.
    pose proof (deliver_shape round3 loads print style_of pic graphic_of (fun o => match o with PdfObj.OpPage w h => (w, h) = (if PageGeom.ps_rot start then (PageGeom.ps_h start, PageGeom.ps_w start) else (PageGeom.ps_w start, PageGeom.ps_h start)) | _ => True end)
      (fun _ => I) (fun _ _ _ _ _ _ => I) ds ops (fun w h Hw => proj1 (Forall_forall _ _) S _ Hw) handed) as D.
    rewrite Forall_forall in D. specialize (D _ Es). cbn in D. destruct (PageGeom.ps_rot start); injection D as -> ->; auto.
Qed.

(** C88, the page breaks: each call goes on where the calls before it ended.
    What it shows in the rest of the current page and in whole pages of the
    document is on these pages of the document, after what was there. *)
Theorem C88_breaks_partial : PageGeom.ps_sections start = [] -> forall before c after, cs = before ++ c :: after -> draws b_eqb round3 text_w space_w fref fuel n c ->
  exists ds1 mid p r rs first rest, calls_run b_eqb round3 text_w space_w fref float_of fuel pfuel n before start = Content.Done (ds1, mid) /\
    nth_error (PageGeom.ps_pages mid) (PageGeom.ps_index mid) = Some p /\ S (PageGeom.ps_index mid) = List.length (PageGeom.ps_pages mid) /\
    rest_of p r /\ Forall (fun r => exists q, Flow.default_page start q /\ whole_of q r) rs /\
    call_pages b_eqb round3 text_w space_w fref fuel n c (r :: rs) = Ok (true, first :: rest) /\
    (exists later, nth (PageGeom.ps_index mid) (on_each_page ds) [] = nth (PageGeom.ps_index mid) (on_each_page ds1) [] ++ first ++ later) /\
    forall j, (j < List.length rest)%nat -> exists later, nth_error (on_each_page ds) (List.length (PageGeom.ps_pages mid) + j) = Some (nth j rest [] ++ later).
Proof.
  intros _ before c after Hcs Hd. pose proof ends as He. pose proof cs_ok as Hok. rewrite Hcs in He, Hok.
  destruct (calls_app b_eqb round3 text_w space_w fref float_of fuel pfuel n _ _ _ _ _ He) as (ds1 & mid & d2 & E1 & E2 & Hds). rewrite Hds.
  cbn [calls_run] in E2. destruct (call_run b_eqb round3 text_w space_w fref float_of fuel pfuel n c mid) as [[dc s1]| |] eqn:Ec; try discriminate. cbn [Content.abind] in E2.
  destruct (calls_run b_eqb round3 text_w space_w fref float_of fuel pfuel n after s1) as [[d3 s2]| |] eqn:E3; try discriminate. cbn [Content.abind] in E2. injection E2 as Hd2 Hs2. rewrite <- Hd2.
  apply Forall_app in Hok as [Ho _].
  destruct (calls_run_ok b_eqb round3 text_w space_w fref float_of fuel pfuel n start can W0 wide before start ds1 mid started Ho E1) as (Bt & L & _). rewrite new in L. cbn [List.length Nat.add] in L.
  destruct (call_breaks b_eqb round3 text_w space_w fref float_of fuel pfuel n start can c mid dc s1 (bc_same _ _ Bt) Hd Ec) as (p & r & rs & C1 & C2 & C3 & C4).
  assert (Last : S (PageGeom.ps_index mid) = List.length (PageGeom.ps_pages mid)).
  { destruct (bc_last _ _ Bt) as [K|K]; [|exact K]. rewrite K in C1. destruct (PageGeom.ps_index mid); discriminate. }
  exists ds1, mid, p, r, rs, (fst (by_page dev_items dc)), (snd (by_page dev_items dc)). split; [exact E1|]. split; [exact C1|]. split; [exact Last|]. split; [exact C2|]. split; [exact C3|]. split; [exact C4|].
  assert (L1 : List.length (snd (by_page dev_items ds1)) = List.length (PageGeom.ps_pages mid)) by (now rewrite by_page_length).
  pose proof (fun i => by_page_app dev_items ds1 (dc ++ d3) i) as A. pose proof (fun i => by_page_app dev_items dc d3 i) as A2. rewrite L1 in A. unfold on_each_page. split.
  - specialize (A (S (PageGeom.ps_index mid))). rewrite Last, Nat.leb_refl, Nat.sub_diag in A. rewrite <- Last in A. cbn [nth] in A. specialize (A2 0%nat). cbn [Nat.leb nth] in A2.
    eexists. rewrite A. f_equal. exact A2.
  - intros j Hj. pose proof (A (List.length (PageGeom.ps_pages mid) + S j)%nat) as A1. replace (List.length (PageGeom.ps_pages mid) + S j <=? List.length (PageGeom.ps_pages mid))%nat with false in A1 by (symmetry; apply Nat.leb_gt; lia).
    replace (List.length (PageGeom.ps_pages mid) <=? List.length (PageGeom.ps_pages mid) + S j)%nat with true in A1 by (symmetry; apply Nat.leb_le; lia).
    replace (List.length (PageGeom.ps_pages mid) + S j - List.length (PageGeom.ps_pages mid))%nat with (S j) in A1 by lia. rewrite (A2 (S j)) in A1.
    replace (S j <=? List.length (snd (by_page dev_items dc)))%nat with true in A1 by (symmetry; apply Nat.leb_le; lia). rewrite Nat.add_succ_r in A1. cbn [nth app] in A1.
    eexists. rewrite <- A1. apply nth_error_nth'. rewrite by_page_length, !filter_app, !app_length, <- !(by_page_length dev_items), L1. lia.
Qed.

(** C88, the words: a reader of the bytes of the file finds as many pages as
    the document has, and sees on them the words that the calls were given:
    those of each call together, in the order of the calls, each word once and
    in its own font, size, rise and colour; those of a paragraph in their
    order. *)
Theorem C88_words_partial : forall inflate, PageGeom.ps_sections start = [] ->
  (forall q, py_number (round3 q) (txt q)) -> (forall b, inflate (flate b) = Some b) ->
  (forall k r id, Fonts.kget k (PdfObj.d_used s) = Some (r, id) -> r = fref k) ->
  (forall p, In p (flat_map pieces ds) -> fair round3 p) ->
  exists ids texts shown, PdfReader.has_pages file ids /\ List.length ids = List.length (PageGeom.ps_pages finish) /\ Forall2 (page_texts inflate file) ids texts /\
    Forall2 (fun c ws => Permutation (call_words b_eqb round3 text_w space_w fref fuel n c) ws /\
      (is_text b_eqb round3 text_w space_w fref fuel n c -> call_words b_eqb round3 text_w space_w fref fuel n c = ws)) cs shown /\
    Forall2 (word_seen round3 load_ttf reg) (concat shown) (flat_map (flat_map seen_words) texts).
Proof.
  intros inflate _ printed inflates names all_fair. destruct shown_each as (shown & K1 & K2).
  assert (Fair : Forall (Forall (fair round3)) (snd (by_page pieces ds))).
  { apply Forall_forall. intros ps H1. apply Forall_forall. intros p H2. apply all_fair. rewrite <- (by_page_all pieces ds (fun _ _ => eq_refl)). apply in_or_app. right. apply in_concat. now exists ps. }
  destruct (PWholeFile.items_seen round3 text_w space_w fref round3_proper thousandths regular load_ttf num descr ttf_file txt flate inflate u1 u2 version reg ops level s st file
    num_ok fonts_ok printed inflates clear no_fonts_added W O small hex1 hex2 names (snd (by_page pieces ds)) book_pages
    (fun i ps H => put_on round3 loads i ops ps (book_adds i ps H)) Fair (on_each_page ds) each_made (proj2 (by_page_hold pic graphic_of ds)) each_no_lists) as (ids & texts & T1 & T2 & T3).
  exists ids, texts, shown. split; [exact T1|]. split; [|split; [exact T2|split; [exact K1|now rewrite <- K2]]].
  destruct (PLinks.items_links round3 text_w space_w fref round3_proper load_ttf num descr ttf_file txt flate u1 u2 version (Fonts.mkProc reg []) ops level s st file
    num_ok fonts_ok clear W O small hex1 hex2 loads (on_each_page ds) (snd (by_page pieces ds)) book_pages book_adds (proj2 (by_page_hold pic graphic_of ds)) each_made each_no_lists) as (ids' & L1 & L2 & _).
  rewrite (has_pages_one file ids ids' T1 L1), L2. now rewrite run_facts.
Qed.
(** C88, the links: the annotations of each page are the links of what is drawn
    on it; the labels lead to the parts that have them. *)
Theorem C88_links_partial : PageGeom.ps_sections start = [] -> exists ids, PdfReader.has_pages file ids /\ List.length ids = List.length (on_each_page ds) /\
  forall i id its, nth_error ids i = Some id -> nth_error (on_each_page ds) i = Some its ->
    exists pv anns, PdfReader.value_at file id (VDict pv) /\ Permutation (PdfReader.annotations pv) anns /\
      Forall2 (covers round3 num file) (wanted_links text_w space_w its) anns.
Proof.
  intros _. exact (PLinks.items_links round3 text_w space_w fref round3_proper load_ttf num descr ttf_file txt flate u1 u2 version (Fonts.mkProc reg []) ops level s st file
    num_ok fonts_ok clear W O small hex1 hex2 loads (on_each_page ds) (snd (by_page pieces ds)) book_pages book_adds (proj2 (by_page_hold pic graphic_of ds)) each_made each_no_lists).
Qed.
Theorem C88_labels_partial : PageGeom.ps_sections start = [] -> exists ids cat labels, PdfReader.has_pages file ids /\ PdfReader.catalog_is file cat /\ PdfReader.names_are file cat labels /\
  forall lb, match assoc lb labels with
             | Some v => exists i its it x y sp r, nth_error (on_each_page ds) i = Some its /\ In it its /\ label_spot text_w space_w lb it = Some (x, y, sp) /\
                 is_box round3 sp r /\ FileSpec.place_at num round3 ids (PdfObjSpec.page_sizes (PdfObjSpec.history ops)) (i, (x, y, r)) v
             | None => forall its it, In its (on_each_page ds) -> In it its -> label_spot text_w space_w lb it = None
             end.
Proof.
  intros _. exact (PLinks.items_labels round3 text_w space_w fref round3_proper load_ttf num descr ttf_file txt flate u1 u2 version (Fonts.mkProc reg []) ops level s st file
    num_ok fonts_ok clear W O small hex1 hex2 loads (on_each_page ds) (snd (by_page pieces ds)) book_pages book_adds (proj2 (by_page_hold pic graphic_of ds)) each_made each_no_lists).
Qed.
(** Every word that was given with a link has an annotation over it. *)
Theorem C88_linked_words_partial : PageGeom.ps_sections start = [] -> exists ids, PdfReader.has_pages file ids /\
  forall c y wids w id k, In c cs -> In (y, wids, w) (call_words b_eqb round3 text_w space_w fref fuel n c) -> In id wids -> link_of id = Some k ->
    exists i pid its pv ann x py sp, nth_error ids i = Some pid /\ nth_error (on_each_page ds) i = Some its /\ PdfReader.value_at file pid (VDict pv) /\ In ann (PdfReader.annotations pv) /\
      In (x, py, sp) (flat_map (par_spots text_w space_w) its) /\ lp_style (sp_of sp) = y /\ In w (lp_words (sp_of sp)) /\ covers round3 num file (k, (x, py, sp)) ann.
Proof.
  intros _. destruct (PLinks.items_words round3 text_w space_w fref round3_proper load_ttf num descr ttf_file txt flate u1 u2 version (Fonts.mkProc reg []) ops level s st file
    num_ok fonts_ok clear W O small hex1 hex2 loads (on_each_page ds) (snd (by_page pieces ds)) book_pages book_adds (proj2 (by_page_hold pic graphic_of ds)) each_made each_no_lists) as (ids & P1 & P2).
  exists ids. split; [exact P1|]. intros c y wids w id k Hc Hw. apply (P2 y wids w id k). destruct shown_each as (shown & K1 & ->).
  assert (X : exists ws, In ws shown /\ Permutation (call_words b_eqb round3 text_w space_w fref fuel n c) ws).
  { clear - K1 Hc. induction K1 as [|c0 ws cs0 sh [K _] _ IH]; [destruct Hc|]. destruct Hc as [->|Hc]; [exists ws; split; [now left|exact K]|]. destruct (IH Hc) as (ws' & I1 & I2). exists ws'. split; [now right|exact I2]. }
  destruct X as (ws & X1 & X2). apply in_concat. exists ws. split; [exact X1|]. exact (Permutation_in _ X2 Hw).
Qed.
End Document.
Print Assumptions C88_pages_partial.
Print Assumptions C88_breaks_partial.
Print Assumptions C88_words_partial.
Print Assumptions C88_links_partial.
Print Assumptions C88_labels_partial.
Print Assumptions C88_linked_words_partial.

(** ** An example
    A document of 60 by 60 with margins of 10: a page, a paragraph with links,
    a table, contents with an image, a paragraph and the label in a box. *)
Import PWholeFile PLinks.
Definition ex_start : PageGeom.pages_state :=
  PageGeom.mkPS 60 60 false [(lit "top", 10); (lit "right", 10); (lit "bottom", 10); (lit "left", 10)]%Q [] 0 None 0 false [].
Notation ex_call := (@call unit unit (fun _ _ => true) ex_round ex_text_w ex_space_w ex_fref 60 0).
Definition ex_box : list (@Content.elem (Whole.kE (ex_kit 0))) :=
  [Content.Image PWhole.ex_st 0 20 10; Content.Leaf PWhole.ex_st (ex_two : Whole.kE (ex_kit 0));
   Content.Child PWhole.ex_st 1 None [Content.Leaf PWhole.ex_st (ex_here : Whole.kE (ex_kit 0))]].
Definition ex_calls : list ex_call := [CPage; CAdd (inl ex_to); CAdd ex_grid; CContent ex_box 1 None; CPage; CAdd (inl (ex_par86 (lit "the last")))].
Notation ex_run := (calls_run (fun _ _ => true) ex_round ex_text_w ex_space_w ex_fref (fun _ => Ok 0%Q) 60 20 0 ex_calls ex_start).
Definition ex_print (l : list gop) : str := match print_ops l with Some t => t | None => [] end.
Definition ex_style_of (k : fkey) : PdfObj.style := (fst k, str_eqb (snd k) (lit "b"), false).
Definition ex_pic (_ _ : Q) : str * Store.dict := (lit "a.jpg", PDoc.ex_img).
Definition ex_graphic_of (r : @Whole.rule unit unit) : graphic :=
  match r with Whole.RLine l => Line 0 0 9 0 1 (Gray 0) Solid | Whole.RFill f => Fill (3#2) 20 (1#2) 9 (Gray (1#2)) end.
Notation ex_deliver := (deliver ex_round ex_loads ex_print ex_style_of ex_pic ex_graphic_of).
Notation ex_pieces := (dev_pieces ex_graphic_of ex_pic).
Lemma ex_can : Flow.can_add ex_start.
Proof.
  split; [|split; [|intros f p []]].
  - split; [repeat constructor; vm_compute; intuition discriminate|]. intros k H. vm_compute in H. vm_compute. tauto.
  - intros i. unfold PageGeom.page_number. cbn [ex_start PageGeom.ps_roman PageGeom.ps_offset]. eauto.
Qed.
Lemma ex_wide p : Flow.default_page ex_start p -> (40 <= PageGeom.p_cw p)%Q.
Proof.
  intros (H1 & H2 & H3 & H4 & H5 & H6 & H7). cbn [ex_start PageGeom.ps_rot PageGeom.ps_w PageGeom.ps_h] in H1. injection H1 as W1 W2.
  assert (E3 : PageGeom.p_mr p = 10%Q) by (rewrite H3; reflexivity). assert (E5 : PageGeom.p_ml p = 10%Q) by (rewrite H5; reflexivity).
  rewrite W1, E3, E5 in H6. rewrite H6. vm_compute. discriminate.
Qed.
Lemma ex_calls_ok : Forall (call_ok (fun _ _ => true) ex_round ex_text_w ex_space_w ex_fref 60 0 40) ex_calls.
Proof.
  pose proof ex_contents_ok as (_ & (_ & G) & _). assert (Hs : ContentFlow.plain_style PWhole.ex_st) by (split; cbn; lra).
  constructor; [exact I|]. constructor; [reflexivity|]. constructor; [exact G|]. constructor; [|constructor; [exact I|constructor; [reflexivity|constructor]]].
  split; [reflexivity|]. split; [split; [exact Hs|]; split; [reflexivity|cbn; lra]|]. split; [split; [exact Hs|reflexivity]|].
  split; [|exact I]. split; [exact Hs|]. split; [reflexivity|]. split; [split; [exact Hs|reflexivity]|exact I].
Qed.
Definition ex_sound (p : piece) : bool :=
  match piece_ops ex_round p with Ok l => match p, print_ops l with Picture _ _ _ _ _, _ | _, Some _ => true | _, None => false end && forallb fair_opb l | Err _ => true end &&
  match p with Paragraph _ _ d => forallb (fun k => Fonts.fkey_eqb (PdfObjSpec.style_key (ex_style_of k)) k) (d_used d) | _ => true end.
Lemma ex_sound_ok p : ex_sound p = true -> well_printed ex_round ex_print ex_style_of p /\ fair ex_round p.
Proof.
  unfold ex_sound. intros H. apply andb_true_iff in H as [H1 H2]. split; [split|].
  - destruct p as [x y d|g|nm w h x y]; try exact I; intros ops E; rewrite E in H1; unfold ex_print; (destruct (print_ops ops) as [t|] eqn:Et; [|discriminate]); now apply print_ops_ok.
  - destruct p; try exact I. rewrite forallb_forall in H2. intros k Hk. apply fkey_same. now apply H2.
  - intros l E. rewrite E in H1. apply andb_true_iff in H1 as [_ H1]. rewrite forallb_forall in H1. apply Forall_forall. intros o Ho. apply fair_opb_ok. now apply H1.
Qed.
Definition ex_clearb (o : PdfObj.op) : bool :=
  match o with
  | PdfObj.OpText t => forallb (fun kr : PdfObj.idk * list PdfObj.rect => match fst kr with PdfObj.ILabel t | PdfObj.IRef t | PdfObj.IUri t => plain_text t | PdfObj.IOutline _ _ _ => false end) (PdfObj.tx_ids t)
  | _ => true
  end.
Lemma ex_clear88 ds ops : ex_deliver ds = Ok ops -> forallb ex_clearb ops = true -> Forall GoodObjs.clear_op ops.
Proof.
  intros D C. rewrite forallb_forall in C. pose proof (deliver_shape ex_round ex_loads ex_print ex_style_of ex_pic ex_graphic_of (fun o => ex_clearb o = true -> GoodObjs.clear_op o)) as S.
  assert (A : Forall (fun o => ex_clearb o = true -> GoodObjs.clear_op o) ops).
  { refine (S _ _ ds ops _ D); [| |intros; exact I].
    - intros t H. cbn [ex_clearb] in H. rewrite forallb_forall in H. apply Forall_forall. intros kr Hkr. specialize (H _ Hkr). destruct (fst kr); try exact H. discriminate.
    - intros iw ih w h x y _. cbn [GoodObjs.clear_op ex_pic fst snd]. split; [unfold PDoc.ex_img; apply Forall_cons; [right; split; [reflexivity|discriminate]|apply Forall_nil]|].
      cbn [In map fst PDoc.ex_img]. intros k Hk. repeat destruct Hk as [<-|Hk]; try contradiction; reflexivity. }
  rewrite Forall_forall in A. apply Forall_forall. intros o Ho. apply A; [exact Ho|now apply C].
Qed.
Lemma ex_names_ok s : ex_names s = true -> forall k r id, Fonts.kget k (PdfObj.d_used s) = Some (r, id) -> r = ex_fref k.
Proof.
  intros C6 k r id Hk. unfold ex_names in C6. rewrite forallb_forall in C6.
  assert (Hin : exists k', In (k', (r, id)) (PdfObj.d_used s) /\ k = k').
  { clear - Hk. induction (PdfObj.d_used s) as [|[k1 v1] m IH]; [discriminate|]. cbn [Fonts.kget] in Hk. destruct (Fonts.fkey_eqb k k1) eqn:E.
    - injection Hk as ->. exists k1. split; [now left|now apply fkey_same].
    - destruct (IH Hk) as (k' & K1 & K2). exists k'. split; [now right|exact K2]. }
  destruct Hin as (k' & Hin & <-). specialize (C6 _ Hin). now apply str_eqb_eq in C6.
Qed.
Definition ex_check88 (ds : list (@dev unit unit)) (ops : list PdfObj.op) (s : PdfObj.pdf) (st : Store.store) : bool :=
  match ex_file s st with (f, Ok _) => blen f <? 10 ^ 10 | _ => false end && ex_names s && forallb ex_sound (flat_map ex_pieces ds) && forallb ex_clearb ops &&
  forallb (fun it => match it with Whole.DPar c _ _ _ => match c_list c with None => true | Some _ => false end | _ => true end) (flat_map dev_items ds).
Definition ex_given : list str := map lit ["see"; "the"; "web"; "or"; "the"; "end"; "of"; "this"; "a"; "b"; "c"; "d"; "e"; "f"; "g"; "h"; "one"; "two"; "three(3)"; "here"; "it"; "is"; "the"; "last"]%string.
Definition ex_checked (ds : list (@dev unit unit)) (s1 : PageGeom.pages_state) : bool :=
  (List.length (PageGeom.ps_pages s1) =? 4)%nat &&
  match ex_deliver ds with Ok ops => match ex_write86 ops with Ok (s, st) => ex_check88 ds ops s st | Err _ => false end | Err _ => false end.
Definition ex_done {A} (r : Content.ans A) (f : A -> bool) : bool := match r with Content.Done a => f a | _ => false end.
Lemma ex_pick {A} (r : Content.ans A) f : ex_done r f = true -> exists a, r = Content.Done a /\ f a = true.
Proof. destruct r; [|discriminate|discriminate]. intros H. now eexists. Qed.
Definition ex_claim (ds : list (@dev unit unit)) (finish : PageGeom.pages_state) : Prop :=
  exists ops s st file, ex_deliver ds = Ok ops /\
  PdfObjDoc.written PDoc.ex_load PDoc.ex_num ex_round (fun _ => []) (fun _ => []) (Fonts.mkProc [] []) ops 1 s st /\ ex_file s st = (file, Ok tt) /\
  exists ids texts, PdfReader.has_pages file ids /\ List.length ids = 4%nat /\ Forall2 (page_texts ex_inflate file) ids texts /\
    Permutation ex_given (map snd (flat_map (flat_map seen_words) texts)) /\
    exists i pid pv ann x py sp, nth_error ids i = Some pid /\ PdfReader.value_at file pid (VDict pv) /\ In ann (PdfReader.annotations pv) /\
      In (lit "web") (lp_words (sp_of sp)) /\ covers ex_round PDoc.ex_num file (ex_uri, (x, py, sp)) ann.
Lemma ex_claim_ok ds finish : ex_run = Content.Done (ds, finish) -> ex_checked ds finish = true -> ex_claim ds finish.
Proof.
  intros Er C. unfold ex_checked in C. apply andb_true_iff in C as [C0 C]. apply Nat.eqb_eq in C0. destruct (ex_deliver ds) as [ops|] eqn:Ed; [|discriminate].
  destruct (ex_write86 ops) as [[s st]|] eqn:Ew; [|discriminate].
  unfold ex_write86 in Ew. destruct (PdfObj.new_pdf _ _ _ _ _) as [s0|] eqn:E0; [|discriminate]. cbn [bind] in Ew.
  destruct (PdfObj.run _ _ _ _ _ _ s0) as [s1|] eqn:E1; [|discriminate]. cbn [bind] in Ew.
  destruct (PdfObj.output_objects _ _ s1) as [st1|] eqn:E2; [|discriminate]. cbn [bind] in Ew. injection Ew as -> ->.
  unfold ex_check88 in C. apply andb_true_iff in C as [C C5]. apply andb_true_iff in C as [C C4]. apply andb_true_iff in C as [C C3]. apply andb_true_iff in C as [C1 C2].
  destruct (ex_file s st) as [file [[]|]] eqn:Ef; [|discriminate]. apply N.ltb_lt in C1.
  assert (Wr : PdfObjDoc.written PDoc.ex_load PDoc.ex_num ex_round (fun _ => []) (fun _ => []) (Fonts.mkProc [] []) ops 1 s st).
  { split; [exists s0; split; assumption|exact E2]. }
  assert (H1 : forall q, denote (PDoc.ex_num q) <> None) by discriminate.
  assert (H2 : PFile.readable_fonts PDoc.ex_load (fun _ => [])) by (intros path t; discriminate).
  rewrite forallb_forall in C3. assert (Hsound := fun p Hp => ex_sound_ok p (C3 p Hp)).
  assert (Hlists : forall c x y d, In (Whole.DPar c x y d) (flat_map dev_items ds) -> c_list c = None).
  { intros c x y d K. rewrite forallb_forall in C5. specialize (C5 _ K). cbn in C5. destruct (c_list c); [discriminate|reflexivity]. }
  assert (Hreg : forall k, forallb is_regular (ex_fref k) = true) by (intros k; unfold ex_fref; destruct (str_eqb (snd k) (lit "n")); reflexivity).
  assert (Hinf : forall b, ex_inflate (ex_flate b) = Some b) by (intros b; unfold ex_flate, ex_inflate; now rewrite rev_involutive).
  destruct (C88_words_partial ex_round ex_text_w ex_space_w ex_fref ex_round_proper ex_thousandths Hreg (fun _ _ : unit => true) (fun _ => Ok 0%Q) 60 20 0 ex_start eq_refl ex_can 40%Q ex_wide
    ex_calls ex_calls_ok ds finish Er Hlists ex_loads ex_print ex_style_of ex_pic ex_graphic_of ops Ed (fun p Hp => proj1 (Hsound p Hp)) PDoc.ex_load PDoc.ex_num (fun _ => []) (fun _ => []) ex_txt86 ex_flate (lit "0a") (lit "1b") (lit "1.5")
    [] 1%Z s st file H1 H2 (ex_clear88 ds ops Ed C4) Wr Ef C1 eq_refl eq_refl ex_inflate eq_refl ex_printed Hinf (ex_names_ok s C2) (fun p Hp => proj2 (Hsound p Hp)))
    as (ids & texts & shown & T1 & T2 & T3 & T4 & T5).
  destruct (C88_linked_words_partial ex_round ex_text_w ex_space_w ex_fref ex_round_proper (fun _ _ : unit => true) (fun _ => Ok 0%Q) 60 20 0 ex_start eq_refl ex_can 40%Q ex_wide
    ex_calls ex_calls_ok ds finish Er Hlists ex_loads ex_print ex_style_of ex_pic ex_graphic_of ops Ed (fun p Hp => proj1 (Hsound p Hp)) PDoc.ex_load PDoc.ex_num (fun _ => []) (fun _ => []) ex_txt86 ex_flate (lit "0a") (lit "1b") (lit "1.5")
    [] 1%Z s st file H1 H2 (ex_clear88 ds ops Ed C4) Wr Ef C1 eq_refl eq_refl eq_refl) as (ids2 & P1 & P2).
  assert (ids2 = ids) by exact (has_pages_one _ _ _ P1 T1). subst ids2.
  exists ops, s, st, file. split; [exact Ed|]. split; [exact Wr|]. split; [exact Ef|]. exists ids, texts. split; [exact T1|]. split; [congruence|]. split; [exact T3|]. split.
  - assert (M : map (fun w : WholeProofs.word => snd w) (concat shown) = map snd (flat_map (flat_map seen_words) texts)).
    { clear - T5. induction T5 as [|[[y ids] w] sv l m [H _] _ IH]; [reflexivity|]. cbn [map snd]. congruence. }
    rewrite <- M. assert (P : Permutation (flat_map (call_words (fun _ _ : unit => true) ex_round ex_text_w ex_space_w ex_fref 60 0) ex_calls) (concat shown)).
    { clear - T4. induction T4 as [|c ws cs sh [H _] _ IH]; [constructor|]. cbn [flat_map concat]. now apply Permutation_app. }
    refine (Permutation_trans _ (Permutation_map _ P)). vm_compute. reflexivity.
  - destruct (P2 (CAdd (inl ex_to)) (ex_y (lit "n") 4 false) [ex_web] (lit "web") ex_web ex_uri) as (i & pid & its & pv & ann & x & py & sp & Q1 & _ & Q3 & Q4 & _ & _ & Q7 & Q8).
    + right. left. reflexivity.
    + vm_compute. tauto.
    + left. reflexivity.
    + reflexivity.
    + exists i, pid, pv, ann, x, py, sp. auto.
Qed.
(** The hypotheses hold for it: the file has four pages with these words, and
    an annotation for a word with a link. *)
Example C88_applies : exists ds finish, ex_run = Content.Done (ds, finish) /\ ex_claim ds finish.
Proof.
  assert (C : ex_done ex_run (fun a => ex_checked (fst a) (snd a)) = true) by (vm_compute; reflexivity).
  destruct (ex_pick _ _ C) as ([ds finish] & Er & H). exists ds, finish. split; [exact Er|exact (ex_claim_ok ds finish Er H)].
Qed.
