(** Property C87: the links, references and labels of contents are found in
    the bytes of the file at the words that have them. *)
From Coq Require Import String QArith Qabs Qround Lqa Lia List Permutation.
From Verif Require Import Py PyStr PdfSyntax PdfFile Parser Denote StreamProofs Gfx TextLayout TextProofs TextOrder TextPaint PText PText2 Alone PageText PPageText TextSplit WholeFile Links LinkFile.
From Verif Require TextFit TextWords Fonts PdfObj PdfObjSpec PdfObjRun PdfObjDoc PdfWhole PdfReader FileSpec GoodObjs FileProofs PDoc PFile Table TableTokens Content ContentFlow Whole WholeProofs PWhole WholeMade PWholeFile.
Import ListNotations.
Open Scope N_scope.
Open Scope list_scope.

Section Book.
Variable round3 : Q -> Q.
Variable text_w : fkey -> str -> Q.
Variable space_w : fkey -> Q.
Variable fref : fkey -> str.
Hypothesis round3_proper : forall x y, (x == y)%Q -> (round3 x == round3 y)%Q.

(** The document: it was made by [ops] and written to [file]. *)
Variable load_ttf : str -> res Fonts.ttf.
Variable num : Q -> obj.
Variable descr : Fonts.ttf -> Store.dict.
Variable ttf_file : Fonts.ttf -> bytes.
Variable txt : Q -> str.
Variable flate : bytes -> bytes.
Variables u1 u2 version : str.
Variable proc : Fonts.process.
Variable ops : list PdfObj.op.
Variable level : Z.
Variable s : PdfObj.pdf.
Variable st : Store.store.
Variable file : bytes.
Hypothesis num_ok : forall q, denote (num q) <> None.
Hypothesis fonts_ok : PFile.readable_fonts load_ttf descr.
Hypothesis clear : Forall GoodObjs.clear_op ops.
Hypothesis W : PdfObjDoc.written load_ttf num round3 descr ttf_file proc ops level s st.
Hypothesis O : PdfWhole.write_doc txt flate u1 u2 version s st = (file, Ok tt).
Hypothesis small : blen file < 10 ^ 10.
Hypothesis hex1 : forallb is_hex u1 = true.
Hypothesis hex2 : forallb is_hex u2 = true.

(** What was drawn on the pages, and the operations that put it there, in
    order, with graphics in between. *)
Variable loads : str -> res (Z * str * str).
Variable pgs : list (list Whole.drawn).
Variable pages : list (list piece).
Hypothesis all_pages : List.length pages = List.length (PdfObjSpec.page_sizes (PdfObjSpec.history ops)).
Hypothesis on_pages : forall i ps, nth_error pages i = Some ps -> Forall2 (adds round3 loads) ps (ops_on i ops).
Hypothesis holds : Forall2 holds_items pages pgs.

Section Items.
Hypothesis all_made : Forall (Forall (WholeMade.made round3 text_w space_w fref)) pgs.
Hypothesis no_lists : PWholeFile.no_lists pgs.
Lemma Forall2_len {A C} (R : A -> C -> Prop) a c : Forall2 R a c -> List.length a = List.length c.
Proof. induction 1; cbn; congruence. Qed.
Lemma Forall2_nth {A C} (R : A -> C -> Prop) a c i y : Forall2 R a c -> nth_error c i = Some y -> exists x, nth_error a i = Some x /\ R x y.
Proof. intros H. revert i. induction H as [|u v a c H _ IH]; intros [|i] E; try discriminate; [injection E as <-; exists u; auto|exact (IH _ E)]. Qed.
Lemma page_its i its : nth_error pgs i = Some its -> exists ps, nth_error pages i = Some ps /\ Forall2 (adds round3 loads) ps (ops_on i ops) /\ holds_items ps its /\
  Forall (WholeMade.made round3 text_w space_w fref) its /\ (forall c x y d, In (Whole.DPar c x y d) its -> c_list c = None).
Proof.
  intros Hi. destruct (Forall2_nth _ _ _ _ _ holds Hi) as (ps & H1 & H2). exists ps. split; [exact H1|]. split; [now apply on_pages|]. split; [exact H2|].
  split; [exact (proj1 (Forall_forall _ _) all_made its (nth_error_In _ _ Hi))|]. intros c x y d H. exact (no_lists its c x y d (nth_error_In _ _ Hi) H).
Qed.

Lemma items_links : exists ids, PdfReader.has_pages file ids /\ List.length ids = List.length pgs /\
  forall i id its, nth_error ids i = Some id -> nth_error pgs i = Some its ->
    exists pv anns, PdfReader.value_at file id (VDict pv) /\ Permutation (PdfReader.annotations pv) anns /\
      Forall2 (covers round3 num file) (wanted_links text_w space_w its) anns.
Proof.
  destruct (PFile.C85_file_partial load_ttf num round3 descr ttf_file txt flate u1 u2 version _ ops level s st file num_ok fonts_ok clear W O small hex1 hex2)
    as (ids & P1 & _ & P2 & P3 & _ & _).
  exists ids. split; [exact P1|].
  assert (Lp : List.length pages = List.length pgs) by (exact (Forall2_len _ _ _ holds)).
  split; [congruence|]. intros i id its Hi Hp. destruct (page_its i its Hp) as (ps & _ & Ha & Hh & Hm & Hn).
  destruct (nth_error (PdfObjSpec.page_sizes (PdfObjSpec.history ops)) i) as [size|] eqn:Es.
  - destruct (P3 i id size Hi Es) as (pv & a & b & c & cv & bs & V & _ & _ & _ & _ & _ & _ & _ & _ & L). exists pv.
    destruct (links_in_file round3 loads text_w space_w fref round3_proper num file _ _ i ps its ops L eq_refl Ha Hh Hm Hn) as (anns & A1 & A2). exists anns. auto.
  - exfalso. apply nth_error_None in Es. assert (i < List.length ids)%nat by (apply nth_error_Some; congruence). lia.
Qed.

Lemma items_labels : exists ids cat labels, PdfReader.has_pages file ids /\ PdfReader.catalog_is file cat /\ PdfReader.names_are file cat labels /\
  forall lb, match assoc lb labels with
             | Some v => exists i its it x y sp r, nth_error pgs i = Some its /\ In it its /\ label_spot text_w space_w lb it = Some (x, y, sp) /\
                 is_box round3 sp r /\ FileSpec.place_at num round3 ids (PdfObjSpec.page_sizes (PdfObjSpec.history ops)) (i, (x, y, r)) v
             | None => forall its it, In its pgs -> In it its -> label_spot text_w space_w lb it = None
             end.
Proof.
  destruct (PFile.C85_file_partial load_ttf num round3 descr ttf_file txt flate u1 u2 version _ ops level s st file num_ok fonts_ok clear W O small hex1 hex2)
    as (ids & P1 & _ & P2 & _ & (cat & labels & L1 & L2 & _ & L3) & _).
  exists ids, cat, labels. split; [exact P1|]. split; [exact L1|]. split; [exact L2|]. intros lb. specialize (L3 lb). pose proof (last_label_in lb (PdfObjSpec.history ops)) as H.
  assert (Lp : List.length pages = List.length pgs) by (exact (Forall2_len _ _ _ holds)).
  destruct (PdfObjSpec.last_label lb (PdfObjSpec.history ops)) as [[i [[x y] r]]|].
  - destruct L3 as (v & -> & V). assert (Hi : exists its, nth_error pgs i = Some its).
    { destruct r as [[[r1 r2] r3] r4]. destruct V as (id & w & h & x' & y' & z' & V & _). assert (i < List.length ids)%nat by (apply nth_error_Some; congruence).
      destruct (nth_error pgs i) as [its|] eqn:E; [now exists its|]. apply nth_error_None in E. lia. }
    destruct Hi as [its Hi]. destruct (page_its i its Hi) as (ps & _ & Ha & Hh & Hm & Hn).
    destruct (page_label round3 loads text_w space_w fref round3_proper lb i ps its ops Ha Hh Hm Hn) as [K _]. destruct (K _ _ _ H) as (it & sp & S1 & S2 & S3).
    exists i, its, it, x, y, sp, r. auto.
  - rewrite L3. intros its it H1 H2. apply In_nth_error in H1 as [i Hi]. destruct (page_its i its Hi) as (ps & _ & Ha & Hh & Hm & Hn).
    destruct (page_label round3 loads text_w space_w fref round3_proper lb i ps its ops Ha Hh Hm Hn) as [_ K]. apply K; [|exact H2]. intros x y r. apply H.
Qed.

(** A word that is shown is in a part that shows something. *)
Lemma combine_spots c : forall ls ks bef ln q, List.length ks = List.length ls -> In ln ls -> In q (l_parts ln) -> nonempty (part_text q) && negb (isspace (part_text q)) = true ->
  exists sp, In sp (line_spots text_w space_w c bef (combine ls ks)) /\ sp_of sp = q.
Proof.
  induction ls as [|l0 ls IH]; intros [|k ks] bef ln q L Hln Hq Hv; try discriminate; [destruct Hln|]. cbn [combine line_spots]. destruct Hln as [->|Hln].
  - assert (G : forall ps x y, In q ps -> exists sp, In sp (filter visible (spots text_w space_w (k_factor k) x y ps)) /\ sp_of sp = q).
    { clear - Hv. induction ps as [|p ps IH]; intros x y H; [destruct H|]. cbn [spots filter]. destruct H as [->|H].
      - unfold visible at 1. cbn [sp_of]. rewrite Hv. eexists. split; [left; reflexivity|reflexivity].
      - match goal with |- context [spots _ _ _ ?z y ps] => destruct (IH z y H) as (sp & S1 & S2) end. exists sp. split; [|exact S2]. destruct (visible _); [now right|exact S1]. }
    destruct (G (l_parts ln) (k_x k) (- TextFit.total_height c (bef ++ [ln]))%Q Hq) as (sp & S1 & S2). exists sp. split; [apply in_or_app; now left|exact S2].
  - destruct (IH ks (bef ++ [l0]) ln q) as (sp & S1 & S2); [now injection L|exact Hln|exact Hq|exact Hv|]. exists sp. split; [apply in_or_app; now right|exact S2].
Qed.
Lemma word_visible q w : Forall clean (lp_words q) -> In w (lp_words q) -> isspace w = false -> nonempty (part_text q) && negb (isspace (part_text q)) = true.
Proof.
  intros Hc Hw Hs. rewrite Forall_forall in Hc. destruct (Hc w Hw) as [->|(_ & Hne & _)]; [discriminate|].
  assert (X : exists ch, In ch (part_text q) /\ is_space ch = false).
  { destruct w as [|c0 r]; [congruence|]. unfold isspace in Hs. assert (K : exists ch, In ch (c0 :: r) /\ is_space ch = false).
    { clear - Hs. induction (c0 :: r) as [|a t IH]; [discriminate|]. cbn [forallb] in Hs. destruct (is_space a) eqn:E; [destruct (IH Hs) as (ch & K1 & K2); exists ch; split; [now right|exact K2]|exists a; split; [now left|exact E]]. }
    destruct K as (ch & K1 & K2). exists ch. split; [|exact K2]. unfold part_text. apply in_concat. exists (c0 :: r). auto. }
  destruct X as (ch & X1 & X2). destruct (part_text q) as [|a t]; [destruct X1|]. cbn [nonempty andb]. unfold isspace. apply negb_true_iff.
  destruct (forallb is_space (a :: t)) eqn:E; [|reflexivity]. rewrite forallb_forall in E. rewrite (E _ X1) in X2. discriminate.
Qed.
Lemma shown_spot it v : WholeMade.made round3 text_w space_w fref it -> In v (WholeProofs.shown_words it) ->
  exists p, In p (par_spots text_w space_w it) /\ In (snd v) (lp_words (sp_of (snd p))) /\ lp_style (sp_of (snd p)) = fst (fst v) /\ lp_ids (sp_of (snd p)) = snd (fst v).
Proof.
  destruct it as [c x y d|]; [|intros _ []]. intros (ds & d0 & w & h & Hb & E) Hv. cbn [WholeProofs.shown_words] in Hv.
  apply in_flat_map in Hv as (ln & H1 & Hv). apply in_flat_map in Hv as (q & H2 & Hv). unfold WholeProofs.words_of in Hv. apply in_map_iff in Hv as (w0 & <- & Hv). apply filter_In in Hv as [H3 H4].
  apply negb_true_iff in H4. pose proof (run_tidy round3 text_w space_w fref c d0 w h d E) as T. unfold lines_tidy in T. rewrite Forall_forall in T. destruct (T _ H1) as [T1 _].
  rewrite Forall_forall in T1. destruct (T1 _ H2) as [T2 _]. pose proof (word_visible q w0 T2 H3 H4) as Hvis.
  assert (L : List.length (d_marks d) = List.length (d_lines d)).
  { destruct (C24_text_state round3 text_w space_w fref round3_proper c d0 w h d (with_line page_reader (Some (0%Q, 0%Q))) E) as (_ & _ & _ & _ & _ & _ & _ & L); [discriminate|exact L]. }
  destruct (combine_spots c (d_lines d) (d_marks d) [] ln q L H1 H2 Hvis) as (sp & S1 & S2). exists (x, y, sp). cbn [par_spots snd fst]. rewrite S2. split; [apply in_map; exact S1|]. auto.
Qed.

(** A word that is shown has the annotations of its links. *)
Lemma items_words : exists ids, PdfReader.has_pages file ids /\
  forall y wids w id k, In (y, wids, w) (PWhole.shown_on pgs) -> In id wids -> link_of id = Some k ->
    exists i pid its pv ann x py sp, nth_error ids i = Some pid /\ nth_error pgs i = Some its /\ PdfReader.value_at file pid (VDict pv) /\ In ann (PdfReader.annotations pv) /\
      In (x, py, sp) (flat_map (par_spots text_w space_w) its) /\ lp_style (sp_of sp) = y /\ In w (lp_words (sp_of sp)) /\ covers round3 num file (k, (x, py, sp)) ann.
Proof.
  destruct items_links as (ids & P1 & P2 & P3). exists ids. split; [exact P1|]. intros y wids w id k Hw Hid Hk.
  unfold PWhole.shown_on in Hw. apply in_flat_map in Hw as (its & H1 & Hw). apply in_flat_map in Hw as (it & H2 & Hw).
  pose proof (proj1 (Forall_forall _ _) (proj1 (Forall_forall _ _) all_made its H1) it H2) as Hm.
  destruct (shown_spot it _ Hm Hw) as ([[x py] sp] & S1 & S2 & S3 & S4). cbn [fst snd] in S2, S3, S4.
  apply In_nth_error in H1 as [i Hi]. assert (Hp : exists pid, nth_error ids i = Some pid).
  { destruct (nth_error ids i) as [pid|] eqn:E; [now exists pid|]. apply nth_error_None in E. assert (i < List.length pgs)%nat by (apply nth_error_Some; congruence). lia. }
  destruct Hp as [pid Hp]. destruct (P3 i pid its Hp Hi) as (pv & anns & V & A1 & A2).
  assert (In (k, (x, py, sp)) (wanted_links text_w space_w its)) as Hin.
  { unfold wanted_links. apply in_flat_map. exists it. split; [exact H2|]. apply in_flat_map. exists (x, py, sp). split; [exact S1|]. unfold spot_links. cbn [snd]. apply in_flat_map.
    exists id. rewrite S4. split; [exact Hid|]. rewrite Hk. now left. }
  assert (Ha : exists ann, In ann anns /\ covers round3 num file (k, (x, py, sp)) ann).
  { clear - A2 Hin. induction A2 as [|u a us al H _ IH]; [destruct Hin|]. destruct Hin as [->|Hin]; [exists a; split; [now left|exact H]|]. destruct (IH Hin) as (ann & I1 & I2). exists ann. split; [now right|exact I2]. }
  destruct Ha as (ann & Ha1 & Ha2). exists i, pid, its, pv, ann, x, py, sp. split; [exact Hp|]. split; [exact Hi|]. split; [exact V|].
  split; [apply (Permutation_in _ (Permutation_sym A1)); exact Ha1|]. split; [apply in_flat_map; exists it; auto|]. auto.
Qed.
End Items.

(** The contents, which were broken into these pages. *)
Context {F B : Type}.
Variable b_eqb : B -> B -> bool.
Variable fuel : nat.
Notation kit := (@Whole.leaf_kit F B b_eqb round3 text_w space_w fref fuel).
Notation spec := (@WholeProofs.leaf_spec F B b_eqb round3 text_w space_w fref fuel).
Variable n : nat.
Variable l : list (@Content.elem (Whole.kE (kit n))).
Variable gap : option Q.
Variable W0 : Q.
Variable rs : list Whole.rect.
Variable fin : bool.
Hypothesis l_ok : WholeProofs.els_ok (kit n) (spec n) (Some W0) l.
Hypothesis rooms : Forall (fun r => (W0 <= Whole.rc_w r)%Q) rs.
Hypothesis drawn : Whole.pages (Whole.content_kit fuel (kit n)) (Content.fresh_content l 1 gap) rs = Ok (fin, pgs).
Hypothesis no_lists : PWholeFile.no_lists pgs.

Lemma all_made : Forall (Forall (WholeMade.made round3 text_w space_w fref)) pgs.
Proof. exact (WholeMade.pages_made b_eqb round3 text_w space_w fref fuel n l gap W0 rs fin pgs l_ok rooms drawn). Qed.

(** C87: the annotations of each page are one for each link of each part of
    a line that shows something, and no others; each has the target of the
    link and the area of the part. *)
Theorem C87_links_partial : exists ids, PdfReader.has_pages file ids /\ List.length ids = List.length pgs /\
  forall i id its, nth_error ids i = Some id -> nth_error pgs i = Some its ->
    exists pv anns, PdfReader.value_at file id (VDict pv) /\ Permutation (PdfReader.annotations pv) anns /\
      Forall2 (covers round3 num file) (wanted_links text_w space_w its) anns.
Proof. exact (items_links all_made no_lists). Qed.

(** Labels: the names of the file are the labels of the parts that show
    something, and each leads to the first part with it in a paragraph. *)
Theorem C87_labels_partial : exists ids cat labels, PdfReader.has_pages file ids /\ PdfReader.catalog_is file cat /\ PdfReader.names_are file cat labels /\
  forall lb, match assoc lb labels with
             | Some v => exists i its it x y sp r, nth_error pgs i = Some its /\ In it its /\ label_spot text_w space_w lb it = Some (x, y, sp) /\
                 is_box round3 sp r /\ FileSpec.place_at num round3 ids (PdfObjSpec.page_sizes (PdfObjSpec.history ops)) (i, (x, y, r)) v
             | None => forall its it, In its pgs -> In it its -> label_spot text_w space_w lb it = None
             end.
Proof. exact (items_labels all_made no_lists). Qed.

(** Words: when the contents were finished, every word with a link is in a
    part of a line of some page that has an annotation with this link and the
    area of the part. *)
Theorem C87_words_partial : fin = true -> exists ids, PdfReader.has_pages file ids /\
  forall y wids w id k, In (y, wids, w) (flat_map (WholeProofs.el_words (kit n) (spec n)) l) -> In id wids -> link_of id = Some k ->
    exists i pid its pv ann x py sp, nth_error ids i = Some pid /\ nth_error pgs i = Some its /\ PdfReader.value_at file pid (VDict pv) /\ In ann (PdfReader.annotations pv) /\
      In (x, py, sp) (flat_map (par_spots text_w space_w) its) /\ lp_style (sp_of sp) = y /\ In w (lp_words (sp_of sp)) /\ covers round3 num file (k, (x, py, sp)) ann.
Proof.
  intros Hf. destruct (items_words all_made no_lists) as (ids & P1 & P2). exists ids. split; [exact P1|]. intros y wids w id k Hw.
  destruct (PWhole.C75_words_partial b_eqb round3 text_w space_w fref fuel n l gap W0 rs fin pgs l_ok rooms drawn) as (rest & R1 & R2). rewrite (R2 Hf), app_nil_r in R1.
  apply (P2 y wids w id k). exact (Permutation_in _ R1 Hw).
Qed.
End Book.
Print Assumptions C87_links_partial.
Print Assumptions C87_labels_partial.
Print Assumptions C87_words_partial.

(** ** An example
    A paragraph with words that link to an address and to a label, a box with
    the label, over two pages. *)
Import PWholeFile.
Definition ex_link (t : str) (ids : list str) : cpart := CText t (ex_y (lit "n") 4 false) ids.
Definition ex_web : str := lit "$uri:http://a.b".
Definition ex_to : config := mkCfg [ex_link (lit "see ") []; ex_link (lit "the web ") [ex_web]; ex_link (lit "or the end of this") [ex_web; lit "$ref:z"]] ALeft (11#10) 0 None.
Definition ex_here : config := mkCfg [ex_link (lit "here ") [lit "$label:z"]; ex_link (lit "it is") []] ALeft (11#10) 0 None.
Definition ex_loads (_ : str) : res (Z * str * str) := Err IndexError.
Definition ex_linked : list (@Content.elem (Whole.kE (ex_kit 0))) :=
  [Content.Leaf PWhole.ex_st (ex_to : Whole.kE (ex_kit 0)); Content.Image PWhole.ex_st 0 20 10; Content.Leaf PWhole.ex_st (ex_par86 (lit "a b c d e f g") : Whole.kE (ex_kit 0));
   Content.Child PWhole.ex_st 1 None [Content.Leaf PWhole.ex_st (ex_here : Whole.kE (ex_kit 0))]].
Notation ex_pgs87 := (Whole.pages (Whole.content_kit 60 (ex_kit 0)) (Content.fresh_content ex_linked 1 None) ex_rects).
Lemma ex_linked_ok : WholeProofs.els_ok (ex_kit 0) (ex_spec 0) (Some 40%Q) ex_linked.
Proof.
  assert (Hs : ContentFlow.plain_style PWhole.ex_st) by (split; cbn; lra).
  split; [split; [exact Hs|reflexivity]|]. split; [split; [exact Hs|]; split; [reflexivity|cbn; lra]|]. split; [split; [exact Hs|reflexivity]|].
  split; [|exact I]. split; [exact Hs|]. split; [reflexivity|]. split; [split; [exact Hs|reflexivity]|exact I].
Qed.
Definition ex_op87 (p : piece) : PdfObj.op :=
  match p with
  | Paragraph x y d => PdfObj.OpText (PdfObj.mkText x y (ex_stream p) ex_styles (match paragraph_ids ex_loads d with Ok k => k | Err _ => [] end))
  | _ => ex_op p
  end.
Definition ex_ops87 (pages : list (list piece)) : list PdfObj.op := flat_map (fun ps => PdfObj.OpPage 100 120 :: map ex_op87 ps) pages.
Definition ex_goodb (p : piece) : bool :=
  match p with
  | Picture _ _ _ _ _ => true
  | Graphics _ => match piece_ops ex_round p with Ok l => match print_ops l with Some _ => true | None => false end | Err _ => false end
  | Paragraph _ _ d =>
      match piece_ops ex_round p with Ok l => match print_ops l with Some _ => true | None => false end | Err _ => false end &&
      match paragraph_ids ex_loads d with
      | Ok ks => forallb (fun kr : PdfObj.idk * list PdfObj.rect => match fst kr with PdfObj.ILabel t | PdfObj.IRef t | PdfObj.IUri t => plain_text t | PdfObj.IOutline _ _ _ => false end) ks
      | Err _ => false
      end &&
      forallb (fun k => existsb (fun sty => Fonts.fkey_eqb (PdfObjSpec.style_key sty) k) ex_styles) (d_used d)
  end.
Lemma ex_adds p : ex_goodb p = true -> adds ex_round ex_loads p (ex_op87 p) /\ GoodObjs.clear_op (ex_op87 p).
Proof.
  assert (G : forall q, match piece_ops ex_round q with Ok l => match print_ops l with Some _ => true | None => false end | Err _ => false end = true ->
    exists ops, piece_ops ex_round q = Ok ops /\ writes_all (fun _ => False) ops (ex_stream q)).
  { intros q H. unfold ex_stream. destruct (piece_ops ex_round q) as [l|]; [|discriminate]. destruct (print_ops l) as [t|] eqn:Et; [|discriminate].
    exists l. split; [reflexivity|now apply print_ops_ok]. }
  destruct p as [x y d|g|nm w h x y]; cbn [ex_goodb ex_op87 ex_op adds GoodObjs.clear_op PdfObj.tx_x PdfObj.tx_y PdfObj.tx_ids PdfObj.tx_stream PdfObj.tx_styles]; intros H.
  - apply andb_true_iff in H as [H H3]. apply andb_true_iff in H as [H1 H2]. destruct (paragraph_ids ex_loads d) as [ks|] eqn:Ek; [|discriminate]. split.
    + split; [reflexivity|]. split; [reflexivity|]. split; [reflexivity|]. split; [now apply G|]. intros k Hk. rewrite forallb_forall in H3. specialize (H3 _ Hk).
      apply existsb_exists in H3 as (sty & S1 & S2). exists sty. split; [exact S1|now apply fkey_same].
    + rewrite forallb_forall in H2. apply Forall_forall. intros kr Hkr. specialize (H2 _ Hkr). destruct (fst kr); try exact H2. discriminate.
  - split; [|constructor]. split; [reflexivity|now apply G].
  - split; [repeat (split; [reflexivity|]); reflexivity|]. split; [unfold PDoc.ex_img; apply Forall_cons; [right; split; [reflexivity|discriminate]|apply Forall_nil]|].
    cbn [In map fst PDoc.ex_img]. intros k Hk. repeat destruct Hk as [<-|Hk]; try contradiction; reflexivity.
Qed.
Lemma ex_ops_from87 i : forall pages n cur, (n <= i)%nat -> match cur with Some j => (j < n)%nat | None => True end ->
  ops_from cur n i (ex_ops87 pages) = match nth_error pages (i - n) with Some ps => map ex_op87 ps | None => [] end.
Proof.
  assert (K : forall ps cur n r, ops_from cur n i (map ex_op87 ps ++ r) = match cur with Some j => if (j =? i)%nat then map ex_op87 ps else [] | None => [] end ++ ops_from cur n i r).
  { induction ps as [|p ps IH]; intros cur n r; cbn [map app]; [destruct cur as [j|]; [destruct (j =? i)%nat|]; reflexivity|].
    destruct p; cbn [ex_op87 ex_op ops_from]; rewrite IH; destruct cur as [j|]; try destruct (j =? i)%nat; reflexivity. }
  assert (Late : forall pages n cur, match cur with Some j => (j < n)%nat /\ j <> i | None => True end -> (i < n)%nat -> ops_from cur n i (ex_ops87 pages) = []).
  { induction pages as [|ps pages IH]; intros n cur Hc Hn; [reflexivity|]. unfold ex_ops87. cbn [flat_map app ops_from]. rewrite K. fold (ex_ops87 pages).
    rewrite (proj2 (Nat.eqb_neq n i)) by lia. cbn [app]. apply IH; lia. }
  induction pages as [|ps pages IH]; intros n cur Hn Hc; [destruct (i - n)%nat; reflexivity|]. unfold ex_ops87. cbn [flat_map app ops_from]. rewrite K. fold (ex_ops87 pages).
  destruct (Nat.eq_dec n i) as [->|Hne].
  - rewrite Nat.eqb_refl, Nat.sub_diag. cbn [nth_error]. enough (E : ops_from (Some i) (S i) i (ex_ops87 pages) = []) by (rewrite E; apply app_nil_r).
    destruct pages as [|ps2 pages]; [reflexivity|]. unfold ex_ops87. cbn [flat_map app ops_from]. rewrite K. fold (ex_ops87 pages).
    rewrite (proj2 (Nat.eqb_neq (S i) i)) by lia. cbn [app]. apply Late; lia.
  - rewrite (proj2 (Nat.eqb_neq n i) Hne). cbn [app]. rewrite IH by lia. replace (i - n)%nat with (S (i - S n)) by lia. reflexivity.
Qed.
Definition ex_check87 (pages : list (list piece)) (s : PdfObj.pdf) (st : Store.store) : bool :=
  match ex_file s st with (f, Ok _) => blen f <? 10 ^ 10 | _ => false end &&
  (List.length pages =? List.length (PdfObjSpec.page_sizes (PdfObjSpec.history (ex_ops87 pages))))%nat && forallb (forallb ex_goodb) pages.
Definition ex_uri : PdfObjSpec.link := PdfObjSpec.LUri (lit "http://a.b").
Definition ex_wanted : list PdfObjSpec.link := ex_uri :: ex_uri :: flat_map (fun _ : nat => [ex_uri; PdfObjSpec.LRef (lit "z")]) (seq 0 4).
Definition same_link (a b : PdfObjSpec.link) : bool :=
  match a, b with PdfObjSpec.LUri x, PdfObjSpec.LUri y | PdfObjSpec.LRef x, PdfObjSpec.LRef y => str_eqb x y | _, _ => false end.
Lemma same_link_eq a b : same_link a b = true -> a = b.
Proof. destruct a, b; intros H; try discriminate; apply str_eqb_eq in H; congruence. Qed.
Lemma ex_same file wl : forall ks anns, forall2b same_link ks (map fst wl) = true -> Forall2 (covers ex_round PDoc.ex_num file) wl anns ->
  Forall2 (fun k a => exists x y r, FileSpec.link_at PDoc.ex_num ex_round file a (k, (x, y, r))) ks anns.
Proof.
  induction wl as [|[k [[x y] sp]] wl IH]; intros ks anns C A; inversion A; subst.
  - destruct ks; [constructor|discriminate].
  - destruct ks as [|k0 ks]; [discriminate|]. cbn [forall2b map fst] in C. apply andb_true_iff in C as [C1 C2]. constructor; [|now apply IH].
    apply same_link_eq in C1. subst k0. destruct H1 as (r & _ & R). now exists x, y, r.
Qed.
(** The hypotheses hold, so the first page of the file has the ten links of
    its lines, and the label is a name of the file. *)
Example C87_applies : exists s st file ids id pv anns cat labels v,
  PdfObjDoc.written PDoc.ex_load PDoc.ex_num ex_round (fun _ => []) (fun _ => []) (Fonts.mkProc [] [])
    (match ex_pgs87 with Ok (_, pgs) => ex_ops87 (ex_book pgs) | Err _ => [] end) 1 s st /\
  ex_file s st = (file, Ok tt) /\ PdfReader.has_pages file ids /\ List.length ids = 3%nat /\
  nth_error ids 0 = Some id /\ PdfReader.value_at file id (VDict pv) /\ Permutation (PdfReader.annotations pv) anns /\
  Forall2 (fun k a => exists x y r, FileSpec.link_at PDoc.ex_num ex_round file a (k, (x, y, r))) ex_wanted anns /\
  PdfReader.catalog_is file cat /\ PdfReader.names_are file cat labels /\ assoc (lit "z") labels = Some v.
Proof.
  assert (C : match ex_pgs87 with
              | Ok (fin, pgs) => fin && (List.length pgs =? 3)%nat && forallb (forallb (fun it => match it with Whole.DPar c _ _ _ => match c_list c with None => true | Some _ => false end | _ => true end)) pgs &&
                  match nth_error pgs 0 with Some its => forall2b same_link ex_wanted (map fst (wanted_links ex_text_w ex_space_w its)) | None => false end &&
                  existsb (existsb (fun it => match label_spot ex_text_w ex_space_w (lit "z") it with Some _ => true | None => false end)) pgs &&
                  match ex_write86 (ex_ops87 (ex_book pgs)) with Ok (s, st) => ex_check87 (ex_book pgs) s st | Err _ => false end
              | Err _ => false end = true) by (vm_compute; reflexivity).
  destruct ex_pgs87 as [[fin pgs]|] eqn:Ep; [|discriminate]. apply andb_true_iff in C as [C C6]. apply andb_true_iff in C as [C C5]. apply andb_true_iff in C as [C C4].
  apply andb_true_iff in C as [C C3]. apply andb_true_iff in C as [C1 C2]. subst fin. apply Nat.eqb_eq in C2.
  destruct (ex_write86 (ex_ops87 (ex_book pgs))) as [[s st]|] eqn:Ew; [|discriminate].
  unfold ex_write86 in Ew. destruct (PdfObj.new_pdf _ _ _ _ _) as [s0|] eqn:E0; [|discriminate]. cbn [bind] in Ew.
  destruct (PdfObj.run _ _ _ _ _ _ s0) as [s1|] eqn:E1; [|discriminate]. cbn [bind] in Ew.
  destruct (PdfObj.output_objects _ _ s1) as [st1|] eqn:E2; [|discriminate]. cbn [bind] in Ew. injection Ew as -> ->.
  unfold ex_check87 in C6. apply andb_true_iff in C6 as [C6 C9]. apply andb_true_iff in C6 as [C7 C8].
  destruct (ex_file s st) as [file [[]|]] eqn:Ef; [|discriminate]. apply N.ltb_lt in C7. apply Nat.eqb_eq in C8.
  assert (Wr : PdfObjDoc.written PDoc.ex_load PDoc.ex_num ex_round (fun _ => []) (fun _ => []) (Fonts.mkProc [] []) (ex_ops87 (ex_book pgs)) 1 s st).
  { split; [exists s0; split; assumption|exact E2]. }
  assert (H1 : forall q, denote (PDoc.ex_num q) <> None) by discriminate.
  assert (H2 : PFile.readable_fonts PDoc.ex_load (fun _ => [])) by (intros path t; discriminate).
  rewrite forallb_forall in C9. assert (Good : forall ps p, In ps (ex_book pgs) -> In p ps -> ex_goodb p = true).
  { intros ps p Hps Hp. specialize (C9 _ Hps). rewrite forallb_forall in C9. now apply C9. }
  assert (Hclear : Forall GoodObjs.clear_op (ex_ops87 (ex_book pgs))).
  { apply Forall_forall. intros o Ho. unfold ex_ops87 in Ho. apply in_flat_map in Ho as (ps & Hps & [<-|Ho]); [exact I|]. apply in_map_iff in Ho as (p & <- & Hp). apply ex_adds. now apply (Good ps). }
  assert (Hrooms : Forall (fun r => (40 <= Whole.rc_w r)%Q) ex_rects) by (apply Forall_forall; intros r Hr; apply repeat_spec in Hr; subst r; cbn; lra).
  assert (Hlists : no_lists pgs).
  { intros its c x y d K1 K2. rewrite forallb_forall in C3. specialize (C3 _ K1). rewrite forallb_forall in C3. specialize (C3 _ K2). cbn in C3. destruct (c_list c); [discriminate|reflexivity]. }
  assert (Hon : forall i ps, nth_error (ex_book pgs) i = Some ps -> Forall2 (adds ex_round ex_loads) ps (ops_on i (ex_ops87 (ex_book pgs)))).
  { intros i ps Hi. unfold ops_on. rewrite (ex_ops_from87 i _ 0 None) by (lia || exact I). rewrite Nat.sub_0_r, Hi. apply nth_error_In in Hi. specialize (fun p => Good ps p Hi). clear - Good.
    induction ps as [|p ps IH]; cbn [map]; constructor; [apply ex_adds, Good; now left|]. apply IH. intros q Hq. apply Good. now right. }
  assert (Hh : Forall2 holds_items (ex_book pgs) pgs).
  { clear. unfold ex_book, holds_items. induction pgs as [|its pgs IH]; cbn [map]; constructor; [|exact IH]. cbn [filter is_graphics negb].
    induction its as [|it its IH2]; cbn [map filter]; [constructor|]. destruct it; cbn [ex_piece is_graphics negb]; constructor; try exact IH2; cbn [same_thing]; auto. }
  destruct (C87_links_partial ex_round ex_text_w ex_space_w ex_fref ex_round_proper PDoc.ex_load PDoc.ex_num (fun _ => []) (fun _ => []) ex_txt86 ex_flate (lit "0a") (lit "1b") (lit "1.5")
    (Fonts.mkProc [] []) (ex_ops87 (ex_book pgs)) 1%Z s st file H1 H2 Hclear Wr Ef C7 eq_refl eq_refl ex_loads pgs (ex_book pgs) C8 Hon Hh
    (fun _ _ : unit => true) 60%nat 0%nat ex_linked None 40%Q ex_rects true ex_linked_ok Hrooms Ep Hlists) as (ids & P1 & P2 & P3).
  destruct (C87_labels_partial ex_round ex_text_w ex_space_w ex_fref ex_round_proper PDoc.ex_load PDoc.ex_num (fun _ => []) (fun _ => []) ex_txt86 ex_flate (lit "0a") (lit "1b") (lit "1.5")
    (Fonts.mkProc [] []) (ex_ops87 (ex_book pgs)) 1%Z s st file H1 H2 Hclear Wr Ef C7 eq_refl eq_refl ex_loads pgs (ex_book pgs) C8 Hon Hh
    (fun _ _ : unit => true) 60%nat 0%nat ex_linked None 40%Q ex_rects true ex_linked_ok Hrooms Ep Hlists) as (ids2 & cat & labels & _ & L1 & L2 & L3).
  specialize (L3 (lit "z")). destruct (assoc (lit "z") labels) as [v|] eqn:El.
  2: { exfalso. apply existsb_exists in C5 as (its & K1 & K2). apply existsb_exists in K2 as (it & K2 & K3). rewrite (L3 _ _ K1 K2) in K3. discriminate. }
  destruct (nth_error pgs 0) as [its|] eqn:Ei; [|discriminate]. destruct (nth_error ids 0) as [id|] eqn:Eid; [|apply nth_error_None in Eid; lia].
  destruct (P3 0%nat id its Eid Ei) as (pv & anns & V & A1 & A2).
  exists s, st, file, ids, id, pv, anns, cat, labels, v. split; [exact Wr|]. split; [exact Ef|]. split; [exact P1|]. split; [congruence|]. split; [exact Eid|]. split; [exact V|]. split; [exact A1|].
  split; [|split; [exact L1|split; [exact L2|exact El]]].
  exact (ex_same _ _ _ _ C4 A2).
Qed.
