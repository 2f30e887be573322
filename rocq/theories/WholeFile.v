(** Specification of C86, and what the operators of a page show: from the
    words of contents to the bytes of the file. *)
From Coq Require Import String QArith Qabs Lia List Permutation.
From Verif Require Import Py PyStr PdfSyntax PdfFile Parser Denote StreamProofs Store Gfx TextLayout TextProofs TextOrder PText PText2 Alone PageText PPageText TextSplit.
From Verif Require Fonts PdfObj PdfObjSpec PdfReader FileSpec Whole WholeProofs PWhole WholeMade.
Import ListNotations.
Open Scope N_scope.
Open Scope list_scope.

(** ** Specification: what a reader of the file sees *)

(** A text that is shown: the name of its font, its size, how far it is
    raised, its colour and its characters. *)
Record seen := mkSeen { s_base : bytes; s_size : Q; s_rise : Q; s_fill : rgb; s_text : bytes }.
Definition is_show (p : paint) : bool := match p with PShow _ _ _ _ _ _ _ => true | _ => false end.

Section Spec.
Variable inflate : bytes -> option bytes.
Variable file : bytes.
(** The text that [p] shows on the page with dictionary [pv]: the name of
    its font is looked up in the resources of the page, and the font object
    there in the file. *)
Definition sees (pv : list (bytes * pval)) (p : paint) (s : seen) : Prop :=
  match p with
  | PShow _ (Some (nm, size)) fill rise _ _ t =>
      exists id fv base, PdfReader.resource (lit "Font") pv nm = Some (PdfReader.vref id) /\ PdfReader.value_at file id (VDict fv) /\
        assoc (lit "BaseFont") fv = Some (VName base) /\ s = mkSeen base size rise fill t
  | _ => False
  end.
(** The texts of the page object [id]: its contents are decompressed, read
    as operators and executed. *)
Definition page_texts (id : nat) (l : list seen) : Prop :=
  exists pv c cv z data ops, PdfReader.value_at file id (VDict pv) /\
    assoc (lit "Contents") pv = Some (PdfReader.vref c) /\ PdfReader.stream_at file c cv z /\
    assoc (lit "Filter") cv = Some (PdfReader.vname "FlateDecode") /\ inflate z = Some data /\
    reads_as data ops /\ Forall2 (sees pv) (filter is_show (snd (execs ops page_reader))) l.
End Spec.

(** ** Specification: what is put on pages *)

(** The parts of the lines of a paragraph that have text. *)
Definition par_parts (d : dyn) : list lpart := flat_map (fun l => filter (fun p => nonempty (part_text p)) (l_parts l)) (d_lines d).
Definition piece_parts (p : piece) : list lpart := match p with Paragraph _ _ d => par_parts d | _ => [] end.

Section Put.
Variable round3 : Q -> Q.
(** The thing [p] is put on a page by the event [e]: the text of its
    operators is added, with the fonts that the paragraph uses; or the image
    is drawn at the place and in the size. *)
Definition put (p : piece) (e : PdfObjSpec.event) : Prop :=
  match p, e with
  | Paragraph _ _ d, PdfObjSpec.EText styles t =>
      (exists ops, piece_ops round3 p = Ok ops /\ writes_all (fun _ => False) ops t) /\
      forall k, In k (d_used d) -> exists sty, In sty styles /\ PdfObjSpec.style_key sty = k
  | Graphics _, PdfObjSpec.EText _ t => exists ops, piece_ops round3 p = Ok ops /\ writes_all (fun _ => False) ops t
  | Picture nm w h x y, PdfObjSpec.EDraw nm' w' h' x' y' => nm = nm' /\ w = w' /\ h = h' /\ x = x' /\ y = y'
  | _, _ => False
  end.
(** The numbers are not too big, lines do not go up, and texts have no
    carriage return. *)
Definition fair_op (o : gop) : Prop :=
  (forall q, In q (op_numbers o) -> (Qabs q < inject_Z (10 ^ 16))%Q) /\
  match o with GTd _ y => (y <= 0)%Q | GShow t => ~ In 13 t | _ => True end.
Definition fair (p : piece) : Prop := forall ops, piece_ops round3 p = Ok ops -> Forall fair_op ops.

(** The text [s] looks as the style [y] says. *)
Variable load_ttf : str -> res Fonts.ttf.
Variable reg : list (Fonts.fkey * str).
Definition styled (y : style) (s : seen) : Prop :=
  (exists f, PdfObjSpec.wanted_base load_ttf reg (t_font (y_state y)) (s_base s) f) /\
  (s_size s == round3 (t_size (y_state y)))%Q /\ (s_rise s == round3 (t_rise (y_state y)))%Q /\
  (forall col, t_color (y_state y) = Some col -> rgb_eq (s_fill s) (round_rgb round3 col)).
Definition seen_as (p : lpart) (s : seen) : Prop := styled (lp_style p) s /\ s_text s = part_text p.

(** The words of a text that is seen, and a word of contents seen there. *)
Definition seen_words (s : seen) : list (seen * str) := map (fun w => (s, w)) (pieces (s_text s)).
Definition word_seen (w : WholeProofs.word) (sv : seen * str) : Prop :=
  let '(y, _, v) := w in snd sv = v /\ styled y (fst sv).

(** The things on a page, other than graphics, are those drawn there. *)
Definition same_thing (p : piece) (it : Whole.drawn) : Prop :=
  match p, it with
  | Paragraph x y d, Whole.DPar _ x' y' d' => x = x' /\ y = y' /\ d = d'
  | Picture _ w h x y, Whole.DPic x' y' w' h' _ _ => x = x' /\ y = y' /\ w = w' /\ h = h'
  | _, _ => False
  end.
Definition is_graphics (p : piece) : bool := match p with Graphics _ => true | _ => false end.
Definition holds_items (ps : list piece) (its : list Whole.drawn) : Prop := Forall2 same_thing (filter (fun p => negb (is_graphics p)) ps) its.
End Put.

(** ** What the operators of a page show *)

Definition shows_nothing (ops : list gop) : Prop := forall r, filter is_show (snd (execs ops r)) = [].
Definition mute (o : gop) : Prop := match o with GShow _ => False | _ => True end.
Lemma mute_shows ops : Forall mute ops -> shows_nothing ops.
Proof.
  induction 1 as [|o ops Ho _ IH]; intros r; [reflexivity|]. cbn [execs].
  destruct (exec o r) as [r1 e1] eqn:E. specialize (IH r1). destruct (execs ops r1) as [r2 e2]. cbn [snd] in *. rewrite filter_app, IH, app_nil_r.
  destruct r as [[m fc sc w cap dash font rise sp] stk path line]. unfold exec in E. cbn [r_gs r_stack r_path r_line] in E.
  destruct o; try contradiction; try (injection E as <- <-; reflexivity).
  - destruct stk; injection E as <- <-; reflexivity.
  - destruct line as [[]|]; injection E as <- <-; reflexivity.
Qed.

Section Page.
Variable round3 : Q -> Q.
Variable text_w : fkey -> str -> Q.
Variable space_w : fkey -> Q.
Variable fref : fkey -> str.
Hypothesis round3_proper : forall x y, (x == y)%Q -> (round3 x == round3 y)%Q.
Notation run := (run round3 text_w space_w fref).

Definition em_mute (e : em) : Prop := Forall mute (e_gfx e).
Lemma output_graphics_mute p x y w e : em_mute e -> em_mute (output_graphics round3 p x y w e).
Proof.
  intros H2. unfold em_mute, output_graphics in *.
  set (gf := match y_bg (lp_style p) with None => (e_fill e, []) | Some c => _ end).
  assert (K1 : Forall mute (snd gf)).
  { unfold gf. destruct (y_bg (lp_style p)) as [c|]; cbn [snd]; [|constructor].
    destruct (match e_fill e with Some _ => _ | None => _ end); repeat constructor. }
  destruct gf as [fill g1]. cbn [snd] in K1. set (gs := if y_under (lp_style p) then _ else _).
  assert (K2 : Forall mute (snd gs)).
  { unfold gs. destruct (y_under (lp_style p)); cbn [snd]; [|constructor].
    destruct (t_color (y_state (lp_style p))), (e_color e) as [oc|], (e_sw e) as [os|]; try destruct (ocolor_eqb _ oc); try destruct (Qeq_bool _ os); repeat constructor. }
  destruct gs as [[color sw] g2]. cbn [snd] in K2. cbn [e_gfx].
  apply Forall_app; split; [exact H2|]. apply Forall_app; split; assumption.
Qed.
Lemma emit_parts_mute ps : forall f x e, em_mute e -> em_mute (emit_parts round3 space_w fref ps f x e).
Proof.
  induction ps as [|p ps IH]; intros f x e H; [exact H|]. cbn [emit_parts]. unfold emit_part.
  assert (K : em_mute (output_text round3 space_w fref p f e)) by exact H. destruct (List.concat (lp_words p)) as [|c0 r]; [apply IH; exact K|].
  destruct (isspace (c0 :: r)); [apply IH; exact K|]. apply IH. apply output_graphics_mute. exact K.
Qed.
Lemma run_mute c d w h d' : run c d w h = Ok d' -> em_mute (d_em d').
Proof.
  intros E. refine (run_state_ind round3 text_w space_w fref c (fun d => em_mute (d_em d)) _ _ d w h d' _ E).
  - intros d1 d2 Hc H. unfold core in Hc. injection Hc as _ _ _ _ _ _ Hc _. now rewrite <- Hc.
  - intros d1 cur b e x q f k H Es. cbn [accept d_em]. unfold add_line_to_stream in Es.
    destruct (start_line round3 fref c d1 (flush cur b) b) as [[[[[e1 x1] q1] f1] k1]|] eqn:Est; [|discriminate]. cbn [bind] in Es.
    apply Ok_inj, (f_equal (fun z => fst (fst (fst (fst z))))) in Es. cbn [fst] in Es. subst e.
    apply emit_parts_mute. unfold start_line in Est.
    destruct (match c_list c with None => _ | Some _ => _ end) as [x0|]; [|discriminate]. cbn [bind] in Est.
    assert (T : forall ops s y i, em_mute (add_ops (d_em d1) ops s y i)) by (intros; exact H).
    destruct (negb (e_started (d_em d1))); [destruct (d_first d1); [destruct (c_list c) as [li|]|]|]; [destruct (d_lstate d1) as [ls|]; [|discriminate]| | |];
      apply Ok_inj, (f_equal (fun z => fst (fst (fst (fst z))))) in Est; cbn [fst] in Est; subst e1; apply T.
  - constructor.
Qed.
Lemma graphics_mute l : forall lf lc lw ls ops, graphics_loop round3 lf lc lw ls l = Ok ops -> Forall mute ops.
Proof.
  induction l as [|g l IH]; intros lf lc lw ls ops E; [injection E as <-; constructor|].
  destruct g as [x y w h c|x1 y1 x2 y2 w c s]; cbn [graphics_loop] in E.
  - destruct (graphics_loop round3 (Some c) lc lw ls l) as [rest|] eqn:Er; [|discriminate]. cbn [bind] in E. apply Ok_inj in E. subst ops.
    apply Forall_app; split; [|exact (IH _ _ _ _ _ Er)]. destruct (differs _ _ _); repeat constructor.
  - destruct (line_style round3 w s) as [[[cap dash] phase]|] eqn:El; [|discriminate]. cbn [bind] in E.
    destruct (graphics_loop round3 lf (Some c) (Some w) (Some (cap, dash, phase)) l) as [rest|] eqn:Er; [|discriminate]. cbn [bind] in E. apply Ok_inj in E. subst ops.
    apply Forall_app; split; [|exact (IH _ _ _ _ _ Er)]. destruct (differs rgb_eqb _ _), (differs Qeq_bool _ _), (differs style_eqb _ _); repeat constructor.
Qed.

(** A part of a line is shown with its font, size, rise, colour and text. *)
Definition own (p : lpart) (q : paint) : Prop := exists ctm f, shows_own round3 space_w fref ctm (p, f) q.
Lemma own_show p q : own p q -> is_show q = true.
Proof. intros (ctm & f & H). unfold shows_own in H. destruct q; try contradiction; reflexivity. Qed.
Lemma lines_own ctm ls : forall ms qs, List.length ms = List.length ls ->
  Forall2 (shows_own round3 space_w fref ctm) (flat_map line_parts (combine ls ms)) qs ->
  Forall2 own (flat_map (fun l => filter (fun p => nonempty (part_text p)) (l_parts l)) ls) qs.
Proof.
  induction ls as [|l ls IH]; intros ms qs Hl H; destruct ms as [|k ms]; try discriminate; cbn [combine flat_map] in *; [inversion H; constructor|].
  apply Forall2_app_inv_l in H as (q1 & q2 & H1 & H2 & ->). apply Forall2_app; [|apply (IH ms); [now injection Hl|exact H2]].
  unfold line_parts in H1. cbn [fst snd] in H1. revert q1 H1. generalize (filter (fun p => nonempty (part_text p)) (l_parts l)). intros ps.
  induction ps as [|p ps IHp]; intros q1 H1; inversion H1; subst; constructor; [|now apply IHp]. now exists ctm, (k_factor k).
Qed.
Lemma all_shows ps qs : Forall2 own ps qs -> filter is_show qs = qs.
Proof. induction 1 as [|p q ps qs H _ IH]; [reflexivity|]. cbn [filter]. now rewrite (own_show _ _ H), IH. Qed.
Lemma filter_shows_app a b r : filter is_show (snd (execs (a ++ b) r)) =
  filter is_show (snd (execs a r)) ++ filter is_show (snd (execs b (fst (execs a r)))).
Proof. rewrite execs_app. destruct (execs a r) as [r1 p1]. cbn [fst]. destruct (execs b r1) as [r2 p2]. cbn [snd]. apply filter_app. Qed.
Lemma piece_shows p ops r : (forall x y d, p = Paragraph x y d -> exists c d0 w h, c_list c = None /\ run c d0 w h = Ok d) ->
  piece_ops round3 p = Ok ops -> Forall2 own (piece_parts p) (filter is_show (snd (execs ops r))).
Proof.
  intros Hp E. destruct p as [x y d|l|nm w h x y]; cbn [piece_ops piece_parts] in *.
  - apply Ok_inj in E. subst ops. destruct (Hp x y d eq_refl) as (c & d0 & w & h & Hl & Er). unfold paragraph_stream. rewrite filter_shows_app.
    rewrite mute_shows.
    2: { pose proof (run_mute _ _ _ _ _ Er) as M. unfold em_mute in M. destruct (e_gfx (d_em d)); [constructor|]. constructor; [exact I|]. constructor; [exact I|].
      apply Forall_app; split; [exact M|]. constructor; [exact I|constructor]. }
    cbn [app]. generalize (fst (execs match e_gfx (d_em d) with [] => [] | _ :: _ => GSave :: GConcat 1 0 0 1 (round3 x) (round3 y) :: e_gfx (d_em d) ++ [GRestore] end r)). clear r. intros r.
    set (r1 := with_line r (Some (round3 x, round3 y))).
    destruct (C24_text_state round3 text_w space_w fref round3_proper c d0 w h d r1 Er) as (r2 & pre & qs & T1 & T2 & _ & T3 & T4); [discriminate|].
    rewrite (T2 Hl) in T1. cbn [app] in T1. pose proof (lines_own _ _ _ _ T4 T3) as K. unfold par_parts.
    destruct (e_text (d_em d)) as [|o t] eqn:Et.
    + cbn in T1. injection T1 as _ <-. exact K.
    + assert (X : execs (GBegin :: GTm (round3 x) (round3 y) :: (o :: t) ++ [GEnd]) r = execs ((o :: t) ++ [GEnd]) r1).
      { clear. unfold r1. destruct r as [[q1 q2 q3 q4 q5 q6 q7 q8 q9] s1 s2 s3]. cbn [execs exec with_line r_gs r_stack r_path].
        destruct (execs ((o :: t) ++ [GEnd]) _); reflexivity. }
      rewrite X, filter_shows_app, T1. cbn [fst snd]. rewrite (all_shows _ _ K).
      assert (Z : filter is_show (snd (execs [GEnd] r2)) = []) by (apply mute_shows; repeat constructor). rewrite Z, app_nil_r. exact K.
  - rewrite mute_shows; [constructor|]. unfold create_graphics in E. destruct (graphics_loop round3 None None None None l) as [o|] eqn:El; [|discriminate].
    cbn [bind] in E. apply Ok_inj in E. subst ops. apply graphics_mute in El. destruct o as [|o t]; [constructor|]. constructor; [exact I|].
    apply Forall_app; split; [exact El|]. constructor; [exact I|constructor].
  - apply Ok_inj in E. subst ops. rewrite mute_shows; [constructor|]. unfold image_stream. repeat constructor.
Qed.
Lemma page_shows ps : forall ops r, (forall x y d, In (Paragraph x y d) ps -> exists c d0 w h, c_list c = None /\ run c d0 w h = Ok d) ->
  page_ops round3 ps = Ok ops -> Forall2 own (flat_map piece_parts ps) (filter is_show (snd (execs ops r))).
Proof.
  induction ps as [|p ps IH]; intros ops r Hp E; cbn [page_ops flat_map] in *; [injection E as <-; constructor|].
  destruct (piece_ops round3 p) as [a|] eqn:Ea; [|discriminate]. cbn [bind] in E.
  destruct (page_ops round3 ps) as [b|] eqn:Eb; [|discriminate]. cbn [bind] in E. apply Ok_inj in E. subst ops.
  rewrite filter_shows_app. apply Forall2_app.
  - apply piece_shows; [|exact Ea]. intros x y d ->. apply (Hp x y). now left.
  - apply IH; [|reflexivity]. intros x y d H. apply (Hp x y). now right.
Qed.
End Page.

(** ** A reader finds one thing *)

Lemma app_same_length {A} (a b c d : list A) : a ++ b = c ++ d -> List.length a = List.length c -> b = d.
Proof.
  revert c. induction a as [|x a IH]; intros [|y c] H L; try discriminate; [exact H|]. cbn in H. injection H as _ H. apply (IH c H). now injection L.
Qed.
Lemma object_one file id p q : PdfReader.object_at file id p -> PdfReader.object_at file id q -> p = q.
Proof.
  intros (t & r & off & pre & H1 & H2 & H3 & H4) (t' & r' & off' & pre' & H1' & H2' & H3' & H4').
  rewrite H1 in H1'. injection H1' as <- <-. rewrite H2 in H2'. injection H2' as <-. rewrite H3 in H3'.
  apply app_same_length in H3'; [|unfold blen in *; apply Nat2N.inj; congruence].
  apply app_inv_head in H3'. apply app_inv_head in H3'. now injection H3'.
Qed.
Lemma value_one file id v w : PdfReader.value_at file id v -> PdfReader.value_at file id w -> v = w.
Proof.
  intros (p & m & H1 & H2) (q & n & H1' & H2'). rewrite <- (object_one _ _ _ _ H1 H1') in H2'. apply (reads_det _ _ _ _ _ H2 H2').
Qed.
Lemma dict_one file id d e : PdfReader.value_at file id (VDict d) -> PdfReader.value_at file id (VDict e) -> d = e.
Proof. intros H1 H2. pose proof (value_one _ _ _ _ H1 H2) as H. now injection H. Qed.
Lemma stream_one file id d z e y : PdfReader.stream_at file id d z -> PdfReader.stream_at file id e y -> d = e /\ z = y.
Proof.
  intros (p & m & H1 & l1 & l2 & n & R1 & R2 & R3 & _ & R4 & _) (q & m' & H1' & l1' & l2' & n' & R1' & R2' & R3' & _ & R4' & _).
  rewrite <- (object_one _ _ _ _ H1 H1') in R1'. destruct (reads_det _ _ _ _ _ R1 R1') as [E <-]. injection E as <-.
  rewrite R2 in R2'. injection R2' as <-. rewrite R3 in R3'. injection R3' as R3'. apply Nat2Z.inj in R3'. subst n'. split; congruence.
Qed.
Lemma sees_one file pv p s t : sees file pv p s -> sees file pv p t -> s = t.
Proof.
  unfold sees. destruct p as [| |m [[nm size]|] fill rise sp line txt|]; try contradiction.
  intros (i & fv & b & H1 & H2 & H3 & ->) (i' & fv' & b' & H1' & H2' & H3' & ->). rewrite H1 in H1'. injection H1' as E. apply Nat2N.inj in E. subst i'.
  rewrite <- (dict_one _ _ _ _ H2 H2') in H3'. rewrite H3 in H3'. now injection H3' as <-.
Qed.
Lemma vref_inj i j : PdfReader.vref i = PdfReader.vref j -> i = j.
Proof. intros H. injection H as H. now apply Nat2N.inj. Qed.
Lemma texts_one inflate file id l l' : page_texts inflate file id l -> page_texts inflate file id l' -> l = l'.
Proof.
  intros (pv & c & cv & z & data & ops & H1 & H2 & H3 & _ & H4 & H5 & H6) (pv' & c' & cv' & z' & data' & ops' & H1' & H2' & H3' & _ & H4' & H5' & H6').
  rewrite <- (dict_one _ _ _ _ H1 H1') in *. rewrite H2 in H2'. injection H2' as E. apply Nat2N.inj in E. subst c'.
  destruct (stream_one _ _ _ _ _ _ H3 H3') as [_ <-]. rewrite H4 in H4'. injection H4' as <-. rewrite <- (C78_one_reading _ _ _ H5 H5') in H6'.
  clear - H6 H6'. revert l' H6'. induction H6 as [|p s ps l H _ IH]; intros l' H'; inversion H'; subst; [reflexivity|]. f_equal; [eapply sees_one; eassumption|now apply IH].
Qed.
Lemma pages_one file : forall n parent ids, PdfReader.pages_at file n parent ids -> forall parent' ids', PdfReader.pages_at file n parent' ids' -> ids = ids'.
Proof.
  fix IH 4. intros n parent ids H parent' ids' H'.
  destruct H as [p d par H1 H2 H3|n d par kids leaves H1 H2 H3 H4 H5 H6]; inversion H' as [p' d' par' H1' H2' H3'|n' d' par' kids' leaves' H1' H2' H3' H4' H5' H6']; subst.
  - reflexivity.
  - exfalso. rewrite <- (dict_one _ _ _ _ H1 H1') in H2'. rewrite H2 in H2'. discriminate H2'.
  - exfalso. rewrite <- (dict_one _ _ _ _ H1 H1') in H2'. rewrite H2 in H2'. discriminate H2'.
  - rewrite <- (dict_one _ _ _ _ H1 H1') in H4'. rewrite H4 in H4'. injection H4' as E. f_equal.
    clear - IH H6 H6' E. revert kids' leaves' E H6'. induction H6 as [|k l ks ls Hk Hks IHk]; intros kids' leaves' E H6'; destruct kids' as [|k' kids']; try discriminate; inversion H6' as [|? l' ? ls' Hk' Hks']; subst; [reflexivity|].
    cbn [map] in E. injection E as E1 E2. apply Nat2N.inj in E1. subst k'. f_equal; [exact (IH _ _ _ Hk _ _ Hk')|exact (IHk _ _ E2 Hks')].
Qed.
Lemma catalog_one file d e : PdfReader.catalog_is file d -> PdfReader.catalog_is file e -> d = e.
Proof.
  intros (t & root & (tb & rest & tail & T1 & T2) & H2 & H3 & _) (t' & root' & (tb' & rest' & tail' & T1' & T2') & H2' & H3' & _).
  rewrite T1 in T1'. injection T1' as <- E. subst rest'. destruct (reads_det _ _ _ _ _ T2 T2') as [E _]. injection E as <-.
  rewrite H2 in H2'. injection H2' as E. apply Nat2N.inj in E. subst root'. exact (dict_one _ _ _ _ H3 H3').
Qed.
Lemma has_pages_one file ids ids' : PdfReader.has_pages file ids -> PdfReader.has_pages file ids' -> ids = ids'.
Proof.
  intros (d & n & H1 & H2 & H3) (d' & n' & H1' & H2' & H3'). rewrite <- (catalog_one _ _ _ H1 H1') in H2'. rewrite H2 in H2'.
  injection H2' as E. apply Nat2N.inj in E. subst n'. exact (pages_one _ _ _ _ H3 _ _ H3').
Qed.

(** ** The pages of the file *)

Section File.
Variable round3 : Q -> Q.
Variable text_w : fkey -> str -> Q.
Variable space_w : fkey -> Q.
Variable fref : fkey -> str.
Hypothesis round3_proper : forall x y, (x == y)%Q -> (round3 x == round3 y)%Q.
Hypothesis thousandths : forall q, exists k : Z, (round3 q == k # 1000)%Q.
Hypothesis regular : forall k, forallb is_regular (fref k) = true.
Notation run := (run round3 text_w space_w fref).

Definition named (o : gop) : Prop := match o with GFont n _ => exists k, n = fref k | GDo _ => False | _ => True end.
Definition em_named (e : em) : Prop := Forall named (e_text e) /\ Forall named (e_gfx e).
Lemma compare_named s o : Forall named (compare round3 fref s o).
Proof.
  unfold compare. repeat (apply Forall_app; split).
  - destruct (_ || _); constructor; [cbn; eauto|constructor].
  - match goal with |- Forall _ (if ?b then _ else _) => destruct b end; [|constructor]. destruct (t_color s) as [c|]; repeat constructor.
  - match goal with |- Forall _ (if ?b then _ else _) => destruct b end; repeat constructor.
Qed.
Lemma output_text_named p f e : em_named e -> em_named (output_text round3 space_w fref p f e).
Proof.
  intros [H1 H2]. split; [|exact H2]. unfold output_text. cbn [e_text].
  apply Forall_app; split; [exact H1|]. apply Forall_app; split; [apply compare_named|]. apply Forall_app; split.
  - destruct (match e_tw e with Some _ => _ | None => _ end); repeat constructor.
  - destruct (List.concat (lp_words p)); repeat constructor.
Qed.
Lemma output_graphics_named p x y w e : em_named e -> em_named (output_graphics round3 p x y w e).
Proof.
  intros [H1 H2]. unfold output_graphics.
  set (gf := match y_bg (lp_style p) with None => (e_fill e, []) | Some c => _ end).
  assert (K1 : Forall named (snd gf)).
  { unfold gf. destruct (y_bg (lp_style p)) as [c|]; cbn [snd]; [|constructor].
    destruct (match e_fill e with Some _ => _ | None => _ end); repeat constructor. }
  destruct gf as [fill g1]. cbn [snd] in K1. set (gs := if y_under (lp_style p) then _ else _).
  assert (K2 : Forall named (snd gs)).
  { unfold gs. destruct (y_under (lp_style p)); cbn [snd]; [|constructor].
    destruct (t_color (y_state (lp_style p))), (e_color e) as [oc|], (e_sw e) as [os|]; try destruct (ocolor_eqb _ oc); try destruct (Qeq_bool _ os); repeat constructor. }
  destruct gs as [[color sw] g2]. cbn [snd] in K2. split; cbn [e_text e_gfx]; [exact H1|].
  apply Forall_app; split; [exact H2|]. apply Forall_app; split; assumption.
Qed.
Lemma emit_parts_named ps : forall f x e, em_named e -> em_named (emit_parts round3 space_w fref ps f x e).
Proof.
  induction ps as [|p ps IH]; intros f x e H; [exact H|]. cbn [emit_parts]. unfold emit_part.
  pose proof (output_text_named p f e H) as K. destruct (List.concat (lp_words p)) as [|c0 r]; [apply IH; exact K|].
  destruct (isspace (c0 :: r)); [apply IH; exact K|]. apply IH. apply output_graphics_named. exact K.
Qed.
Lemma run_named c d w h d' : run c d w h = Ok d' -> em_named (d_em d').
Proof.
  intros E. refine (run_state_ind round3 text_w space_w fref c (fun d => em_named (d_em d)) _ _ d w h d' _ E).
  - intros d1 d2 Hc H. unfold core in Hc. injection Hc as _ _ _ _ _ _ Hc _. now rewrite <- Hc.
  - intros d1 cur b e x q f k H Es. cbn [accept d_em]. unfold add_line_to_stream in Es.
    destruct (start_line round3 fref c d1 (flush cur b) b) as [[[[[e1 x1] q1] f1] k1]|] eqn:Est; [|discriminate]. cbn [bind] in Es.
    apply Ok_inj, (f_equal (fun z => fst (fst (fst (fst z))))) in Es. cbn [fst] in Es. subst e.
    apply emit_parts_named. unfold start_line in Est.
    destruct (match c_list c with None => _ | Some _ => _ end) as [x0|]; [|discriminate]. cbn [bind] in Est. destruct H as [H1 H2].
    assert (T : forall ops s y i, Forall named ops -> em_named (add_ops (d_em d1) ops s y i)).
    { intros ops s y i H. split; [|exact H2]. unfold add_ops. cbn [e_text]. apply Forall_app; split; assumption. }
    destruct (negb (e_started (d_em d1))); [destruct (d_first d1); [destruct (c_list c) as [li|]|]|]; [destruct (d_lstate d1) as [ls|]; [|discriminate]| | |];
      apply Ok_inj, (f_equal (fun z => fst (fst (fst (fst z))))) in Est; cbn [fst] in Est; subst e1; apply T; try (repeat constructor).
    apply Forall_app; split; [apply compare_named|repeat constructor].
  - split; constructor.
Qed.
Lemma graphics_named l : forall lf lc lw ls ops, graphics_loop round3 lf lc lw ls l = Ok ops -> Forall named ops.
Proof.
  induction l as [|g l IH]; intros lf lc lw ls ops E; [injection E as <-; constructor|].
  destruct g as [x y w h c|x1 y1 x2 y2 w c s]; cbn [graphics_loop] in E.
  - destruct (graphics_loop round3 (Some c) lc lw ls l) as [rest|] eqn:Er; [|discriminate]. cbn [bind] in E. apply Ok_inj in E. subst ops.
    apply Forall_app; split; [|exact (IH _ _ _ _ _ Er)]. destruct (differs _ _ _); repeat constructor.
  - destruct (line_style round3 w s) as [[[cap dash] phase]|] eqn:El; [|discriminate]. cbn [bind] in E.
    destruct (graphics_loop round3 lf (Some c) (Some w) (Some (cap, dash, phase)) l) as [rest|] eqn:Er; [|discriminate]. cbn [bind] in E. apply Ok_inj in E. subst ops.
    apply Forall_app; split; [|exact (IH _ _ _ _ _ Er)]. destruct (differs rgb_eqb _ _), (differs Qeq_bool _ _), (differs style_eqb _ _); repeat constructor.
Qed.
Definition regular_op (o : gop) : Prop := match o with GFont n _ | GDo n => forallb is_regular n = true | _ => True end.
Lemma named_regular ops : Forall named ops -> Forall regular_op ops.
Proof. apply Forall_impl. intros o H. destruct o; try exact I; cbn in *; [destruct H as [k ->]; apply regular|contradiction]. Qed.
Definition drawn_by (p : piece) : Prop := forall x y d, p = Paragraph x y d -> exists c d0 w h, c_list c = None /\ run c d0 w h = Ok d.
Lemma piece_regular p ops : drawn_by p -> piece_ops round3 p = Ok ops -> (forall nm w h x y, p = Picture nm w h x y -> forallb is_regular nm = true) -> Forall regular_op ops.
Proof.
  intros Hp E Hn. destruct p as [x y d|l|nm w h x y]; cbn [piece_ops] in E.
  - apply Ok_inj in E. subst ops. destruct (Hp x y d eq_refl) as (c & d0 & w & h & Hl & Er). apply run_named in Er as [N1 N2].
    apply named_regular in N1. apply named_regular in N2. unfold paragraph_stream. apply Forall_app; split.
    + destruct (e_gfx (d_em d)) as [|o t] eqn:Eg; [constructor|]. constructor; [exact I|]. constructor; [exact I|].
      apply Forall_app; split; [exact N2|constructor; [exact I|constructor]].
    + destruct (e_text (d_em d)) as [|o t] eqn:Eg; [constructor|]. constructor; [exact I|]. constructor; [exact I|].
      apply Forall_app; split; [exact N1|constructor; [exact I|constructor]].
  - unfold create_graphics in E. destruct (graphics_loop round3 None None None None l) as [o|] eqn:El; [|discriminate].
    cbn [bind] in E. apply Ok_inj in E. subst ops. apply graphics_named, named_regular in El. destruct o as [|o t]; [constructor|]. constructor; [exact I|].
    apply Forall_app; split; [exact El|constructor; [exact I|constructor]].
  - apply Ok_inj in E. subst ops. specialize (Hn _ _ _ _ _ eq_refl). unfold image_stream. constructor; [exact I|]. constructor; [exact I|]. constructor; [exact Hn|]. constructor; [exact I|constructor].
Qed.
Lemma writes_app lists a s b t : writes_all lists a s -> writes_all lists b t -> writes_all lists (a ++ b) (s ++ t).
Proof. induction 1 as [|o s0 os ss Ho H IH]; intros Hb; [exact Hb|]. cbn [app]. rewrite <- app_assoc. constructor; auto. Qed.

Variable num : Q -> obj.
Variable txt : Q -> str.
Variable flate : bytes -> bytes.
Variable file : bytes.
Hypothesis printed : forall q, py_number (round3 q) (txt q).
Lemma picture_writes nm w h x y : writes_all (fun _ => False) (image_stream round3 nm w h x y)
  (lit " q " ++ txt w ++ lit " 0 0 " ++ txt h ++ lit " " ++ txt x ++ lit " " ++ txt y ++ lit " cm /" ++ nm ++ lit " Do Q").
Proof.
  unfold image_stream.
  assert (E : lit " q " ++ txt w ++ lit " 0 0 " ++ txt h ++ lit " " ++ txt x ++ lit " " ++ txt y ++ lit " cm /" ++ nm ++ lit " Do Q" =
    lit " q" ++ ([] +++ txt w +++ lit "0 0" +++ txt h +++ txt x +++ txt y +++ lit "cm") ++ (lit " /" ++ nm +++ lit "Do") ++ lit " Q" ++ []).
  { change (lit " q ") with (lit " q" ++ [32]). change (lit " 0 0 ") with (32 :: lit "0 0" ++ [32]). change (lit " cm /") with (32 :: lit "cm" ++ lit " /").
    change (lit " Do Q") with (32 :: lit "Do" ++ lit " Q"). change (lit " ") with [32]. rewrite !app_nil_r. repeat (rewrite <- !app_assoc; cbn [app]). reflexivity. }
  rewrite E. constructor; [apply W_save|]. constructor; [apply W_concat_image; apply printed|]. constructor; [apply W_do|]. constructor; [apply W_restore|constructor].
Qed.

Definition fine_bytes (p : piece) (b : bytes) (p' : piece) : Prop :=
  drawn_by p' /\ piece_parts p' = piece_parts p /\ exists ops, piece_ops round3 p' = Ok ops /\ writes_all (fun _ => False) ops b /\ Forall fair_op ops /\ Forall regular_op ops.
Lemma piece_bytes h pv p e b : drawn_by p -> fair round3 p -> put round3 p e -> FileSpec.drawn txt file h pv b e -> exists p', fine_bytes p b p'.
Proof.
  intros Hd Hf Hp Hb. destruct p as [x y d|l|nm w ht x y], e as [| styles t| | |n w' h' x' y'| | |]; cbn [put] in Hp; try contradiction; cbn [FileSpec.drawn] in Hb.
  - subst b. destruct Hp as [(ops & E & W) _]. exists (Paragraph x y d). split; [exact Hd|]. split; [reflexivity|]. exists ops.
    split; [exact E|]. split; [exact W|]. split; [exact (Hf _ E)|]. apply (piece_regular _ _ Hd E). discriminate.
  - subst b. destruct Hp as (ops & E & W). exists (Graphics l). split; [exact Hd|]. split; [reflexivity|]. exists ops.
    split; [exact E|]. split; [exact W|]. split; [exact (Hf _ E)|]. apply (piece_regular _ _ Hd E). discriminate.
  - destruct Hp as (<- & <- & <- & <- & <-). destruct Hb as (rn & id & o & _ & _ & _ & Hr & ->). exists (Picture rn w ht x y).
    assert (Hd' : drawn_by (Picture rn w ht x y)) by (intros ? ? ?; discriminate). split; [exact Hd'|]. split; [reflexivity|]. exists (image_stream round3 rn w ht x y).
    split; [reflexivity|]. split; [apply picture_writes|]. split.
    + specialize (Hf _ eq_refl). unfold image_stream in *. inversion Hf as [|? ? F1 F2]; subst. inversion F2 as [|? ? F3 F4]; subst. inversion F4 as [|? ? F5 F6]; subst.
      constructor; [exact F1|]. constructor; [exact F3|]. constructor; [split; [intros q []|exact I]|exact F6].
    + apply (piece_regular _ _ Hd' eq_refl). intros ? ? ? ? ? Ep. injection Ep as <- _ _ _ _. exact Hr.
Qed.
Lemma pieces_bytes h pv : forall ps es bs, Forall drawn_by ps -> Forall (fair round3) ps -> Forall2 (put round3) ps es -> Forall2 (FileSpec.drawn txt file h pv) bs es ->
  exists ps' ops, Forall drawn_by ps' /\ flat_map piece_parts ps' = flat_map piece_parts ps /\ page_ops round3 ps' = Ok ops /\
    writes_all (fun _ => False) ops (List.concat bs) /\ Forall fair_op ops /\ Forall regular_op ops.
Proof.
  induction ps as [|p ps IH]; intros es bs Hd Hf Hp Hb.
  - inversion Hp; subst. inversion Hb; subst. exists [], []. repeat (split; [constructor|]); constructor.
  - inversion Hp as [|? e ? es' P1 P2]; subst. inversion Hb as [|b ? bs' ? B1 B2]; subst. apply Forall_cons_iff in Hd as [D1 D2]. apply Forall_cons_iff in Hf as [F1 F2].
    destruct (piece_bytes _ _ _ _ _ D1 F1 P1 B1) as (p' & Q1 & Q2 & o & O1 & O2 & O3 & O4).
    destruct (IH _ _ D2 F2 P2 B2) as (ps' & ops & R1 & R2 & R3 & R4 & R5 & R6).
    exists (p' :: ps'), (o ++ ops). split; [constructor; assumption|]. cbn [flat_map page_ops List.concat]. rewrite Q2, R2, O1, R3. split; [reflexivity|]. split; [reflexivity|].
    split; [now apply writes_app|]. split; apply Forall_app; split; assumption.
Qed.
Lemma same_shows a b : paints_eq a b -> paints_eq (filter is_show a) (filter is_show b).
Proof.
  induction 1 as [|p q a b H _ IH]; [constructor|]. cbn [filter]. destruct p, q; try contradiction; cbn [is_show]; try exact IH. constructor; assumption.
Qed.

Variable load_ttf : str -> res Fonts.ttf.
Variable tt_descr : Fonts.ttf -> Store.dict.
Variable tt_file : Fonts.ttf -> bytes.
Variable reg : list (Fonts.fkey * str).
Variable font_of : Fonts.fkey -> option (str * nat).
(** The texts were written with the names that the document gave the fonts. *)
Hypothesis names : forall k r id, font_of k = Some (r, id) -> r = fref k.
Variable inflate : bytes -> option bytes.
Hypothesis inflates : forall b, inflate (flate b) = Some b.

Lemma put_font h i id pv ps : FileSpec.fonts_at load_ttf tt_descr tt_file flate file reg font_of h i id -> PdfReader.value_at file id (VDict pv) ->
  Forall drawn_by ps -> Forall2 (put round3) ps (PdfObjSpec.shows (PdfObjSpec.on i h)) ->
  Forall (fun p => exists fid fv base f, PdfReader.resource (lit "Font") pv (fref (t_font (y_state (lp_style p)))) = Some (PdfReader.vref fid) /\
     PdfReader.value_at file fid (VDict fv) /\ assoc (lit "BaseFont") fv = Some (VName base) /\
     PdfObjSpec.wanted_base load_ttf reg (t_font (y_state (lp_style p))) base f) (flat_map piece_parts ps).
Proof.
  intros HF Hv Hd Hp. apply Forall_forall. intros q Hq. apply in_flat_map in Hq as (p & Hin & Hq).
  assert (He : exists e, In e (PdfObjSpec.shows (PdfObjSpec.on i h)) /\ put round3 p e).
  { clear - Hp Hin. induction Hp as [|p0 e ps es H _ IH]; [destruct Hin|]. destruct Hin as [<-|Hin]; [exists e; split; [now left|exact H]|].
    destruct (IH Hin) as (e' & E1 & E2). exists e'. split; [now right|exact E2]. }
  destruct He as (e & He & Hpe). destruct p as [x y d|l|nm w ht x y]; [|destruct Hq|destruct Hq]. cbn [piece_parts] in Hq.
  destruct e as [| styles t| | |n w' h' x' y'| | |]; cbn [put] in Hpe; try contradiction. destruct Hpe as [_ Hu].
  rewrite Forall_forall in Hd. destruct (Hd _ Hin x y d eq_refl) as (c & d0 & w & ht & _ & Er). apply run_tidy in Er.
  unfold par_parts in Hq. apply in_flat_map in Hq as (l & Hl & Hq). apply filter_In in Hq as [Hq _]. unfold lines_tidy in Er. rewrite Forall_forall in Er.
  destruct (Er _ Hl) as [_ Hk]. unfold fonts_in in Hk. rewrite Forall_forall in Hk. specialize (Hk _ Hq). destruct (Hu _ Hk) as (sty & S1 & S2).
  assert (He' : In (PdfObjSpec.EText styles t) (PdfObjSpec.on i h)) by (unfold PdfObjSpec.shows in He; apply filter_In in He; apply He).
  destruct (HF styles t sty He' S1) as (pv' & r & fid & base & f & F1 & F2 & F3 & F4 & F5).
  rewrite <- (dict_one _ _ _ _ Hv F1) in F3. rewrite S2 in F2, F4. rewrite (names _ _ _ F2) in F3. destruct F5 as (fv & V1 & _ & V2 & _).
  exists fid, fv, base, f. auto.
Qed.
Lemma file_texts h i id size ps : FileSpec.page_at num round3 txt flate file h i id size ->
  FileSpec.fonts_at load_ttf tt_descr tt_file flate file reg font_of h i id ->
  Forall drawn_by ps -> Forall (fair round3) ps -> Forall2 (put round3) ps (PdfObjSpec.shows (PdfObjSpec.on i h)) ->
  exists l, page_texts inflate file id l /\ Forall2 (seen_as round3 load_ttf reg) (flat_map piece_parts ps) l.
Proof.
  intros (pv & a & b & c & cv & bs & H1 & _ & _ & _ & H2 & H3 & H4 & _ & H5 & _) HF Hd Hf Hp.
  destruct (pieces_bytes h pv ps _ bs Hd Hf Hp H5) as (ps' & ops & Q1 & Q2 & Q3 & Q4 & Q5 & Q6).
  pose proof (put_font _ _ _ _ _ HF H1 Hd Hp) as HN.
  rewrite Forall_forall in Q1, Q5, Q6.
  assert (HP : forall x y d', In (Paragraph x y d') ps' -> exists c d w h, c_list c = None /\ run c d w h = Ok d') by (intros x y d' Hin; exact (Q1 _ Hin x y d' eq_refl)).
  destruct (C78_page_partial round3 text_w space_w fref thousandths ps' ops (List.concat bs) Q3 HP Q4) as (ops' & R1 & R2).
  { intros o q Ho. apply (Q5 _ Ho). }
  { intros x y Ho. exact (proj2 (Q5 _ Ho)). }
  { intros n q [Ho|Ho]; exact (Q6 _ Ho). }
  { intros t Ho. exact (proj2 (Q5 _ Ho)). }
  pose proof (same_shows _ _ (execs_same _ _ R2 _ _ page_reader_eq)) as HS.
  pose proof (page_shows round3 text_w space_w fref round3_proper ps' ops page_reader HP Q3) as HO. rewrite Q2 in HO.
  assert (K : exists l, Forall2 (sees file pv) (filter is_show (snd (execs ops' page_reader))) l /\ Forall2 (seen_as round3 load_ttf reg) (flat_map piece_parts ps) l).
  { clear - HN HS HO. revert HN HS HO. generalize (filter is_show (snd (execs ops page_reader))) (filter is_show (snd (execs ops' page_reader))). intros qs qs' HN HS HO.
    revert qs' HS HN. induction HO as [|p q ps' qs H _ IH]; intros qs' HS HN; inversion HS as [|q' ? qs'' ? E1 E2]; subst; [exists []; split; constructor|].
    apply Forall_cons_iff in HN as [N1 N2]. destruct (IH _ E2 N2) as (l & L1 & L2). destruct N1 as (fid & fv & base & f & F1 & F2 & F3 & F4).
    destruct H as (ctm & fc & H). unfold shows_own in H. cbn [fst snd] in H. destruct q as [| |m [[nm size]|] fill rise sp line t|]; try contradiction.
    destruct H as (_ & Ht & Hn & Hs & Hr & Hc & _). subst nm. destruct q' as [| |m' [[nm' size']|] fill' rise' sp' line' t'|]; try contradiction; cbn [paint_eq font_eq] in E1.
    2: { destruct E1 as (_ & [] & _). }
    destruct E1 as (_ & (E3 & E4) & E5 & E6 & _ & _ & _ & E7). subst nm'. exists (mkSeen base size' rise' fill' t' :: l). split; constructor; try assumption.
    - cbn [sees]. exists fid, fv, base. auto.
    - split; [|cbn [s_text]; congruence]. split; [exists f; exact F4|]. cbn [s_size s_rise s_fill]. split; [now rewrite E4|]. split; [now rewrite E6|].
      intros col Hcol. specialize (Hc _ Hcol). clear - E5 Hc. destruct fill, fill', (round_rgb round3 col); cbn [rgb_eq] in *; try contradiction.
      + now rewrite E5.
      + destruct E5 as (-> & -> & ->). exact Hc. }
  destruct K as (l & L1 & L2). exists l. split; [|exact L2].
  exists pv, c, cv, (flate (List.concat bs)), (List.concat bs), ops'. repeat (split; [assumption|]). split; [apply inflates|]. split; assumption.
Qed.

(** ** The words *)
Lemma part_words p s : tidy p -> seen_as round3 load_ttf reg p s ->
  Forall2 (word_seen round3 load_ttf reg) (WholeProofs.words_of (lp_style p) (lp_ids p) (lp_words p)) (seen_words s).
Proof.
  intros [T1 T2] [H1 H2]. unfold seen_words. rewrite H2. unfold part_text. rewrite (pieces_concat _ T1 T2). unfold WholeProofs.words_of.
  induction (filter _ (lp_words p)) as [|w ws IH]; cbn [map]; constructor; [|exact IH]. split; [reflexivity|exact H1].
Qed.
Lemma empty_words p : tidy p -> nonempty (part_text p) = false -> WholeProofs.words_of (lp_style p) (lp_ids p) (lp_words p) = [].
Proof.
  intros [T1 T2] H. unfold WholeProofs.words_of. rewrite <- (pieces_concat _ T1 T2). unfold part_text in H. destruct (List.concat (lp_words p)); [reflexivity|discriminate].
Qed.
Lemma parts_words ps : Forall tidy ps -> forall l, Forall2 (seen_as round3 load_ttf reg) (filter (fun p => nonempty (part_text p)) ps) l ->
  Forall2 (word_seen round3 load_ttf reg) (flat_map (fun p => WholeProofs.words_of (lp_style p) (lp_ids p) (lp_words p)) ps) (flat_map seen_words l).
Proof.
  induction 1 as [|p ps H _ IH]; intros l Hl; cbn [filter flat_map] in *; [inversion Hl; constructor|].
  destruct (nonempty (part_text p)) eqn:E; [|rewrite (empty_words _ H E); apply IH; exact Hl].
  inversion Hl as [|? s ? l' S1 S2]; subst. cbn [flat_map]. apply Forall2_app; [now apply part_words|now apply IH].
Qed.
Lemma par_words d : lines_tidy d -> forall l, Forall2 (seen_as round3 load_ttf reg) (par_parts d) l -> forall c x y,
  Forall2 (word_seen round3 load_ttf reg) (WholeProofs.shown_words (Whole.DPar c x y d)) (flat_map seen_words l).
Proof.
  unfold lines_tidy, par_parts. cbn [WholeProofs.shown_words]. intros H l Hl _ _ _. revert l Hl. induction H as [|ln ls [H1 _] _ IH]; intros l Hl; cbn [flat_map] in *; [inversion Hl; constructor|].
  apply Forall2_app_inv_l in Hl as (l1 & l2 & L1 & L2 & ->). rewrite flat_map_app. apply Forall2_app; [now apply parts_words|now apply IH].
Qed.
Lemma items_words ps its : Forall drawn_by ps -> holds_items ps its -> forall l, Forall2 (seen_as round3 load_ttf reg) (flat_map piece_parts ps) l ->
  Forall2 (word_seen round3 load_ttf reg) (flat_map WholeProofs.shown_words its) (flat_map seen_words l).
Proof.
  unfold holds_items. revert its. induction ps as [|p ps IH]; intros its Hd Hi l Hl; cbn [filter flat_map] in *.
  - inversion Hi; subst. inversion Hl; subst. constructor.
  - apply Forall_cons_iff in Hd as [D1 D2]. apply Forall2_app_inv_l in Hl as (l1 & l2 & L1 & L2 & ->). rewrite flat_map_app.
    destruct p as [x y d|g|nm w h x y]; cbn [is_graphics negb piece_parts] in *.
    + inversion Hi as [|? it ? its' I1 I2]; subst. destruct it as [c x' y' d'|]; cbn [same_thing] in I1; [|contradiction]. destruct I1 as (<- & <- & <-).
      destruct (D1 x y d eq_refl) as (c0 & d0 & w & h & _ & Er). cbn [flat_map]. apply Forall2_app; [|now apply IH].
      apply (par_words d (run_tidy _ _ _ _ _ _ _ _ _ Er) l1 L1 c x y).
    + inversion L1; subst. cbn [flat_map app]. now apply IH.
    + inversion L1; subst. inversion Hi as [|? it ? its' I1 I2]; subst. destruct it as [c x' y' d'|]; cbn [same_thing] in I1; [contradiction|]. cbn [flat_map WholeProofs.shown_words app]. now apply IH.
Qed.
End File.
