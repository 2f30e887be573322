(** Theorems for C25-C30: fonts and the text shown in them. *)
From Verif Require Import Py PyStr PdfSyntax Parser StreamProofs FontTables Store Fonts.
From Coq Require Import String QArith.
Open Scope N_scope.
Open Scope list_scope.

(** C25: the operand written for words in a standard font reads back, up to
    the closing parenthesis, as exactly the characters of the words. *)
Theorem C25_literal_text : forall w words op rest,
  forallb (fun c => negb (c =? 13)) (List.concat words) = true ->
  tj_operand (FStd w) words = Ok op ->
  read_lit 0 (op ++ 41 :: rest) = Some (List.concat words, rest).
Proof.
  intros w words op rest H [= <-]. rewrite clean_words_escape. now apply read_lit_escape.
Qed.
Print Assumptions C25_literal_text.
Example C25_nonvacuous :
  let words := [lit "f(x)"; lit " "; lit "\n)("] in
  forallb (fun c => negb (c =? 13)) (List.concat words) = true /\
  tj_operand (FStd []) words = Ok (lit "f\(x\) \\n\)\(").
Proof. split; reflexivity. Qed.

(** C26, partial: the text has no parenthesis or backslash, and no glyph id
    is a surrogate or has a byte 13. The full statement, without those
    hypotheses, is refuted below. *)
Theorem C26_embedded_text_partial : forall t words gs rest,
  forallb (fun c => negb (existsb (N.eqb c) (lit "()\"))) (List.concat words) = true ->
  glyphs_of (tt_cmap t) (List.concat words) = Some gs -> forallb good_gid gs = true ->
  exists op, tj_operand (FTT t) words = Ok op /\
    read_lit 0 (op ++ 41 :: rest) = Some (flat_map two_bytes gs, rest).
Proof. intros t words gs rest. exact (embedded_text_reads (tt_cmap t) words gs rest). Qed.
Print Assumptions C26_embedded_text_partial.
Example C26_nonvacuous :
  let t := mkTtf (lit "X") [(65, 40); (66, 23644)] (fun _ => 500%Z) 1000 in
  glyphs_of (tt_cmap t) (lit "AB") = Some [40; 23644] /\ forallb good_gid [40; 23644] = true /\
  tj_operand (FTT t) [lit "A"; lit "B"] = Ok [0; 92; 40; 92; 92; 92; 92] .
Proof. vm_compute. auto. Qed.

(** C26 fails for text with a parenthesis (the glyph of a backslash is shown
    too, or the text cannot be written), for a glyph whose number has a byte
    13, and for a glyph numbered like a surrogate. *)
Theorem C26_embedded_text_refuted :
  let t cm := mkTtf (lit "X") cm (fun _ => 500%Z) 1000 in
  (glyphs_of [(40, 7); (92, 9)] (lit "(") = Some [7] /\
   exists op, tj_operand (FTT (t [(40, 7); (92, 9)])) [lit "("] = Ok op /\
     read_lit 0 (op ++ [41]) = Some ([0; 9; 0; 7], [])) /\
  (glyphs_of [(40, 7)] (lit "(") = Some [7] /\ tj_operand (FTT (t [(40, 7)])) [lit "("] = Err KeyError) /\
  (glyphs_of [(65, 13)] (lit "A") = Some [13] /\
   exists op, tj_operand (FTT (t [(65, 13)])) [lit "A"] = Ok op /\
     read_lit 0 (op ++ [41]) = Some ([0; 10], [])) /\
  (glyphs_of [(65, 55296)] (lit "A") = Some [55296] /\
   tj_operand (FTT (t [(65, 55296)])) [lit "A"] = Err UnicodeEncodeError).
Proof.
  repeat split; try reflexivity.
  - exists [0; 9; 0; 7]. split; reflexivity.
  - exists [0; 13]. split; reflexivity.
Qed.
Print Assumptions C26_embedded_text_refuted.

(** C27, partial: no two neighbours of the character map share a glyph. Every
    glyph of the map then gets its own advance width and no other glyph gets
    any. *)
Theorem C27_widths_partial : forall t, tt_cmap t <> [] -> no_twins (map snd (tt_cmap t)) = true ->
  (forall c g, In (c, g) (tt_cmap t) -> In (g, scaled t g) (read_w (compute_char_widths t))) /\
  (forall g w, In (g, w) (read_w (compute_char_widths t)) ->
     w = scaled t g /\ exists c, In (c, g) (tt_cmap t)).
Proof.
  intros t H1 H2. rewrite (width_array_reads t H1 H2). split.
  - intros c g H. apply in_map_iff. exists (c, g). auto.
  - intros g w H. apply in_map_iff in H as ((c & g') & E & H). cbn [snd] in E. injection E as <- <-.
    split; [reflexivity|eauto].
Qed.
Print Assumptions C27_widths_partial.
Example C27_nonvacuous :
  let t := mkTtf (lit "X") [(65, 3); (66, 4); (67, 5); (68, 3)] (fun g => 100 * Z.of_N g)%Z 1000 in
  tt_cmap t <> [] /\ no_twins (map snd (tt_cmap t)) = true /\
  compute_char_widths t = [WStart 3; WGroup [scaled t 3; scaled t 4]; WStart 5; WGroup [scaled t 5]; WStart 3; WGroup [scaled t 3]].
Proof. split; [discriminate|]. split; vm_compute; reflexivity. Qed.

(** C27 fails when two neighbouring characters share a glyph that follows the
    start of a group: the next glyph then gets this glyph's width. *)
Theorem C27_widths_refuted : exists t g w,
  In (g, w) (read_w (compute_char_widths t)) /\ ~ (w == scaled t g)%Q.
Proof.
  exists (mkTtf (lit "X") [(65, 1); (66, 2); (67, 2); (68, 9); (69, 3)] (fun g => Z.of_N g) 1000), 3,
    (scaled (mkTtf (lit "X") [] (fun g => Z.of_N g) 1000) 2).
  split; [vm_compute; auto|vm_compute; discriminate].
Qed.
Print Assumptions C27_widths_refuted.

(** C28, partial: every character of the map is in the basic plane (one
    UTF-16 unit, no surrogate). There is one entry per character, in order,
    and it maps the glyph's two-byte code to that character. *)
Theorem C28_tounicode_partial : forall m,
  (forall c g, In (c, g) m -> bmp c = true /\ g < 65536) ->
  map read_bfchar (cmap_lines m) = map (fun cg => Some (snd cg, [fst cg])) m.
Proof. exact tounicode_reads. Qed.
Print Assumptions C28_tounicode_partial.
Example C28_nonvacuous : forall c g, In (c, g) [(65, 3); (8364, 40000)] -> bmp c = true /\ g < 65536.
Proof. intros c g [[= <- <-]|[[= <- <-]|[]]]; split; reflexivity. Qed.

(** C28 fails for a character outside the basic plane. *)
Theorem C28_tounicode_refuted : map read_bfchar (cmap_lines [(128512, 5)]) <> [Some (5, [128512])].
Proof. vm_compute. discriminate. Qed.
Print Assumptions C28_tounicode_refuted.

(** C29, partial: the fonts asked for in a document are all found, each being
    the font registered for exactly that family and mode, provided no earlier
    document of the process loaded one of them. *)
Theorem C29_registered_fonts_partial :
  forall (load_ttf : str -> res ttf) reg ld (paths : fkey -> str) (ttfs : fkey -> ttf) ks,
  (forall k, In k ks -> is_standard (fst k) = false /\ kget k reg = Some (paths k) /\
                        load_ttf (paths k) = Ok (ttfs k) /\ ~ In k ld) ->
  exists fonts fs' p', requests load_ttf ks init_fonts (mkProc reg ld) = Ok (fonts, fs', p') /\
    Forall2 (fun k f => f_kind f = FTT (ttfs k)) ks fonts.
Proof. exact first_document_fonts. Qed.
Print Assumptions C29_registered_fonts_partial.
Example C29_nonvacuous :
  let t := mkTtf (lit "Arial") [(65, 1)] (fun _ => 500%Z) 1000 in
  let k := (lit "arial", lit "b") in
  let ks := [k; k] in
  let p := register k (lit "a.ttf") (mkProc [] []) in
  (forall k', In k' ks -> is_standard (fst k') = false /\ kget k' (registered p) = Some (lit "a.ttf") /\
     (fun _ => Ok t) (lit "a.ttf") = Ok t /\ ~ In k' (loaded p)) /\
  exists l fs p', requests (fun _ => Ok t) ks init_fonts p = Ok (l, fs, p') /\ map f_ref l = [lit "F15"; lit "F15"].
Proof.
  cbv zeta. split.
  - intros k' [<-|[<-|[]]]; repeat split; auto.
  - eexists _, _, _. split; vm_compute; reflexivity.
Qed.

(** C29 fails in the second document: its request for a registered font
    raises, or gives another variant of the family. *)
Theorem C29_registered_fonts_refuted :
  let t n := mkTtf (lit n) [(65, 1)] (fun _ => 500%Z) 1000 in
  let load s := Ok (if str_eqb s (lit "n.ttf") then t "Regular"%string else t "Bold"%string) in
  let n := (lit "arial", lit "n") in let b := (lit "arial", lit "b") in let i := (lit "arial", lit "i") in
  let p := register i (lit "b.ttf") (register b (lit "b.ttf") (register n (lit "n.ttf") (mkProc [] []))) in
  documents load [[n; b]; [n]] p = Err KeyError /\
  exists l1 fs, documents load [[b]; [n; b]] p = Ok l1 /\
    map (map f_base) l1 = [[lit "Bold"]; [lit "Regular"; lit "Regular"]] /\
    requests load [n; b] init_fonts p = Ok fs.
Proof.
  cbv zeta. split; [vm_compute; reflexivity|]. eexists _, _. repeat split; vm_compute; reflexivity.
Qed.
Print Assumptions C29_registered_fonts_refuted.

(** C30: in each standard family every style finds the exact variant if the
    family has it, the regular one otherwise, and any latin-1 text has a
    width in it. *)
Theorem C30_standard_fonts : forall load_ttf p fam modes b i,
  dget fam standard_fonts = Some modes ->
  exists mode f w, state_mode init_fonts fam b i = Ok mode /\
    get_font load_ttf (fam, mode) init_fonts p = Ok (f, init_fonts, p) /\
    f_kind f = FStd w /\
    (let want := if dmem (mode_of b i) modes then mode_of b i else lit "n" in
     mode = want /\ exists w', dget want modes = Some (f_base f, w') /\ w' = w) /\
    forall s, forallb (fun c => c <? 256) s = true -> exists n, std_text_width w s = Ok n.
Proof. exact standard_font_found. Qed.
Print Assumptions C30_standard_fonts.
(** C30, for whatever mode is asked for: the variant of that mode if the
    family has it, the regular one otherwise. *)
Theorem C30_any_mode : forall load_ttf p fam modes mode,
  dget fam standard_fonts = Some modes ->
  exists f w, get_font load_ttf (fam, mode) init_fonts p = Ok (f, init_fonts, p) /\ f_kind f = FStd w /\
    dget (if dmem mode modes then mode else lit "n") modes = Some (f_base f, w).
Proof. exact standard_any_mode. Qed.
Print Assumptions C30_any_mode.
(** The fourteen fonts every reader has (PDF 32000, 9.6.2.2), by family, bold
    and italic; the last two families have one font each. *)
Definition fourteen : list (string * (bool * bool) * string) :=
  [("Helvetica", (false, false), "Helvetica"); ("Helvetica", (true, false), "Helvetica-Bold");
   ("Helvetica", (false, true), "Helvetica-Oblique"); ("Helvetica", (true, true), "Helvetica-BoldOblique");
   ("Times", (false, false), "Times-Roman"); ("Times", (true, false), "Times-Bold");
   ("Times", (false, true), "Times-Italic"); ("Times", (true, true), "Times-BoldItalic");
   ("Courier", (false, false), "Courier"); ("Courier", (true, false), "Courier-Bold");
   ("Courier", (false, true), "Courier-Oblique"); ("Courier", (true, true), "Courier-BoldOblique");
   ("Symbol", (false, false), "Symbol"); ("Symbol", (true, false), "Symbol");
   ("Symbol", (false, true), "Symbol"); ("Symbol", (true, true), "Symbol");
   ("ZapfDingbats", (false, false), "ZapfDingbats"); ("ZapfDingbats", (true, false), "ZapfDingbats");
   ("ZapfDingbats", (false, true), "ZapfDingbats"); ("ZapfDingbats", (true, true), "ZapfDingbats")]%string.
(** C30: the font used for a family, bold and italic is the one of that name,
    and the width of a text is the sum of the widths of its characters. *)
Theorem C30_by_name : forall load_ttf p fam b i base, In (fam, (b, i), base) fourteen ->
  exists mode f w, state_mode init_fonts (lit fam) b i = Ok mode /\
    get_font load_ttf (lit fam, mode) init_fonts p = Ok (f, init_fonts, p) /\
    f_base f = lit base /\ f_kind f = FStd w /\ List.length w = 256%nat /\
    forall s, Forall (fun c => c < 256) s -> exists ws,
      Forall2 (fun c x => nth_error w (N.to_nat c) = Some x) s ws /\
      std_text_width w s = Ok (fold_right N.add 0 ws).
Proof.
  intros load_ttf p fam b i base H.
  assert (Hw : forall w, List.length w = 256%nat -> forall s, Forall (fun c => c < 256) s -> exists ws,
      Forall2 (fun c x => nth_error w (N.to_nat c) = Some x) s ws /\
      std_text_width w s = Ok (fold_right N.add 0 ws)).
  { intros w Hl. induction s as [|c s IH]; intros Hs; [now exists []|].
    inversion Hs as [|? ? H1 H2]; subst. destruct (IH H2) as (ws & I1 & I2).
    destruct (nth_error w (N.to_nat c)) as [x|] eqn:E.
    - exists (x :: ws). split; [now constructor|]. cbn [std_text_width]. unfold std_char_width.
      rewrite E. cbn [bind]. now rewrite I2.
    - apply nth_error_None in E. lia. }
  repeat (destruct H as [[= <- <- <- <-]|H];
    [do 3 eexists; split; [reflexivity|]; split; [reflexivity|]; split; [reflexivity|];
     split; [reflexivity|]; split; [reflexivity|]; apply Hw; reflexivity|]).
  destruct H.
Qed.
Print Assumptions C30_by_name.
Example C30_by_name_nonvacuous : In ("Times"%string, (true, true), "Times-BoldItalic"%string) fourteen.
Proof. cbn. tauto. Qed.
Example C30_nonvacuous :
  map fst standard_fonts = map lit ["Helvetica"; "Times"; "Courier"; "Symbol"; "ZapfDingbats"]%string /\
  exists modes, dget (lit "Symbol") standard_fonts = Some modes /\ dmem (lit "bi") modes = false.
Proof. split; [reflexivity|]. eexists. split; reflexivity. Qed.
