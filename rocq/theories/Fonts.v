(** Model of pdfme/fonts.py: the fonts of a document (15-36, 155-191,
    409-463), the width array and the ToUnicode map of an embedded font
    (38-71, 382-407), the encoding of text (379-380, utils.py 421-441,
    text.py 919-934). *)
From Verif Require Import Py PyStr PdfSyntax Parser StreamProofs FontTables Store.
From Coq Require Import String QArith.
Open Scope N_scope.
Open Scope list_scope.

(** ** Fonts *)

(** What [fontTools] delivers for a font file: the base name, the map from
    code points to glyph ids (the composition of the cmap table and
    [getGlyphID], in the order of the cmap), the advance width of each glyph
    and the units per em. *)
Record ttf := mkTtf { tt_base : str; tt_cmap : list (N * N); tt_adv : N -> Z; tt_upem : positive }.
Inductive fkind := FStd (widths : list N) | FTT (t : ttf).
Record font := mkFont { f_ref : str; f_base : str; f_kind : fkind }.

(** fonts.py 15-36. *)
Definition standard_fonts : list (str * list (str * (str * list N))) :=
  [(lit "Helvetica",
     [(lit "n", (lit "Helvetica", helvetica_widths)); (lit "b", (lit "Helvetica-Bold", helveticaB_widths));
      (lit "i", (lit "Helvetica-Oblique", helvetica_widths));
      (lit "bi", (lit "Helvetica-BoldOblique", helveticaB_widths))]);
   (lit "Times",
     [(lit "n", (lit "Times-Roman", times_widths)); (lit "b", (lit "Times-Bold", timesB_widths));
      (lit "i", (lit "Times-Italic", timesI_widths)); (lit "bi", (lit "Times-BoldItalic", timesBI_widths))]);
   (lit "Courier",
     [(lit "n", (lit "Courier", courier_widths)); (lit "b", (lit "Courier-Bold", courier_widths));
      (lit "i", (lit "Courier-Oblique", courier_widths));
      (lit "bi", (lit "Courier-BoldOblique", courier_widths))]);
   (lit "Symbol", [(lit "n", (lit "Symbol", symbol_widths))]);
   (lit "ZapfDingbats", [(lit "n", (lit "ZapfDingbats", zapfdingbats_widths))])].

Definition families := list (str * list (str * font)).
Record fonts_st := mkFonts { fs_fonts : families; fs_index : N }.
Definition font_ref (i : N) : str := lit "F" ++ dec i.

(** fonts.py 412-422 [PDFFonts.__init__]. *)
Definition init_family (i : N) (modes : list (str * (str * list N))) : list (str * font) * N :=
  fold_left (fun '(acc, i) '(mode, (base, w)) => (dset mode (mkFont (font_ref i) base (FStd w)) acc, i + 1))
    modes ([], i).
Definition init_fonts : fonts_st :=
  let '(fs, i) := fold_left (fun '(acc, i) '(fam, modes) =>
      let '(m, i') := init_family i modes in (dset fam m acc, i')) standard_fonts ([], 1) in
  mkFonts fs i.

(** The class attributes [registered_fonts] and [loaded_fonts] (fonts.py
    83-84), shared by every document of the process. *)
Definition fkey := (str * str)%type.
Definition fkey_eqb (a b : fkey) : bool := str_eqb (fst a) (fst b) && str_eqb (snd a) (snd b).
Fixpoint kget {V} (k : fkey) (d : list (fkey * V)) : option V :=
  match d with [] => None | (k', v) :: r => if fkey_eqb k k' then Some v else kget k r end.
Fixpoint kset {V} (k : fkey) (v : V) (d : list (fkey * V)) : list (fkey * V) :=
  match d with
  | [] => [(k, v)]
  | (k', v') :: r => if fkey_eqb k k' then (k', v) :: r else (k', v') :: kset k v r
  end.
Record process := mkProc { registered : list (fkey * str); loaded : list fkey }.
(** fonts.py 100-111 [PDFFont.register]. *)
Definition register (k : fkey) (path : str) (p : process) : process :=
  mkProc (kset k path (registered p)) (loaded p).

Section Loader.
(** The font file loader ([fontTools] and the file system). *)
Variable load_ttf : str -> res ttf.

(** fonts.py 449-463 [PDFFonts.load_font]. *)
Definition load_font (path : str) (k : fkey) (fs : fonts_st) : res fonts_st :=
  do t <- load_ttf path;
  let f := mkFont (font_ref (fs_index fs)) (tt_base t) (FTT t) in
  let fam := match dget (fst k) (fs_fonts fs) with Some m => m | None => [(lit "n", f)] end in
  Ok (mkFonts (dset (fst k) (dset (snd k) f fam) (fs_fonts fs)) (fs_index fs + 1)).

Definition is_standard (fam : str) : bool := dmem fam standard_fonts.

(** fonts.py 446-447. *)
Definition pick (k : fkey) (fs : fonts_st) : res font :=
  match dget (fst k) (fs_fonts fs) with
  | None => Err KeyError
  | Some m => match dget (snd k) m with
              | Some f => Ok f
              | None => match dget (lit "n") m with Some f => Ok f | None => Err KeyError end
              end
  end.

(** fonts.py 424-447 [PDFFonts.get_font]: the font and the changed document
    and process states. *)
Definition get_font (k : fkey) (fs : fonts_st) (p : process) : res (font * fonts_st * process) :=
  if is_standard (fst k) then do f <- pick k fs; Ok (f, fs, p)
  else
    match kget k (registered p) with
    | None => Err ValueError
    | Some path =>
        if existsb (fkey_eqb k) (loaded p) then do f <- pick k fs; Ok (f, fs, p)
        else
          do fs' <- load_font path k fs;
          do f <- pick k fs';
          Ok (f, fs', mkProc (registered p) (loaded p ++ [k]))
    end.
End Loader.

(** text.py 23-36: the mode of a style in a family. *)
Definition mode_of (b i : bool) : str :=
  match b, i with
  | true, true => lit "bi" | true, false => lit "b" | false, true => lit "i" | false, false => lit "n"
  end.
Definition state_mode (fs : fonts_st) (fam : str) (b i : bool) : res str :=
  if is_standard fam then
    match dget fam (fs_fonts fs) with
    | None => Err KeyError
    | Some m => Ok (if dmem (mode_of b i) m then mode_of b i else lit "n")
    end
  else Ok (mode_of b i).

(** fonts.py 168-174: widths of a standard font in thousandths. *)
Definition std_char_width (w : list N) (c : N) : res N :=
  match nth_error w (N.to_nat c) with Some x => Ok x | None => Err KeyError end.
Fixpoint std_text_width (w : list N) (s : str) : res N :=
  match s with
  | [] => Ok 0
  | c :: r => do x <- std_char_width w c; do y <- std_text_width w r; Ok (x + y)
  end.

(** ** C30 *)

Lemma tables_full : forall fam modes mode base w,
  dget fam standard_fonts = Some modes -> dget mode modes = Some (base, w) -> List.length w = 256%nat.
Proof.
  assert (H : forallb (fun fm => forallb (fun m => (List.length (snd (snd m)) =? 256)%nat) (snd fm))
                standard_fonts = true) by (vm_compute; reflexivity).
  intros fam modes mode base w H1 H2. apply dget_in in H1. apply dget_in in H2.
  rewrite forallb_forall in H. specialize (H _ H1). cbn [snd] in H. rewrite forallb_forall in H.
  specialize (H _ H2). cbn [snd] in H. lia.
Qed.

Lemma std_width_ok w s : List.length w = 256%nat -> forallb (fun c => c <? 256) s = true ->
  exists n, std_text_width w s = Ok n.
Proof.
  intros Hw. induction s as [|c s IH]; cbn [forallb std_text_width]; intros H; [eauto|].
  apply andb_true_iff in H as [H1 H2]. destruct (IH H2) as [n ->].
  unfold std_char_width. destruct (nth_error w (N.to_nat c)) eqn:E; cbn; [eauto|].
  apply nth_error_None in E. lia.
Qed.

Definition std_font (i : N) (base : string) (w : list N) : font := mkFont (font_ref i) (lit base) (FStd w).
Lemma init_fonts_table : fs_fonts init_fonts =
  [(lit "Helvetica",
     [(lit "n", std_font 1 "Helvetica" helvetica_widths); (lit "b", std_font 2 "Helvetica-Bold" helveticaB_widths);
      (lit "i", std_font 3 "Helvetica-Oblique" helvetica_widths);
      (lit "bi", std_font 4 "Helvetica-BoldOblique" helveticaB_widths)]);
   (lit "Times",
     [(lit "n", std_font 5 "Times-Roman" times_widths); (lit "b", std_font 6 "Times-Bold" timesB_widths);
      (lit "i", std_font 7 "Times-Italic" timesI_widths); (lit "bi", std_font 8 "Times-BoldItalic" timesBI_widths)]);
   (lit "Courier",
     [(lit "n", std_font 9 "Courier" courier_widths); (lit "b", std_font 10 "Courier-Bold" courier_widths);
      (lit "i", std_font 11 "Courier-Oblique" courier_widths);
      (lit "bi", std_font 12 "Courier-BoldOblique" courier_widths)]);
   (lit "Symbol", [(lit "n", std_font 13 "Symbol" symbol_widths)]);
   (lit "ZapfDingbats", [(lit "n", std_font 14 "ZapfDingbats" zapfdingbats_widths)])].
Proof. reflexivity. Qed.

(** The initial fonts hold, for every standard family and mode, the font of
    the table. *)
Lemma init_fonts_ok : forall fam modes,
  dget fam standard_fonts = Some modes ->
  exists m, dget fam (fs_fonts init_fonts) = Some m /\ keys m = keys modes /\
    forall mode base w, dget mode modes = Some (base, w) ->
      exists f, dget mode m = Some f /\ f_base f = base /\ f_kind f = FStd w.
Proof.
  intros fam modes H. apply dget_in in H.
  assert (Hall : Forall (fun fm => exists m, dget (fst fm) (fs_fonts init_fonts) = Some m /\
    keys m = keys (snd fm) /\
    forall mode base w, dget mode (snd fm) = Some (base, w) ->
      exists f, dget mode m = Some f /\ f_base f = base /\ f_kind f = FStd w) standard_fonts).
  { rewrite init_fonts_table. unfold standard_fonts at 1. repeat (apply Forall_cons); [..|apply Forall_nil];
      cbn [fst snd]; eexists; (split; [reflexivity|]); (split; [reflexivity|]);
      intros mode base w; cbn [dget];
      repeat match goal with |- context [str_eqb mode ?k] => destruct (str_eqb mode k) end;
      intros [= <- <-]; eexists; (split; [reflexivity|]); split; reflexivity. }
  rewrite Forall_forall in Hall. apply (Hall _ H).
Qed.

Lemma standard_any_mode load_ttf p : forall fam modes mode, dget fam standard_fonts = Some modes ->
  exists f w, get_font load_ttf (fam, mode) init_fonts p = Ok (f, init_fonts, p) /\ f_kind f = FStd w /\
    dget (if dmem mode modes then mode else lit "n") modes = Some (f_base f, w).
Proof.
  intros fam modes mode H. destruct (init_fonts_ok fam modes H) as (m & Hm & Hk & Hf).
  assert (Hn : exists base w, dget (lit "n") modes = Some (base, w)).
  { apply dget_in in H. assert (Hn : Forall (fun fm => exists base w, dget (lit "n") (snd fm) = Some (base, w)) standard_fonts).
    { unfold standard_fonts. repeat (apply Forall_cons); [..|apply Forall_nil]; cbn [snd]; eexists _, _; reflexivity. }
    rewrite Forall_forall in Hn. apply (Hn _ H). }
  destruct Hn as (base & w & Hn). unfold get_font, is_standard, dmem. cbn [fst]. rewrite H. unfold pick. cbn [fst snd]. rewrite Hm.
  destruct (dget mode modes) as [[b' w']|] eqn:E.
  - destruct (Hf _ _ _ E) as (f & -> & <- & Hkd). cbn [bind]. exists f, w'. rewrite E. auto.
  - assert (Em : dget mode m = None).
    { destruct (dget mode m) eqn:E1; [|reflexivity]. exfalso. apply dget_in in E1. apply (in_map fst) in E1. cbn [fst] in E1.
      fold (keys m) in E1. rewrite Hk in E1. revert E E1. clear. induction modes as [|[k v] r IH]; [intros _ []|].
      cbn [dget]. destruct (str_eqb mode k) eqn:Ek; [discriminate|]. intros E [Hin|Hin]; [|exact (IH E Hin)].
      cbn in Hin. subst k. now rewrite str_eqb_refl in Ek. }
    rewrite Em. destruct (Hf _ _ _ Hn) as (f & -> & <- & Hkd). cbn [bind]. exists f, w. auto.
Qed.

(** The styles a text can ask for: bold, italics. *)
Theorem standard_font_found load_ttf p : forall fam modes b i,
  dget fam standard_fonts = Some modes ->
  exists mode f w, state_mode init_fonts fam b i = Ok mode /\
    get_font load_ttf (fam, mode) init_fonts p = Ok (f, init_fonts, p) /\
    f_kind f = FStd w /\
    (let want := if dmem (mode_of b i) modes then mode_of b i else lit "n" in
     mode = want /\ exists w', dget want modes = Some (f_base f, w') /\ w' = w) /\
    forall s, forallb (fun c => c <? 256) s = true -> exists n, std_text_width w s = Ok n.
Proof.
  intros fam modes b i H. destruct (init_fonts_ok fam modes H) as (m & Hm & Hk & Hf).
  set (want := if dmem (mode_of b i) modes then mode_of b i else lit "n").
  assert (Hw : exists base w, dget want modes = Some (base, w)).
  { unfold want, dmem. destruct (dget (mode_of b i) modes) as [[base w]|] eqn:E; [eauto|].
    apply dget_in in H. assert (Hn : Forall (fun fm => exists base w, dget (lit "n") (snd fm) = Some (base, w)) standard_fonts).
    { unfold standard_fonts. repeat (apply Forall_cons); [..|apply Forall_nil]; cbn [snd]; eexists _, _; reflexivity. }
    rewrite Forall_forall in Hn. apply (Hn _ H). }
  destruct Hw as (base & w & Hw). destruct (Hf _ _ _ Hw) as (f & Hfm & Hb & Hkd).
  assert (Hmode : state_mode init_fonts fam b i = Ok want).
  { unfold state_mode, is_standard, dmem. rewrite H, Hm. unfold want.
    assert (Hd : dmem (mode_of b i) m = dmem (mode_of b i) modes).
    { unfold dmem. destruct (dget (mode_of b i) m) eqn:E1, (dget (mode_of b i) modes) as [[? ?]|] eqn:E2; auto.
      - apply dget_in in E1. assert (Hin : In (mode_of b i) (keys modes)).
        { rewrite <- Hk. apply (in_map fst) in E1. exact E1. }
        exfalso. revert E2. clear - Hin. induction modes as [|[k v] r IH]; [destruct Hin|].
        cbn [dget]. destruct (str_eqb (mode_of b i) k) eqn:E; [discriminate|].
        apply IH. destruct Hin as [Hin|Hin]; [|exact Hin]. cbn in Hin. subst k. now rewrite str_eqb_refl in E.
      - destruct (Hf _ _ _ E2) as (f' & E3 & _). congruence. }
    unfold dmem in Hd |- *. rewrite Hd. reflexivity. }
  exists want, f, w. split; [exact Hmode|]. split; [|split; [exact Hkd|split]].
  - unfold get_font, is_standard, dmem. cbn [fst]. rewrite H. unfold pick. cbn [fst snd].
    rewrite Hm, Hfm. reflexivity.
  - split; [reflexivity|]. exists w. rewrite Hb. auto.
  - intros s Hs. apply std_width_ok; [|exact Hs]. eapply tables_full; eassumption.
Qed.

(** ** Escaping and literal strings (utils.py 432-441, text.py 930-933) *)

Definition escape_string (s : str) : str :=
  replace1 41 (lit "\)") (replace1 40 (lit "\(") (replace1 92 (lit "\\") s)).

Definition esc1 (c : N) : str := if existsb (N.eqb c) [40; 41; 92] then [92; c] else [c].
Lemma escape_flat s : escape_string s = flat_map esc1 s.
Proof.
  unfold escape_string. induction s as [|c s IH]; [reflexivity|].
  cbn [replace1 flat_map]. rewrite <- IH. unfold esc1. cbn [existsb].
  destruct (N.eqb_spec c 92) as [->|H1]; [reflexivity|].
  cbn [replace1]. destruct (N.eqb_spec c 40) as [->|H2]; [reflexivity|].
  cbn [replace1]. destruct (N.eqb_spec c 41) as [->|H3]; [reflexivity|].
  cbn [replace1 orb app]. destruct (N.eqb_spec c 41) as [->|H4]; [congruence|]. reflexivity.
Qed.

(** A literal string written by escaping reads back, if it has no CR. *)
Lemma read_lit_escape s : forall r, forallb (fun c => negb (c =? 13)) s = true ->
  read_lit 0 (escape_string s ++ 41 :: r) = Some (s, r).
Proof.
  intros r. rewrite escape_flat. induction s as [|c s IH]; cbn [forallb flat_map app]; intros H.
  - reflexivity.
  - apply andb_true_iff in H as [H1 H2]. specialize (IH H2). rewrite <- app_assoc.
    set (rest := flat_map esc1 s ++ 41 :: r) in *. clearbody rest.
    unfold esc1. cbn [existsb].
    destruct (N.eqb_spec c 40) as [->|E1]; [cbn; now rewrite IH|].
    destruct (N.eqb_spec c 41) as [->|E2]; [cbn; now rewrite IH|].
    destruct (N.eqb_spec c 92) as [->|E3]; [cbn; now rewrite IH|].
    cbn [orb app read_lit]. replace (c =? 40) with false by lia. replace (c =? 41) with false by lia.
    replace (c =? 13) with false by lia. replace (c =? 92) with false by lia. now rewrite IH.
Qed.

(** text.py 919-934 [clean_words]. *)
Definition clean_words (words : list str) : str :=
  let text := List.concat words in
  match text with [] => text | _ => escape_string text end.
Lemma clean_words_escape words : clean_words words = escape_string (List.concat words).
Proof. unfold clean_words. destruct (List.concat words); reflexivity. Qed.

(** ** Text in an embedded font (fonts.py 379-380) *)

Fixpoint nget {V} (k : N) (d : list (N * V)) : option V :=
  match d with [] => None | (k', v) :: r => if k =? k' then Some v else nget k r end.

(** [chr(g).encode('UTF-16-BE')] for a code below 65536. *)
Definition utf16_bmp (g : N) : res bytes :=
  if (55296 <=? g) && (g <=? 57343) then Err UnicodeEncodeError else Ok [g / 256; g mod 256].
Fixpoint encode_text (cmap : list (N * N)) (s : str) : res str :=
  match s with
  | [] => Ok []
  | c :: r =>
      match nget c cmap with
      | None => Err KeyError
      | Some g => do b <- utf16_bmp g; do e <- encode_text cmap r; Ok (escape_string b ++ e)
      end
  end.

(** The operand of Tj: a standard font shows the escaped text, an embedded
    font the encoding of the already escaped text (text.py 959-978). *)
Definition tj_operand (k : fkind) (words : list str) : res str :=
  match k with
  | FStd _ => Ok (clean_words words)
  | FTT t => encode_text (tt_cmap t) (clean_words words)
  end.

Definition glyphs_of (cmap : list (N * N)) (s : str) : option (list N) :=
  fold_right (fun c acc => match nget c cmap, acc with Some g, Some l => Some (g :: l) | _, _ => None end) (Some []) s.
Definition two_bytes (g : N) : bytes := [g / 256; g mod 256].
(** A glyph id that the code can write: two bytes, no surrogate, no CR byte. *)
Definition good_gid (g : N) : bool :=
  (g <? 65536) && negb ((55296 <=? g) && (g <=? 57343)) && negb (g / 256 =? 13) && negb (g mod 256 =? 13).

Lemma escape_app a b : escape_string (a ++ b) = escape_string a ++ escape_string b.
Proof. rewrite !escape_flat. apply flat_map_app. Qed.
Lemma escape_id s : forallb (fun c => negb (existsb (N.eqb c) [40; 41; 92])) s = true -> escape_string s = s.
Proof.
  rewrite escape_flat. induction s as [|c s IH]; cbn [forallb flat_map]; intros H; [reflexivity|].
  apply andb_true_iff in H as [H1 H2]. rewrite (IH H2). unfold esc1.
  destruct (existsb _ _); [discriminate|reflexivity].
Qed.

Lemma encode_text_ok cmap s : forall gs, glyphs_of cmap s = Some gs -> forallb good_gid gs = true ->
  encode_text cmap s = Ok (escape_string (flat_map two_bytes gs)) /\
  forallb (fun c => negb (c =? 13)) (flat_map two_bytes gs) = true.
Proof.
  induction s as [|c s IH]; intros gs H Hg; cbn [glyphs_of fold_right] in H.
  - injection H as <-. split; reflexivity.
  - fold (glyphs_of cmap s) in H. destruct (nget c cmap) as [g|] eqn:E; [|discriminate].
    destruct (glyphs_of cmap s) as [l|]; [|discriminate]. injection H as <-.
    cbn [forallb] in Hg. apply andb_true_iff in Hg as [H1 H2].
    destruct (IH l eq_refl H2) as [I1 I2]. cbn [encode_text]. rewrite E.
    unfold good_gid in H1. unfold utf16_bmp.
    replace ((55296 <=? g) && (g <=? 57343)) with false by lia. cbn [bind]. rewrite I1. cbn [bind].
    cbn [flat_map]. rewrite escape_app. split; [reflexivity|].
    unfold two_bytes at 1. cbn [app forallb]. rewrite I2. lia.
Qed.

(** C26, for text without parentheses and backslashes. *)
Theorem embedded_text_reads cmap words gs r :
  forallb (fun c => negb (existsb (N.eqb c) [40; 41; 92])) (List.concat words) = true ->
  glyphs_of cmap (List.concat words) = Some gs -> forallb good_gid gs = true ->
  exists op, encode_text cmap (clean_words words) = Ok op /\
    read_lit 0 (op ++ 41 :: r) = Some (flat_map two_bytes gs, r).
Proof.
  intros Hp Hg Hgood. rewrite clean_words_escape, escape_id by exact Hp.
  destruct (encode_text_ok cmap _ gs Hg Hgood) as [E1 E2].
  eexists. split; [exact E1|]. now apply read_lit_escape.
Qed.

(** ** The width array (fonts.py 382-407) *)

Inductive witem := WStart (gid : N) | WGroup (ws : list Q).

(** The loop; [out] is [widths], [cur] is [current_width_group], [prev] is
    [prev_glyph_id]. *)
Fixpoint widths_loop (width : N -> Q) (out : list witem) (cur : list Q) (prev : Z) (gids : list N)
  : list witem :=
  match gids with
  | [] => out ++ [WGroup cur]
  | g :: r =>
      match out with
      | [] => widths_loop width (out ++ [WStart g]) (cur ++ [width g]) (Z.of_N g) r
      | _ =>
          if (Z.of_N g - prev =? 1)%Z then widths_loop width out (cur ++ [width g]) prev r
          else widths_loop width (out ++ [WGroup cur; WStart g]) ([] ++ [width g]) (Z.of_N g) r
      end
  end.
(** [glyph_set[..].width * scale], scale = 1000 / units per em. *)
Definition scaled (t : ttf) (g : N) : Q := (inject_Z (tt_adv t g) * (1000 # tt_upem t))%Q.
Definition compute_char_widths (t : ttf) : list witem :=
  widths_loop (scaled t) [] [] 0 (map snd (tt_cmap t)).

(** Reading a W array (PDF 32000, 9.7.4.3): "c [w1 .. wn]" gives the width
    w_k to glyph c + k - 1. *)
Fixpoint number_from (g : N) (ws : list Q) : list (N * Q) :=
  match ws with [] => [] | w :: r => (g, w) :: number_from (g + 1) r end.
Fixpoint read_w (l : list witem) : list (N * Q) :=
  match l with
  | WStart g :: WGroup ws :: r => number_from g ws ++ read_w r
  | _ => []
  end.

Lemma number_from_app g a b : number_from g (a ++ b) = number_from g a ++ number_from (g + N.of_nat (List.length a)) b.
Proof.
  revert g. induction a as [|x a IH]; intros g; cbn [app number_from List.length].
  - cbn. now rewrite N.add_0_r.
  - rewrite IH. cbn [app]. do 3 f_equal. lia.
Qed.

(** No two neighbours in the character map share a glyph. *)
Fixpoint no_twins (gids : list N) : bool :=
  match gids with
  | g :: (h :: _) as r => negb (g =? h) && no_twins r
  | _ => true
  end.

Fixpoint closed_w (l : list witem) : Prop :=
  match l with
  | [] => True
  | WStart _ :: WGroup _ :: r => closed_w r
  | _ => False
  end.
Lemma read_w_app a : forall b, closed_w a -> read_w (a ++ b) = read_w a ++ read_w b.
Proof.
  induction a as [a IH] using (induction_ltof1 _ (@List.length _)). unfold ltof in IH.
  intros b Ha. destruct a as [|[g|ws] [|[g2|ws2] a]]; cbn [closed_w] in Ha; try contradiction; [reflexivity|].
  cbn [app read_w]. rewrite IH; [now rewrite app_assoc| |exact Ha]. cbn. lia.
Qed.
Lemma closed_app a b : closed_w a -> closed_w b -> closed_w (a ++ b).
Proof.
  revert b. induction a as [a IH] using (induction_ltof1 _ (@List.length _)). unfold ltof in IH.
  intros b Ha Hb. destruct a as [|[g|ws] [|[g2|ws2] a]]; cbn [closed_w] in Ha; try contradiction; [exact Hb|].
  cbn [app closed_w]. apply IH; [cbn; lia|exact Ha|exact Hb].
Qed.

Lemma widths_loop_ok width gids : forall pre g0 last,
  closed_w pre -> no_twins (last :: gids) = true ->
  forall cur, (cur = [width g0] /\ last = g0 \/ cur = [width g0; width (g0 + 1)] /\ last = g0 + 1) ->
  let out := widths_loop width (pre ++ [WStart g0]) cur (Z.of_N g0) gids in
  closed_w out /\
  read_w out = read_w pre ++ number_from g0 cur ++ map (fun g => (g, width g)) gids.
Proof.
  induction gids as [|g gids IH]; intros pre g0 last Hpre Htw cur Hcur; cbn [widths_loop].
  - assert (E : (pre ++ [WStart g0]) ++ [WGroup cur] = pre ++ [WStart g0; WGroup cur]) by now rewrite <- app_assoc.
    rewrite E. split; [apply closed_app; [exact Hpre|exact I]|].
    rewrite read_w_app by exact Hpre. reflexivity.
  - cbn [no_twins] in Htw. apply andb_true_iff in Htw as [T1 T2].
    destruct (pre ++ [WStart g0]) as [|o os] eqn:Eo; [destruct pre; discriminate|]. rewrite <- Eo.
    destruct (Z.of_N g - Z.of_N g0 =? 1)%Z eqn:E.
    + destruct Hcur as [[-> ->]|[-> ->]]; [|lia].
      replace g with (g0 + 1) in * by lia.
      specialize (IH pre g0 (g0 + 1) Hpre T2 [width g0; width (g0 + 1)] (or_intror (conj eq_refl eq_refl))).
      cbv zeta in IH. destruct IH as [I1 I2]. split; [exact I1|]. cbn [app] in I2 |- *. rewrite I2.
      cbn [number_from app map]. reflexivity.
    + assert (E2 : (pre ++ [WStart g0]) ++ [WGroup cur; WStart g] = (pre ++ [WStart g0; WGroup cur]) ++ [WStart g]).
      { rewrite <- !app_assoc. reflexivity. }
      rewrite E2. cbn [app].
      assert (Hpre' : closed_w (pre ++ [WStart g0; WGroup cur])) by (apply closed_app; [exact Hpre|exact I]).
      specialize (IH (pre ++ [WStart g0; WGroup cur]) g g Hpre' T2 [width g] (or_introl (conj eq_refl eq_refl))).
      cbv zeta in IH. destruct IH as [I1 I2]. split; [exact I1|]. rewrite I2, read_w_app by exact Hpre.
      cbn [read_w number_from app map]. rewrite app_nil_r, <- app_assoc. reflexivity.
Qed.

Theorem width_array_reads t : tt_cmap t <> [] -> no_twins (map snd (tt_cmap t)) = true ->
  read_w (compute_char_widths t) = map (fun cg => (snd cg, scaled t (snd cg))) (tt_cmap t).
Proof.
  intros Hne Htw. unfold compute_char_widths. destruct (tt_cmap t) as [|[c g] r]; [congruence|].
  cbn [map snd widths_loop app] in *.
  destruct (widths_loop_ok (scaled t) (map snd r) [] g g I Htw [scaled t g]) as [_ H]; [auto|].
  cbn [app] in H. rewrite H. cbn [read_w number_from app map]. now rewrite map_map.
Qed.

(** ** The ToUnicode map (fonts.py 38-71) *)

(** [hex(n)] without the 0x prefix, upper case and padded by the caller. *)
Definition hex_digit (d : N) : N := if d <? 10 then 48 + d else 55 + d.
Fixpoint hex_aux (fuel : nat) (n : N) (acc : str) : str :=
  match fuel with
  | O => acc
  | S f => let acc' := hex_digit (n mod 16) :: acc in if n <? 16 then acc' else hex_aux f (n / 16) acc'
  end.
Definition hex_upper (n : N) : str := hex_aux (S (N.size_nat n)) n [].
(** fonts.py 40-45 [cmap_hex_format]. *)
Definition cmap_hex_format (n : N) : str :=
  let h := hex_upper n in
  let h := if (List.length h =? 4)%nat then h else zfill 4 h in
  60 :: h ++ [62].
(** fonts.py 47-50. *)
Definition cmap_lines (m : list (N * N)) : list str :=
  map (fun cg => cmap_hex_format (snd cg) ++ [32] ++ cmap_hex_format (fst cg)) m.

(** One bfchar line "<code> <text>" (PDF 32000, 9.10.3): the code is two
    bytes and the text is UTF-16BE. *)
Fixpoint utf16_decode (b : bytes) : option str :=
  match b with
  | [] => Some []
  | h1 :: l1 :: r =>
      let u := 256 * h1 + l1 in
      if (55296 <=? u) && (u <? 56320) then
        match r with
        | h2 :: l2 :: r2 =>
            let v := 256 * h2 + l2 in
            if (56320 <=? v) && (v <? 57344) then
              match utf16_decode r2 with
              | Some s => Some (65536 + 1024 * (u - 55296) + (v - 56320) :: s)
              | None => None
              end
            else None
        | _ => None
        end
      else if (56320 <=? u) && (u <? 57344) then None
      else match utf16_decode r with Some s => Some (u :: s) | None => None end
  | _ => None
  end.
Definition read_bfchar (l : str) : option (N * str) :=
  match l with
  | 60 :: l1 =>
      match read_hex None l1 with
      | Some ([h; k], 32 :: 60 :: l2) =>
          match read_hex None l2 with
          | Some (b, []) => match utf16_decode b with Some s => Some (256 * h + k, s) | None => None end
          | _ => None
          end
      | _ => None
      end
  | _ => None
  end.

Lemma hex_digit_val d : d < 16 -> hex_val (hex_digit d) = Some d /\ is_white (hex_digit d) = false /\ hex_digit d <> 62.
Proof.
  intros H.
  assert (Hall : forallb (fun d => match hex_val (hex_digit d) with Some v => v =? d | None => false end &&
     negb (is_white (hex_digit d)) && negb (hex_digit d =? 62)) [0;1;2;3;4;5;6;7;8;9;10;11;12;13;14;15] = true)
    by reflexivity.
  rewrite forallb_forall in Hall. assert (Hin : In d [0;1;2;3;4;5;6;7;8;9;10;11;12;13;14;15]) by (cbn; lia).
  specialize (Hall d Hin). destruct (hex_val (hex_digit d)) as [v|]; [|discriminate].
  split; [f_equal; lia|]. split; [destruct (is_white _); [cbn in Hall; lia|reflexivity]|lia].
Qed.

(** Four digits of a number below 65536. *)
Definition hex4 (n : N) : str :=
  [hex_digit (n / 4096); hex_digit (n / 256 mod 16); hex_digit (n / 16 mod 16); hex_digit (n mod 16)].
Lemma hex_aux_step f n acc : hex_aux (S f) n acc =
  (let acc' := hex_digit (n mod 16) :: acc in if n <? 16 then acc' else hex_aux f (n / 16) acc').
Proof. reflexivity. Qed.

Lemma size_nat_lower n k : 2 ^ N.of_nat k <= n -> (S k <= N.size_nat n)%nat.
Proof.
  intros H. assert (Hb := size_nat_bound n).
  assert (2 ^ N.of_nat k < 2 ^ N.of_nat (N.size_nat n)) by lia.
  apply N.pow_lt_mono_r_iff in H0; lia.
Qed.

Lemma cmap_hex_four n : n < 65536 -> cmap_hex_format n = 60 :: hex4 n ++ [62].
Proof.
  intros H. unfold cmap_hex_format, hex_upper.
  assert (Hgen : forall f, (N.size_nat n <= f)%nat ->
    (if (List.length (hex_aux (S f) n []) =? 4)%nat then hex_aux (S f) n [] else zfill 4 (hex_aux (S f) n [])) = hex4 n).
  { intros f Hf. unfold hex4. rewrite hex_aux_step. cbv zeta.
    destruct (N.ltb_spec n 16) as [L1|L1].
    { cbn [List.length Nat.eqb]. rewrite (N.div_small n 4096), (N.div_small n 256), (N.div_small n 16) by lia.
      reflexivity. }
    assert (S1 := size_nat_lower n 4 ltac:(change (2 ^ N.of_nat 4) with 16; lia)).
    destruct f as [|f]; [lia|]. rewrite hex_aux_step. cbv zeta.
    destruct (N.ltb_spec (n / 16) 16) as [L2|L2].
    { assert (n < 256) by (pose proof (N.div_mod n 16 ltac:(lia)); pose proof (N.mod_lt n 16 ltac:(lia)); lia).
      cbn [List.length Nat.eqb]. rewrite (N.div_small n 4096), (N.div_small n 256) by lia.
      rewrite (N.mod_small (n / 16)) by exact L2. reflexivity. }
    destruct f as [|f]; [lia|]. rewrite hex_aux_step. cbv zeta.
    rewrite (N.div_div n 16 16) by lia. change (16 * 16) with 256.
    destruct (N.ltb_spec (n / 256) 16) as [L3|L3].
    { assert (n < 4096) by (pose proof (N.div_mod n 256 ltac:(lia)); pose proof (N.mod_lt n 256 ltac:(lia)); lia).
      cbn [List.length Nat.eqb]. rewrite (N.div_small n 4096) by lia.
      rewrite (N.mod_small (n / 256)) by exact L3. reflexivity. }
    destruct f as [|f]; [lia|]. rewrite hex_aux_step. cbv zeta.
    rewrite (N.div_div n 256 16) by lia. change (256 * 16) with 4096.
    assert (L4 : n / 4096 < 16) by (apply N.div_lt_upper_bound; lia).
    destruct (N.ltb_spec (n / 4096) 16) as [_|]; [|lia].
    cbn [List.length Nat.eqb]. rewrite (N.mod_small (n / 4096)) by exact L4. reflexivity. }
  rewrite Hgen by lia. reflexivity.
Qed.

Lemma read_hex4 n r : n < 65536 -> read_hex None (hex4 n ++ 62 :: r) = Some ([n / 256; n mod 256], r).
Proof.
  intros H.
  assert (L : n / 4096 < 16) by (apply N.div_lt_upper_bound; lia).
  assert (D : forall d, d < 16 -> (hex_digit d =? 62) = false /\ is_white (hex_digit d) = false /\ hex_val (hex_digit d) = Some d).
  { intros d Hd. destruct (hex_digit_val d Hd) as (H1 & H2 & H3). split; [lia|auto]. }
  assert (M : forall x, x mod 16 < 16) by (intros x; apply N.mod_lt; lia).
  unfold hex4. cbn [app read_hex].
  destruct (D _ L) as (A1 & A2 & A3). rewrite A1, A2, A3. cbn [read_hex].
  destruct (D _ (M (n / 256))) as (B1 & B2 & B3). rewrite B1, B2, B3.
  destruct (D _ (M (n / 16))) as (C1 & C2 & C3). rewrite C1, C2, C3.
  destruct (D _ (M n)) as (E1 & E2 & E3). rewrite E1, E2, E3.
  change (62 =? 62) with true. cbv iota. do 3 f_equal; [|f_equal].
  - replace (n / 4096) with (n / 256 / 16) by (rewrite N.div_div by lia; reflexivity).
    symmetry. apply N.div_mod. lia.
  - pose proof (N.mod_mul_r n 16 16 ltac:(lia) ltac:(lia)) as Hm. change (16 * 16) with 256 in Hm.
    rewrite Hm. lia.
Qed.

(** A character the map can carry: one UTF-16 unit. *)
Definition bmp (c : N) : bool := (c <? 65536) && negb ((55296 <=? c) && (c <? 57344)).

Theorem tounicode_reads m :
  (forall c g, In (c, g) m -> bmp c = true /\ g < 65536) ->
  map read_bfchar (cmap_lines m) = map (fun cg => Some (snd cg, [fst cg])) m.
Proof.
  intros H. unfold cmap_lines. rewrite map_map. apply map_ext_in. intros [c g] Hin. cbn [fst snd].
  destruct (H c g Hin) as [Hc Hg]. unfold bmp in Hc.
  rewrite !cmap_hex_four by lia. cbn [app read_bfchar].
  rewrite <- !app_assoc. cbn [app]. rewrite read_hex4 by lia. rewrite read_hex4 by lia.
  cbn [utf16_decode].
  assert (E : forall x, 256 * (x / 256) + x mod 256 = x) by (intros x; symmetry; apply N.div_mod; lia).
  rewrite !E. replace ((55296 <=? c) && (c <? 56320)) with false by lia.
  replace ((56320 <=? c) && (c <? 57344)) with false by lia. reflexivity.
Qed.

(** ** Fonts registered for the process (C29) *)

Lemma Forall2_weaken {A B} (P Q : A -> B -> Prop) l l' : (forall a b, P a b -> Q a b) ->
  Forall2 P l l' -> Forall2 Q l l'.
Proof. intros H. induction 1; constructor; auto. Qed.

Section Requests.
Variable load_ttf : str -> res ttf.

(** The fonts obtained by a sequence of requests in one document. *)
Fixpoint requests (ks : list fkey) (fs : fonts_st) (p : process) : res (list font * fonts_st * process) :=
  match ks with
  | [] => Ok ([], fs, p)
  | k :: r =>
      do (f, fs1, p1) <- get_font load_ttf k fs p;
      do (l, fs2, p2) <- requests r fs1 p1;
      Ok (f :: l, fs2, p2)
  end.

(** A sequence of documents, each with its requests. *)
Fixpoint documents (docs : list (list fkey)) (p : process) : res (list (list font)) :=
  match docs with
  | [] => Ok []
  | ks :: r =>
      do (l, _, p1) <- requests ks init_fonts p;
      do ls <- documents r p1;
      Ok (l :: ls)
  end.

Lemma fkey_eqb_eq a b : fkey_eqb a b = true <-> a = b.
Proof.
  destruct a as [a1 a2], b as [b1 b2]. unfold fkey_eqb. cbn [fst snd].
  rewrite andb_true_iff, !str_eqb_eq. split; [intros [-> ->]; reflexivity|intros [= -> ->]; auto].
Qed.
Lemma fkey_eqb_refl a : fkey_eqb a a = true.
Proof. now apply fkey_eqb_eq. Qed.

(** [k] has its own font, numbered below the index. *)
Definition own_font (fs : fonts_st) (k : fkey) (f : font) : Prop :=
  exists m, dget (fst k) (fs_fonts fs) = Some m /\ dget (snd k) m = Some f /\
    exists i, i < fs_index fs /\ f_ref f = font_ref i.

Lemma own_pick fs k f : own_font fs k f -> pick k fs = Ok f.
Proof. intros (m & H1 & H2 & _). unfold pick. now rewrite H1, H2. Qed.

Lemma load_font_own path k fs t : load_ttf path = Ok t ->
  exists fs', load_font load_ttf path k fs = Ok fs' /\
    own_font fs' k (mkFont (font_ref (fs_index fs)) (tt_base t) (FTT t)) /\
    fs_index fs' = fs_index fs + 1 /\
    forall k' f, k' <> k -> own_font fs k' f -> own_font fs' k' f.
Proof.
  intros Ht. unfold load_font. rewrite Ht. cbn [bind]. eexists. split; [reflexivity|].
  set (f := mkFont (font_ref (fs_index fs)) (tt_base t) (FTT t)).
  set (fam := match dget (fst k) (fs_fonts fs) with Some m => m | None => [(lit "n", f)] end).
  split; [|split; [reflexivity|]].
  - exists (dset (snd k) f fam). cbn [fs_fonts fs_index]. rewrite !dget_dset_same.
    split; [reflexivity|]. split; [reflexivity|]. exists (fs_index fs). split; [lia|reflexivity].
  - intros k' f' Hne (m & H1 & H2 & i & Hi & Hr). unfold own_font. cbn [fs_fonts fs_index].
    destruct (str_eq_dec (fst k') (fst k)) as [E|E].
    + rewrite E, dget_dset_same. eexists. split; [reflexivity|]. unfold fam. rewrite <- E, H1.
      rewrite dget_dset_other; [split; [exact H2|]; exists i; split; [lia|exact Hr]|].
      intros E2. apply Hne. destruct k, k'; cbn in *; congruence.
    + rewrite dget_dset_other by exact E. exists m. split; [exact H1|]. split; [exact H2|]. exists i. split; [lia|exact Hr].
Qed.

Lemma existsb_fkey k l : existsb (fkey_eqb k) l = true <-> In k l.
Proof.
  rewrite existsb_exists. split; [intros (x & H1 & H2); apply fkey_eqb_eq in H2; congruence|].
  intros H. exists k. split; [exact H|apply fkey_eqb_refl].
Qed.

(** Requests of registered fonts that no earlier document loaded. *)
Lemma requests_ok reg (paths : fkey -> str) (ttfs : fkey -> ttf) ks :
  (forall k, In k ks -> is_standard (fst k) = false /\ kget k reg = Some (paths k) /\
                        load_ttf (paths k) = Ok (ttfs k)) ->
  forall fs ld (own : fkey -> option font),
  (forall k, In k ks -> In k ld -> exists f, own k = Some f) ->
  (forall k f, own k = Some f -> In k ld /\ own_font fs k f /\ f_kind f = FTT (ttfs k)) ->
  (forall k k' f, own k = Some f -> own k' = Some f -> k = k') ->
  exists fonts fs' p', requests ks fs (mkProc reg ld) = Ok (fonts, fs', p') /\
    Forall2 (fun k f => f_kind f = FTT (ttfs k) /\ f_base f = tt_base (ttfs k) \/ own k = Some f) ks fonts /\
    (forall i j k f f', nth_error ks i = Some k -> nth_error ks j = Some k ->
       nth_error fonts i = Some f -> nth_error fonts j = Some f' -> f = f') /\
    (forall i k f f0, nth_error ks i = Some k -> nth_error fonts i = Some f -> own k = Some f0 -> f = f0).
Proof.
  induction ks as [|k ks IH]; intros Hk fs ld own Hown1 Hown2 Hown3.
  - exists [], fs, (mkProc reg ld). split; [reflexivity|]. split; [constructor|]. split.
    + intros [|i] j k f f' H; discriminate.
    + intros [|i] k f f' H; discriminate.
  - destruct (Hk k (or_introl eq_refl)) as (K1 & K2 & K3).
    assert (Hk' : forall k', In k' ks -> is_standard (fst k') = false /\ kget k' reg = Some (paths k') /\
                        load_ttf (paths k') = Ok (ttfs k')) by (intros k' H; apply Hk; now right).
    cbn [requests]. unfold get_font. rewrite K1. cbn [registered loaded]. rewrite K2.
    destruct (existsb (fkey_eqb k) ld) eqn:E.
    + apply existsb_fkey in E. destruct (Hown1 k (or_introl eq_refl) E) as [f Hf].
      destruct (Hown2 _ _ Hf) as (_ & Ho & Hkind). rewrite (own_pick _ _ _ Ho). cbn [bind].
      destruct (IH Hk' fs ld own) as (fonts & fs' & p' & E1 & E2 & E3 & E4).
      { intros k' H. apply Hown1. now right. } { exact Hown2. } { exact Hown3. }
      rewrite E1. cbn [bind]. exists (f :: fonts), fs', p'. split; [reflexivity|]. split; [|split].
      * constructor; [right; exact Hf|exact E2].
      * intros [|i] [|j] k0 f1 f2; cbn [nth_error].
        -- congruence.
        -- intros [= <-] H2 [= <-] H4. symmetry. eapply E4; eauto.
        -- intros H1 [= <-] H3 [= <-]. eapply E4; eauto.
        -- apply E3.
      * intros [|i] k0 f1 f2; cbn [nth_error]; [congruence|apply E4].
    + destruct (load_font_own (paths k) k fs (ttfs k) K3) as (fs1 & L1 & L2 & L3 & L4).
      rewrite L1. cbn [bind]. rewrite (own_pick _ _ _ L2). cbn [bind].
      set (f := mkFont (font_ref (fs_index fs)) (tt_base (ttfs k)) (FTT (ttfs k))) in *.
      set (own' := fun k' => if fkey_eqb k' k then Some f else own k').
      assert (Hnk : ~ In k ld) by (intros H; apply existsb_fkey in H; congruence).
      destruct (IH Hk' fs1 (ld ++ [k]) own') as (fonts & fs' & p' & E1 & E2 & E3 & E4).
      { intros k' H1 H2. unfold own'. destruct (fkey_eqb k' k) eqn:E'; [eauto|].
        apply in_app_or in H2 as [H2|[H2|[]]]; [apply Hown1; [now right|exact H2]|].
        subst k'. now rewrite fkey_eqb_refl in E'. }
      { intros k' f'. unfold own'. destruct (fkey_eqb k' k) eqn:E'.
        - apply fkey_eqb_eq in E'. subst k'. intros [= <-].
          split; [apply in_or_app; right; now left|]. split; [exact L2|reflexivity].
        - intros H. destruct (Hown2 _ _ H) as (O1 & O2 & O3).
          split; [apply in_or_app; now left|]. split; [|exact O3]. apply L4; [|exact O2].
          intros ->. now rewrite fkey_eqb_refl in E'. }
      { intros k1 k2 f'. unfold own'.
        assert (Hnew : forall k' , own k' = Some f -> False).
        { intros k' H. destruct (Hown2 _ _ H) as (_ & (m & _ & _ & i & Hi & Hr) & _).
          cbn [f f_ref] in Hr. unfold font_ref in Hr. apply app_inv_head in Hr. apply dec_inj in Hr. lia. }
        destruct (fkey_eqb k1 k) eqn:A1, (fkey_eqb k2 k) eqn:A2.
        - apply fkey_eqb_eq in A1, A2. congruence.
        - intros [= <-] H. destruct (Hnew _ H).
        - intros H [= <-]. destruct (Hnew _ H).
        - apply Hown3. }
      cbn [registered loaded]. lazymatch type of E1 with ?L = _ => match goal with |- context[requests ks fs1 ?q] => change (requests ks fs1 q) with L end end. rewrite E1. cbn [bind]. exists (f :: fonts), fs', p'.
      assert (Hfk : own' k = Some f) by (unfold own'; now rewrite fkey_eqb_refl).
      split; [reflexivity|]. split; [|split].
      * constructor; [left; split; reflexivity|]. eapply Forall2_weaken; [|exact E2].
        intros k' f' [H|H]; [left; exact H|]. unfold own' in H.
        destruct (fkey_eqb k' k) eqn:A; [|right; exact H]. apply fkey_eqb_eq in A. subst k'.
        injection H as <-. left. split; reflexivity.
      * intros [|i] [|j] k0 f1 f2; cbn [nth_error].
        -- congruence.
        -- intros [= <-] H2 [= <-] H4. symmetry. eapply E4; eauto.
        -- intros H1 [= <-] H3 [= <-]. eapply E4; eauto.
        -- apply E3.
      * intros [|i] k0 f1 f2; cbn [nth_error].
        -- intros [= <-] _ H. destruct (Hown2 _ _ H) as [H1 _]. contradiction.
        -- intros H1 H2 H3. eapply E4; [exact H1|exact H2|]. unfold own'.
           destruct (fkey_eqb k0 k) eqn:A; [|exact H3]. apply fkey_eqb_eq in A. subst k0.
           destruct (Hown2 _ _ H3) as [H4 _]. contradiction.
Qed.

Theorem first_document_fonts reg ld (paths : fkey -> str) (ttfs : fkey -> ttf) ks :
  (forall k, In k ks -> is_standard (fst k) = false /\ kget k reg = Some (paths k) /\
                        load_ttf (paths k) = Ok (ttfs k) /\ ~ In k ld) ->
  exists fonts fs' p', requests ks init_fonts (mkProc reg ld) = Ok (fonts, fs', p') /\
    Forall2 (fun k f => f_kind f = FTT (ttfs k)) ks fonts.
Proof.
  intros H. destruct (requests_ok reg paths ttfs ks) with (fs := init_fonts) (ld := ld) (own := fun _ : fkey => @None font)
    as (fonts & fs' & p' & E1 & E2 & _).
  - intros k Hk. destruct (H k Hk) as (A & B & C & _). auto.
  - intros k H1 H2. destruct (H k H1) as (_ & _ & _ & D). contradiction.
  - discriminate.
  - discriminate.
  - exists fonts, fs', p'. split; [exact E1|]. eapply Forall2_weaken; [|exact E2].
    intros k f [[A _]|A]; [exact A|discriminate].
Qed.
End Requests.
