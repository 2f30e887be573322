(** Theorems for C77: the characters of list texts, and the font whose glyphs
    are written for text in embedded fonts (C26). *)
From Coq Require Import String QArith Lia.
From Verif Require Import Py PyStr PdfSyntax Parser StreamProofs FontTables Store Fonts.
Open Scope N_scope.
Open Scope list_scope.

(** ** Model *)

(** The entries [f], [b] and [i] of a style: absent, or a family, or whether
    the value counts as true. *)
Record fstyle := mkFS { s_f : option str; s_b : option bool; s_i : option bool }.
Definition over {A} (a b : option A) : option A := match b with Some _ => b | None => a end.
(** [style.update(other)]. *)
Definition fs_update (a b : fstyle) : fstyle := mkFS (over (s_f a) (s_f b)) (over (s_b a) (s_b b)) (over (s_i a) (s_i b)).
Definition truthy (o : option bool) : bool := match o with Some b => b | None => false end.
Definition has {A} (o : option A) : bool := match o with Some _ => true | None => false end.

Section Fonts.
Variable load_ttf : str -> res ttf.

(** text.py 23-38 [PDFState]: the font that is selected with [Tf]. *)
Definition selected (y : fstyle) (fs : fonts_st) (p : process) : res (font * fonts_st * process) :=
  match s_f y with
  | None => Err KeyError
  | Some fam => do m <- state_mode fs fam (truthy (s_b y)) (truthy (s_i y)); get_font load_ttf (fam, m) fs p
  end.
(** text.py 854-862 and 963-970: the mode is taken from the presence of keys. *)
Definition key_mode (y : fstyle) : str := mode_of (has (s_b y)) (has (s_i y)).

(** text.py 764-804 [setup_list] and 842-873: the font selected for the list
    text and the operand of [Tj].  [first] is the style of the first part of
    the line, [ls] is [list_style]. *)
Definition list_operand (first ls : fstyle) (text : str) (fs : fonts_st) (p : process) : res (font * str) :=
  do (f, fs1, p1) <- selected (fs_update first ls) fs p;
  let fam := match s_f ls with Some (c :: r) => Some (c :: r) | _ => s_f first end in
  match fam with
  | Some a =>
      if is_standard a then Ok (f, text)
      else
        do (g, _, _) <- get_font load_ttf (a, key_mode ls) fs1 p1;
        match f_kind g with
        | FTT t => do op <- encode_text (tt_cmap t) text; Ok (f, op)
        | FStd _ => Err AttributeError
        end
  | None => Err ValueError
  end.
(** text.py 959-978 [output_text]: the same for the words of a part. *)
Definition part_operand (y : fstyle) (words : list str) (fs : fonts_st) (p : process) : res (font * str) :=
  do (f, fs1, p1) <- selected y fs p;
  match s_f y with
  | Some ((_ :: _) as a) =>
      if is_standard a then Ok (f, clean_words words)
      else
        do (g, _, _) <- get_font load_ttf (a, key_mode y) fs1 p1;
        match f_kind g with
        | FTT t => do op <- encode_text (tt_cmap t) (clean_words words); Ok (f, op)
        | FStd _ => Err AttributeError
        end
  | _ => Ok (f, clean_words words)
  end.

(** ** Specification *)

(** The codes that show a text in a font: one byte for each character in a
    standard font, two bytes for each glyph in an embedded one. *)
Fixpoint glyph_codes (cmap : list (N * N)) (s : str) : option bytes :=
  match s with
  | [] => Some []
  | c :: r => match find (fun e => fst e =? c) cmap, glyph_codes cmap r with
              | Some (_, g), Some l => Some (g / 256 :: g mod 256 :: l)
              | _, _ => None
              end
  end.
Definition codes (f : font) (s : str) : option bytes :=
  match f_kind f with FStd _ => Some s | FTT t => glyph_codes (tt_cmap t) s end.
(** The operand, read as a literal string, is the codes of the text. *)
Definition shows_text (f : font) (op : str) (s : str) : Prop := forall rest,
  exists l, codes f s = Some l /\ read_lit 0 (op ++ 41 :: rest) = Some (l, rest).

(** Parentheses match, and there are no backslashes and line ends. *)
Fixpoint plain_from (depth : nat) (s : str) : bool :=
  match s with
  | [] => (depth =? 0)%nat
  | c :: r =>
      if c =? 40 then plain_from (S depth) r
      else if c =? 41 then match depth with O => false | S d => plain_from d r end
      else negb (c =? 92) && negb (c =? 13) && plain_from depth r
  end.
(** No glyph of the text is numbered like a surrogate or has a byte 13. *)
Definition writable (cmap : list (N * N)) (s : str) : Prop := forall c g, In c s -> In (c, g) cmap ->
  g < 65536 /\ ~ (55296 <= g <= 57343) /\ g / 256 <> 13 /\ g mod 256 <> 13.

Lemma plain_reads s : forall d rest, plain_from d s = true -> read_lit d (s ++ 41 :: rest) = Some (s, rest).
Proof.
  induction s as [|c s IH]; intros d rest H; cbn [plain_from] in H.
  - apply Nat.eqb_eq in H. subst d. reflexivity.
  - cbn [app read_lit]. destruct (N.eqb_spec c 40) as [->|E1]; [now rewrite (IH _ _ H)|].
    destruct (N.eqb_spec c 41) as [->|E2].
    + destruct d as [|d]; [discriminate|]. now rewrite (IH _ _ H).
    + apply andb_true_iff in H as [H1 H2]. apply andb_true_iff in H1 as [H0 H1].
      apply negb_true_iff in H0, H1. rewrite H0, H1. now rewrite (IH _ _ H2).
Qed.

Lemma nget_find (k : N) (m : list (N * N)) : nget k m = match find (fun e => fst e =? k) m with Some (_, g) => Some g | None => None end.
Proof.
  induction m as [|[k' v] m IH]; [reflexivity|]. cbn [nget find fst]. rewrite (N.eqb_sym k' k). destruct (k =? k'); [reflexivity|exact IH].
Qed.
Lemma glyph_codes_of cmap s : glyph_codes cmap s = match glyphs_of cmap s with Some gs => Some (flat_map two_bytes gs) | None => None end.
Proof.
  induction s as [|c s IH]; [reflexivity|]. cbn [glyph_codes glyphs_of fold_right]. fold (glyphs_of cmap s). rewrite IH, nget_find.
  destruct (find _ cmap) as [[? g]|]; [|reflexivity]. destruct (glyphs_of cmap s); reflexivity.
Qed.
Lemma glyphs_good cmap s : writable cmap s -> forall gs, glyphs_of cmap s = Some gs -> forallb good_gid gs = true.
Proof.
  induction s as [|c s IH]; intros W gs H; cbn [glyphs_of fold_right] in H; [injection H as <-; reflexivity|].
  fold (glyphs_of cmap s) in H. destruct (nget c cmap) as [g|] eqn:E; [|discriminate]. destruct (glyphs_of cmap s) as [l|] eqn:El; [|discriminate].
  injection H as <-. cbn [forallb].
  rewrite (IH (fun c0 g0 Hc => W c0 g0 (or_intror Hc)) l eq_refl), andb_true_r.
  rewrite nget_find in E. destruct (find _ cmap) as [[c' g']|] eqn:Ef; [|discriminate]. injection E as <-.
  apply find_some in Ef as [Ef Ec]. cbn [fst] in Ec. apply N.eqb_eq in Ec. subst c'.
  destruct (W c g' (or_introl eq_refl) Ef) as (W1 & W2 & W3 & W4).
  unfold good_gid. rewrite !andb_true_iff. repeat split.
  - now apply N.ltb_lt.
  - apply negb_true_iff. destruct (N.leb_spec 55296 g'), (N.leb_spec g' 57343); try reflexivity. exfalso; apply W2; split; assumption.
  - apply negb_true_iff. now apply N.eqb_neq.
  - apply negb_true_iff. now apply N.eqb_neq.
Qed.
Lemma encoded_reads cmap s op rest : writable cmap s -> encode_text cmap s = Ok op ->
  exists l, glyph_codes cmap s = Some l /\ read_lit 0 (op ++ 41 :: rest) = Some (l, rest).
Proof.
  intros W E. rewrite glyph_codes_of. destruct (glyphs_of cmap s) as [gs|] eqn:Eg.
  - destruct (encode_text_ok cmap s gs Eg (glyphs_good cmap s W gs Eg)) as [E1 E2]. rewrite E1 in E. injection E as <-.
    eexists. split; [reflexivity|]. now apply read_lit_escape.
  - exfalso. revert op E Eg. clear W. induction s as [|c s IH]; intros op E Eg; [discriminate Eg|].
    cbn [encode_text] in E. cbn [glyphs_of fold_right] in Eg. fold (glyphs_of cmap s) in Eg.
    destruct (nget c cmap) as [g|]; [|discriminate E].
    destruct (glyphs_of cmap s) as [l|]; [discriminate Eg|].
    destruct (encode_text cmap s) as [o|]; [exact (IH o eq_refl eq_refl)|].
    revert E. match goal with |- context [bind ?x _] => destruct x end; cbn [bind]; discriminate.
Qed.

(** A font that was requested is found again. *)
Lemma get_font_again k fs p f fs1 p1 : get_font load_ttf k fs p = Ok (f, fs1, p1) -> get_font load_ttf k fs1 p1 = Ok (f, fs1, p1).
Proof.
  unfold get_font. destruct (is_standard (fst k)) eqn:Es.
  - destruct (pick k fs) as [f0|] eqn:Ep; [|discriminate]. cbn [bind]. intros [= <- <- <-]. rewrite Ep. reflexivity.
  - destruct (kget k (registered p)) as [path|] eqn:Ek; [|discriminate].
    destruct (existsb (fkey_eqb k) (loaded p)) eqn:El.
    + destruct (pick k fs) as [f0|] eqn:Ep; [|discriminate]. cbn [bind]. intros [= <- <- <-]. rewrite Ek, El, Ep. reflexivity.
    + destruct (load_font load_ttf path k fs) as [fs2|] eqn:Ef; [|discriminate]. cbn [bind].
      destruct (pick k fs2) as [f0|] eqn:Ep; [|discriminate]. cbn [bind]. intros [= <- <- <-]. cbn [registered loaded]. rewrite Ek.
      replace (existsb (fkey_eqb k) (loaded p ++ [k])) with true; [rewrite Ep; reflexivity|].
      symmetry. apply existsb_exists. exists k. split; [apply in_or_app; right; left; reflexivity|].
      destruct k. unfold fkey_eqb. cbn [fst snd]. now rewrite !str_eqb_refl.
Qed.

Lemma escape_none l : (forall c, In c l -> c <> 40 /\ c <> 41 /\ c <> 92) -> escape_string l = l.
Proof.
  rewrite escape_flat. induction l as [|c l IH]; intros H; [reflexivity|]. cbn [flat_map].
  rewrite (IH (fun d Hd => H d (or_intror Hd))). destruct (H c (or_introl eq_refl)) as (H1 & H2 & H3). unfold esc1. cbn [existsb].
  apply N.eqb_neq in H1, H2, H3. now rewrite H1, H2, H3.
Qed.

(** ** Theorems *)

(** The fonts of a document: those of a new one, after any requests. *)
Inductive used : fonts_st -> Prop :=
| used_new : used init_fonts
| used_more fs p k f fs' p' : used fs -> get_font load_ttf k fs p = Ok (f, fs', p') -> used fs'.

Definition right_kind (fam : str) (f : font) : Prop :=
  if is_standard fam then exists w, f_kind f = FStd w else exists t, f_kind f = FTT t.
Definition right_kinds (l : families) : Prop := forall fam m mode f, In (fam, m) l -> In (mode, f) m -> right_kind fam f.
Lemma dset_in {V} k (v : V) d x y : In (x, y) (dset k v d) -> In (x, y) d \/ (x = k /\ y = v).
Proof.
  induction d as [|[k' v'] d IH]; cbn [dset]; [intros [[= <- <-]|[]]; auto|].
  destruct (str_eqb k k') eqn:E.
  - apply str_eqb_eq in E. subst k'. intros [[= <- <-]|H]; [auto|left; right; exact H].
  - intros [H|H]; [left; left; exact H|]. destruct (IH H); [left; right; assumption|auto].
Qed.
Lemma right_init : right_kinds (fs_fonts init_fonts).
Proof.
  rewrite init_fonts_table. intros fam m mode f H1 H2. unfold right_kind.
  repeat (destruct H1 as [H1|H1]; [injection H1 as <- <-; repeat (destruct H2 as [H2|H2]; [injection H2 as <- <-; eexists; reflexivity|]); destruct H2|]).
  destruct H1.
Qed.
Lemma used_kinds fs : used fs -> right_kinds (fs_fonts fs).
Proof.
  induction 1 as [|fs p k f fs' p' H IH E]; [exact right_init|]. unfold get_font in E.
  destruct (is_standard (fst k)) eqn:Es.
  - destruct (pick k fs); [|discriminate]. injection E as <- <- <-. exact IH.
  - destruct (kget k (registered p)) as [path|]; [|discriminate]. destruct (existsb _ _).
    + destruct (pick k fs); [|discriminate]. injection E as <- <- <-. exact IH.
    + destruct (load_font load_ttf path k fs) as [fs2|] eqn:El; [|discriminate]. cbn [bind] in E.
      destruct (pick k fs2); [|discriminate]. injection E as <- <- <-. unfold load_font in El.
      destruct (load_ttf path) as [t|]; [|discriminate]. cbn [bind] in El. injection El as <-. cbn [fs_fonts].
      intros fam m mode g H1 H2. apply dset_in in H1 as [H1|[-> ->]]; [exact (IH _ _ _ _ H1 H2)|].
      apply dset_in in H2 as [H2|[-> ->]].
      * destruct (dget (fst k) (fs_fonts fs)) as [m0|] eqn:Ed.
        -- apply dget_in in Ed. exact (IH _ _ _ _ Ed H2).
        -- destruct H2 as [[= <- <-]|[]]. unfold right_kind. rewrite Es. eexists. reflexivity.
      * unfold right_kind. rewrite Es. eexists. reflexivity.
Qed.
Lemma pick_kind k fs f : right_kinds (fs_fonts fs) -> pick k fs = Ok f -> right_kind (fst k) f.
Proof.
  intros R. unfold pick. destruct (dget (fst k) (fs_fonts fs)) as [m|] eqn:E; [|discriminate]. apply dget_in in E.
  destruct (dget (snd k) m) as [g|] eqn:E1; [intros [= <-]; apply dget_in in E1; exact (R _ _ _ _ E E1)|].
  destruct (dget (lit "n") m) as [g|] eqn:E2; [intros [= <-]; apply dget_in in E2; exact (R _ _ _ _ E E2)|discriminate].
Qed.
Lemma get_font_kind k fs p f fs' p' : used fs -> get_font load_ttf k fs p = Ok (f, fs', p') -> right_kind (fst k) f.
Proof.
  intros U E. pose proof (used_kinds _ (used_more _ _ _ _ _ _ U E)) as R.
  assert (Hp : pick k fs' = Ok f).
  { pose proof (get_font_again _ _ _ _ _ _ E) as E2. unfold get_font in E2. destruct (is_standard (fst k)).
    - destruct (pick k fs'); [|discriminate]. now injection E2 as ->.
    - destruct (kget k (registered p')); [|discriminate]. destruct (existsb _ (loaded p')) eqn:Ex.
      + destruct (pick k fs'); [|discriminate]. now injection E2 as ->.
      + exfalso. clear - E2 Ex. destruct (load_font load_ttf s k fs') as [fs2|]; [|discriminate]. cbn [bind] in E2.
        destruct (pick k fs2); [|discriminate]. cbn [bind] in E2. injection E2 as _ _ E2. destruct p' as [r l]. cbn in E2, Ex.
        injection E2 as E2. apply (f_equal (@List.length fkey)) in E2. rewrite app_length in E2. cbn in E2. lia. }
  exact (pick_kind _ _ _ R Hp).
Qed.

(** ** Theorems *)

(** C77, the part that holds: the list text is shown with the codes of its
    characters in the font selected for it.  In a standard font its
    parentheses match and it has no backslash; in an embedded font the mode of
    the font is the one that [list_style] itself asks for. *)
Theorem C77_list_text_partial : forall first ls text fs p f op, used fs ->
  list_operand first ls text fs p = Ok (f, op) ->
  s_f ls <> Some [] ->
  (forall w, f_kind f = FStd w -> plain_from 0 text = true) ->
  (forall t, f_kind f = FTT t -> writable (tt_cmap t) text /\
     truthy (over (s_b first) (s_b ls)) = has (s_b ls) /\ truthy (over (s_i first) (s_i ls)) = has (s_i ls)) ->
  shows_text f op text.
Proof.
  intros first ls text fs p f op U E Hf Hs Ht rest. unfold list_operand, selected in E. cbn [fs_update s_f s_b s_i] in E.
  assert (Hfam : match s_f ls with Some (c :: r) => Some (c :: r) | _ => s_f first end = over (s_f first) (s_f ls)).
  { unfold over. destruct (s_f ls) as [[|c r]|]; [contradiction|reflexivity|reflexivity]. }
  rewrite Hfam in E. destruct (over (s_f first) (s_f ls)) as [fam|] eqn:Ef; [|discriminate]. clear Hfam.
  destruct (state_mode fs fam (truthy (over (s_b first) (s_b ls))) (truthy (over (s_i first) (s_i ls)))) as [m|] eqn:Em; [|discriminate].
  cbn [bind] in E. destruct (get_font load_ttf (fam, m) fs p) as [[[f0 fs1] p1]|] eqn:Eg; [|discriminate]. cbn [bind] in E.
  pose proof (get_font_kind _ _ _ _ _ _ U Eg) as K. unfold right_kind in K. cbn [fst] in K.
  destruct (is_standard fam) eqn:Es.
  - injection E as <- <-. destruct K as [w Hw].
    exists text. unfold codes. rewrite Hw. split; [reflexivity|]. apply plain_reads. exact (Hs w Hw).
  - destruct (get_font load_ttf (fam, key_mode ls) fs1 p1) as [[[g fs2] p2]|] eqn:Eg2; [|discriminate]. cbn [bind] in E.
    destruct (f_kind g) as [w|t] eqn:Ek; [discriminate|].
    destruct (encode_text (tt_cmap t) text) as [o|] eqn:Ee; [|discriminate]. cbn [bind] in E. injection E as <- <-.
    unfold state_mode in Em. rewrite Es in Em. injection Em as <-. destruct K as [t0 Hk].
    destruct (Ht t0 Hk) as (W & Hb & Hi). rewrite Hb, Hi in Eg. pose proof (get_font_again _ _ _ _ _ _ Eg) as Ea.
    unfold key_mode in Eg2. rewrite Ea in Eg2. injection Eg2 as <- <- <-. rewrite Hk in Ek. injection Ek as ->.
    unfold codes. rewrite Hk. exact (encoded_reads _ _ _ _ W Ee).
Qed.

(** C26 for a whole part: where [b] and [i] are only present when they are
    true, the words of a part are shown with the codes of their characters in
    the font selected for the part. *)
Theorem C26_part_partial : forall y words fs p f op, used fs ->
  part_operand y words fs p = Ok (f, op) -> s_f y <> Some [] ->
  s_b y <> Some false -> s_i y <> Some false ->
  (forall w, f_kind f = FStd w -> ~ In 13 (List.concat words)) ->
  (forall t, f_kind f = FTT t -> writable (tt_cmap t) (List.concat words) /\
     forall c, In c (List.concat words) -> c <> 40 /\ c <> 41 /\ c <> 92) ->
  shows_text f op (List.concat words).
Proof.
  intros y words fs p f op U E Hf Hb Hi Hs Ht rest. unfold part_operand, selected in E.
  destruct (s_f y) as [fam|]; [|discriminate].
  destruct (state_mode fs fam (truthy (s_b y)) (truthy (s_i y))) as [m|] eqn:Em; [|discriminate].
  cbn [bind] in E. destruct (get_font load_ttf (fam, m) fs p) as [[[f0 fs1] p1]|] eqn:Eg; [|discriminate]. cbn [bind] in E.
  pose proof (get_font_kind _ _ _ _ _ _ U Eg) as K. unfold right_kind in K. cbn [fst] in K.
  assert (E' : (if is_standard fam then Ok (f0, clean_words words) else
      do (g, _, _) <- get_font load_ttf (fam, key_mode y) fs1 p1;
      match f_kind g with
      | FTT t => do op <- encode_text (tt_cmap t) (clean_words words); Ok (f0, op)
      | FStd _ => Err AttributeError
      end) = Ok (f, op)) by (destruct fam as [|c0 fam']; [now contradiction Hf|exact E]).
  clear E. rename E' into E.
  destruct (is_standard fam) eqn:Es.
  - injection E as <- <-. destruct K as [w Hw]. exists (List.concat words). unfold codes. rewrite Hw. split; [reflexivity|].
    rewrite clean_words_escape. apply read_lit_escape. apply forallb_forall. intros x Hx. apply negb_true_iff, N.eqb_neq. intros ->.
    exact (Hs w Hw Hx).
  - destruct (get_font load_ttf (fam, key_mode y) fs1 p1) as [[[g fs2] p2]|] eqn:Eg2; [|discriminate]. cbn [bind] in E.
    destruct (f_kind g) as [w|t] eqn:Ek; [discriminate|].
    destruct (encode_text (tt_cmap t) (clean_words words)) as [o|] eqn:Ee; [|discriminate]. cbn [bind] in E. injection E as <- <-.
    unfold state_mode in Em. rewrite Es in Em. injection Em as <-. destruct K as [t0 Hk].
    destruct (Ht t0 Hk) as (W & Hc).
    assert (Hm : mode_of (truthy (s_b y)) (truthy (s_i y)) = key_mode y).
    { unfold key_mode. destruct (s_b y) as [[|]|], (s_i y) as [[|]|]; try reflexivity; exfalso; auto. }
    rewrite Hm in Eg. pose proof (get_font_again _ _ _ _ _ _ Eg) as Ea.
    rewrite Ea in Eg2. injection Eg2 as <- <- <-. rewrite Hk in Ek. injection Ek as ->.
    unfold codes. rewrite Hk. refine (encoded_reads _ _ _ _ W _). rewrite <- Ee. f_equal.
    rewrite clean_words_escape. symmetry. exact (escape_none _ Hc).
Qed.
End Fonts.
Print Assumptions C77_list_text_partial.
Print Assumptions C26_part_partial.

(** Examples: a family "Open" with two files whose glyphs are numbered
    differently. *)
Definition ex_load (path : str) : res ttf :=
  if str_eqb path (lit "n.ttf") then Ok (mkTtf (lit "Open") [(49, 20); (46, 17); (65, 36)] (fun _ => 500%Z) 1000)
  else Ok (mkTtf (lit "OpenBold") [(49, 5); (46, 6); (65, 7)] (fun _ => 600%Z) 1000).
Definition ex_proc : process := mkProc [((lit "Open", lit "n"), lit "n.ttf"); ((lit "Open", lit "b"), lit "b.ttf")] [].
Definition ex_first : fstyle := mkFS (Some (lit "Open")) (Some true) None.
Definition ex_plain : fstyle := mkFS (Some (lit "Helvetica")) None None.
Definition ex_read (op : str) : option (bytes * str) := read_lit 0 (op ++ lit ")Tj").

(** The hypotheses of [C77_list_text_partial] are met: "1." in bold, asked for
    by the list style, and "(1)" in Helvetica. *)
Example C77_applies :
  (exists f t op, list_operand ex_load ex_first (mkFS None (Some true) None) (lit "1.") init_fonts ex_proc = Ok (f, op) /\
     f_kind f = FTT t /\ tt_cmap t = [(49, 5); (46, 6); (65, 7)] /\ codes f (lit "1.") = Some [0; 5; 0; 6] /\ writable (tt_cmap t) (lit "1.")) /\
  (exists f w op, list_operand ex_load ex_plain (mkFS None None None) (lit "(1)") init_fonts ex_proc = Ok (f, op) /\
     f_kind f = FStd w /\ plain_from 0 (lit "(1)") = true) /\
  used ex_load init_fonts.
Proof.
  split; [|split; [|constructor]].
  - eexists _, _, _. split; [vm_compute; reflexivity|]. split; [reflexivity|]. split; [reflexivity|]. split; [reflexivity|].
    intros c g _ H. cbn [tt_cmap In] in H. destruct H as [[= <- <-]|[[= <- <-]|[[= <- <-]|[]]]]; repeat split; try (vm_compute; congruence); intros [H _]; vm_compute in H; congruence.
  - eexists _, _, _. split; [reflexivity|]. split; reflexivity.
Qed.

(** C77 fails: the list text "1)" in Helvetica is shown as "1", what follows
    the parenthesis is not an operator, and a backslash is lost. *)
Theorem C77_parentheses_refuted : exists f op f' op',
  list_operand ex_load ex_plain (mkFS None None None) (lit "1)") init_fonts ex_proc = Ok (f, op) /\
  codes f (lit "1)") = Some (lit "1)") /\ ex_read op = Some (lit "1", lit ")Tj") /\
  list_operand ex_load ex_plain (mkFS None None None) (lit "a\b") init_fonts ex_proc = Ok (f', op') /\
  ex_read op' = Some ([97; 8], lit "Tj").
Proof. do 4 eexists. split; [reflexivity|]. repeat split; reflexivity. Qed.
Print Assumptions C77_parentheses_refuted.

(** C77 fails: where the first part of the line is bold and the list style
    says nothing, the text is shown in the bold font with the glyph numbers of
    the normal one. *)
Theorem C77_mode_refuted : exists f op,
  list_operand ex_load ex_first (mkFS None None None) (lit "1.") init_fonts ex_proc = Ok (f, op) /\
  f_base f = lit "OpenBold" /\ codes f (lit "1.") = Some [0; 5; 0; 6] /\ ex_read op = Some ([0; 20; 0; 17], lit "Tj").
Proof. do 2 eexists. split; [vm_compute; reflexivity|]. repeat split; reflexivity. Qed.
Print Assumptions C77_mode_refuted.

Example C26_part_applies : exists f t op,
  part_operand ex_load ex_first [lit "A"; lit "1."] init_fonts ex_proc = Ok (f, op) /\ f_kind f = FTT t /\
  codes f (lit "A1.") = Some [0; 7; 0; 5; 0; 6] /\ ex_read op = Some ([0; 7; 0; 5; 0; 6], lit "Tj").
Proof. do 3 eexists. split; [vm_compute; reflexivity|]. repeat split; reflexivity. Qed.

(** C26 fails for a part with [b] false: it is shown in the normal font with
    the glyph numbers of the bold one. *)
Theorem C26_mode_refuted : exists f op,
  part_operand ex_load (mkFS (Some (lit "Open")) (Some false) None) [lit "A"] init_fonts ex_proc = Ok (f, op) /\
  f_base f = lit "Open" /\ codes f (lit "A") = Some [0; 36] /\ ex_read op = Some ([0; 7], lit "Tj").
Proof. do 2 eexists. split; [vm_compute; reflexivity|]. repeat split; reflexivity. Qed.
Print Assumptions C26_mode_refuted.
