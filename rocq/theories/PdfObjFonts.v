(** Fonts of one document: which font a key stands for (C21). *)
From Verif Require Import Py PyStr PdfSyntax Parser StreamProofs Store PageTree NameTree OutlineTree Fonts PdfObj PdfObjSpec.
From Coq Require Import String QArith.
Open Scope N_scope.
Open Scope list_scope.

(** ** Words of the ToUnicode CMap *)
Lemma split_words_sep c : (c =? 32) || (c =? 10) = true -> forall a cur b,
  split_words cur (a ++ c :: b) = split_words cur a ++ split_words [] b.
Proof.
  intros Hc. induction a as [|x a IH]; intros cur b; cbn [app split_words].
  - rewrite Hc. now destruct cur.
  - destruct ((x =? 32) || (x =? 10)); [|apply IH]. destruct cur; [apply IH|]. cbn [app]. now rewrite IH.
Qed.
Lemma words_sep c a b : (c =? 32) || (c =? 10) = true -> words (a ++ c :: b) = words a ++ words b.
Proof. intros Hc. now apply split_words_sep. Qed.
Lemma words_end c a b : (c =? 32) || (c =? 10) = true -> words ((a ++ [c]) ++ b) = words a ++ words b.
Proof. intros Hc. rewrite <- app_assoc. now apply words_sep. Qed.
Lemma words_join l : words (join 10 l) = flat_map words l.
Proof.
  induction l as [|x l IH]; [reflexivity|]. destruct l as [|y l]; [cbn; now rewrite app_nil_r|].
  change (join 10 (x :: y :: l)) with (x ++ 10 :: join 10 (y :: l)). rewrite words_sep by reflexivity.
  rewrite IH. reflexivity.
Qed.
Lemma split_words_dense s : forall cur, forallb is_digit s = true -> cur ++ s <> [] ->
  split_words cur s = [rev cur ++ s].
Proof.
  induction s as [|c s IH]; intros cur H Hn; cbn [split_words].
  - rewrite app_nil_r. destruct cur; [now destruct Hn|reflexivity].
  - cbn [forallb] in H. apply andb_true_iff in H as [Hc H]. unfold is_digit in Hc.
    replace ((c =? 32) || (c =? 10)) with false by lia. rewrite IH; [|exact H|discriminate].
    cbn [rev]. now rewrite <- app_assoc.
Qed.
Lemma cmap_text_ok m : unicode_map (cmap_text m) m.
Proof.
  exists (cmap_lines m). split; [|split; [unfold cmap_lines; apply map_length|apply tounicode_reads]].
  unfold cmap_text.
  match goal with |- words (?a ++ _) = _ => change a with (removelast a ++ [32]) end.
  rewrite words_end by reflexivity.
  match goal with |- _ ++ words (?d ++ ?b ++ ?r) = _ =>
    change (b ++ r) with (32 :: (removelast (tl b) ++ [32]) ++ r) end.
  rewrite words_sep by reflexivity. rewrite words_end by reflexivity.
  match goal with |- _ ++ _ ++ _ ++ words (?d ++ ?b) = _ => change b with (10 :: tl b) end.
  rewrite words_sep by reflexivity. rewrite words_join.
  unfold words at 2. rewrite split_words_dense; [|apply dec_digits|cbn; apply dec_nonempty].
  reflexivity.
Qed.

Section Fonts.
Variable load_ttf : str -> res ttf.
Variable reg : list (fkey * str).

Definition std_keys : list fkey :=
  flat_map (fun fm => map (fun mb => (fst fm, fst mb)) (snd fm)) standard_fonts.

(** [k] stands for [f], numbered [i]. *)
Definition resolves (fs : fonts_st) (p : process) (k : fkey) (f : font) (i : N) : Prop :=
  f_ref f = font_ref i /\
  (exists m, dget (fst k) (fs_fonts fs) = Some m /\ dget (snd k) m = Some f) /\
  match dget (fst k) standard_fonts with
  | Some modes => i < 15 /\ nth_error std_keys (N.to_nat (i - 1)) = Some k /\ 1 <= i /\
                  exists w, dget (snd k) modes = Some (f_base f, w) /\ f_kind f = FStd w
  | None => 15 <= i < fs_index fs /\ In k (loaded p) /\
            exists path t, kget k reg = Some path /\ load_ttf path = Ok t /\ f_base f = tt_base t /\ f_kind f = FTT t
  end.

Record fonts_inv (fs : fonts_st) (p : process) : Prop := {
  fi_reg : registered p = reg;
  fi_index : 15 <= fs_index fs;
  fi_std : forall fam modes, dget fam standard_fonts = Some modes ->
             dget fam (fs_fonts fs) = dget fam (fs_fonts init_fonts);
  fi_loaded : forall k, In k (loaded p) -> dget (fst k) standard_fonts = None /\ exists f i, resolves fs p k f i;
  fi_inj : forall k k' f f' i, resolves fs p k f i -> resolves fs p k' f' i -> k = k' }.

Definition file_kind (k : fkind) : option ttf := match k with FStd _ => None | FTT t => Some t end.
Lemma resolves_wanted fs p k f i : resolves fs p k f i -> wanted_base load_ttf reg k (f_base f) (file_kind (f_kind f)).
Proof.
  intros (_ & _ & H). unfold wanted_base. destruct (dget (fst k) standard_fonts).
  - destruct H as (_ & _ & _ & w & H & E). rewrite E. eauto.
  - destruct H as (_ & _ & path & t & H1 & H2 & H3 & E). rewrite E. exists path, t. auto.
Qed.

Lemma std_table : forall fam modes mode base w, dget fam standard_fonts = Some modes ->
  dget mode modes = Some (base, w) ->
  exists m f i, dget fam (fs_fonts init_fonts) = Some m /\ dget mode m = Some f /\ f_ref f = font_ref i /\
    i < 15 /\ nth_error std_keys (N.to_nat (i - 1)) = Some (fam, mode) /\ 1 <= i /\
    f_base f = base /\ f_kind f = FStd w.
Proof.
  intros fam modes mode base w H1 H2.
  assert (Hall : Forall (fun fm => Forall (fun mb =>
     exists m f i, dget (fst fm) (fs_fonts init_fonts) = Some m /\ dget (fst mb) m = Some f /\ f_ref f = font_ref i /\
    i < 15 /\ nth_error std_keys (N.to_nat (i - 1)) = Some (fst fm, fst mb) /\ 1 <= i /\
    f_base f = fst (snd mb) /\ f_kind f = FStd (snd (snd mb))) (snd fm)) standard_fonts).
  { rewrite init_fonts_table. unfold standard_fonts.
    repeat first [apply Forall_cons|apply Forall_nil]; cbn [fst snd]; eexists _, _, _;
     (split; [reflexivity|]); (split; [reflexivity|]); (split; [reflexivity|]); (split; [reflexivity|]);
     (split; [reflexivity|]); (split; [discriminate|]); split; reflexivity. }
  apply dget_in in H1. apply dget_in in H2. rewrite Forall_forall in Hall. specialize (Hall _ H1).
  cbn [fst snd] in Hall. rewrite Forall_forall in Hall. exact (Hall _ H2).
Qed.

Lemma init_fonts_inv : fonts_inv init_fonts (mkProc reg []).
Proof.
  constructor.
  - reflexivity.
  - vm_compute. discriminate.
  - reflexivity.
  - intros k [].
  - intros k k' f f' i (_ & _ & H1) (_ & _ & H2).
    destruct (dget (fst k) standard_fonts); [|destruct H1 as (_ & [] & _)].
    destruct (dget (fst k') standard_fonts); [|destruct H2 as (_ & [] & _)].
    destruct H1 as (_ & H1 & _), H2 as (_ & H2 & _). congruence.
Qed.

(** A request keeps what was resolved and resolves its key. *)
Lemma get_font_inv fs p k f fs' p' : fonts_inv fs p ->
  (forall modes, dget (fst k) standard_fonts = Some modes -> dmem (snd k) modes = true) ->
  get_font load_ttf k fs p = Ok (f, fs', p') ->
  fonts_inv fs' p' /\ (exists i, resolves fs' p' k f i) /\
  (forall k0 f0 i0, resolves fs p k0 f0 i0 -> resolves fs' p' k0 f0 i0).
Proof.
  intros HI Hmode. unfold get_font, is_standard, dmem.
  destruct (dget (fst k) standard_fonts) as [modes|] eqn:Es.
  - specialize (Hmode modes eq_refl). unfold dmem in Hmode.
    destruct (dget (snd k) modes) as [[base w]|] eqn:Em; [|discriminate].
    destruct (std_table _ _ _ _ _ Es Em) as (m & f1 & i & T1 & T2 & T3 & T4 & T5 & T6 & T7 & T8).
    unfold pick. rewrite (fi_std _ _ HI _ _ Es), T1, T2. cbn [bind]. intros [= <- <- <-].
    split; [exact HI|]. split; [|auto]. exists i. split; [exact T3|]. split.
    + exists m. rewrite (fi_std _ _ HI _ _ Es). auto.
    + rewrite Es. split; [exact T4|]. split; [rewrite T5; destruct k; reflexivity|]. split; [exact T6|].
      exists w. rewrite Em, T7. auto.
  - rewrite (fi_reg _ _ HI). destruct (kget k reg) as [path|] eqn:Er; [|discriminate].
    destruct (existsb (fkey_eqb k) (loaded p)) eqn:El.
    + apply existsb_fkey in El. destruct (fi_loaded _ _ HI k El) as (_ & f1 & i & R).
      pose proof R as (_ & (m & R1 & R2) & _). unfold pick. rewrite R1, R2. cbn [bind]. intros [= <- <- <-].
      split; [exact HI|]. split; [eauto|auto].
    + assert (Hnk : ~ In k (loaded p)) by (intros H; apply existsb_fkey in H; congruence).
      unfold load_font. destruct (load_ttf path) as [t|] eqn:Et; [|discriminate]. cbn [bind].
      set (fnew := mkFont (font_ref (fs_index fs)) (tt_base t) (FTT t)).
      set (fam := match dget (fst k) (fs_fonts fs) with Some m => m | None => [(lit "n", fnew)] end).
      unfold pick. cbn [fs_fonts]. rewrite !dget_dset_same. cbn [bind]. intros [= <- <- <-].
      set (fs' := mkFonts (dset (fst k) (dset (snd k) fnew fam) (fs_fonts fs)) (fs_index fs + 1)).
      set (p' := mkProc reg (loaded p ++ [k])).
      assert (Hkeep : forall k0 f0 i0, resolves fs p k0 f0 i0 -> resolves fs' p' k0 f0 i0).
      { intros k0 f0 i0 (R1 & (m & R2 & R3) & R4).
        assert (Hne : k0 <> k).
        { intros ->. rewrite Es in R4. tauto. }
        split; [exact R1|]. split.
        - cbn [fs' fs_fonts]. destruct (str_eq_dec (fst k0) (fst k)) as [E|E].
          + rewrite E, dget_dset_same. eexists. split; [reflexivity|]. unfold fam. rewrite <- E, R2.
            rewrite dget_dset_other; [exact R3|]. intros E2. apply Hne. destruct k, k0; cbn in *; congruence.
          + rewrite dget_dset_other by exact E. eauto.
        - destruct (dget (fst k0) standard_fonts); [exact R4|]. destruct R4 as (R4 & R5 & R6).
          split; [cbn [fs' fs_index]; lia|]. split; [apply in_or_app; now left|exact R6]. }
      assert (Hnew : resolves fs' p' k fnew (fs_index fs)).
      { split; [reflexivity|]. split.
        - cbn [fs' fs_fonts]. rewrite dget_dset_same. eexists. split; [reflexivity|apply dget_dset_same].
        - rewrite Es. split; [pose proof (fi_index _ _ HI); cbn [fs' fs_index]; lia|].
          split; [apply in_or_app; right; now left|]. exists path, t. auto. }
      assert (Hinv : forall k0 f0 i0, resolves fs' p' k0 f0 i0 ->
                k0 = k /\ i0 = fs_index fs \/ resolves fs p k0 f0 i0 /\ i0 <> fs_index fs).
      { intros k0 f0 i0 (R1 & (m & R2 & R3) & R4).
        destruct (dget (fst k0) standard_fonts) as [modes|] eqn:E0.
        - right. assert (Hne : fst k0 <> fst k) by (intros E; rewrite E in E0; congruence).
          cbn [fs' fs_fonts] in R2. rewrite dget_dset_other in R2 by exact Hne.
          split; [|pose proof (fi_index _ _ HI); lia]. split; [exact R1|]. split; [eauto|]. now rewrite E0.
        - destruct R4 as (R4 & R5 & R6). apply in_app_or in R5 as [R5|[R5|[]]].
          + right. destruct (fi_loaded _ _ HI _ R5) as (_ & f1 & i1 & R).
            pose proof (Hkeep _ _ _ R) as (K1 & (m' & K2 & K3) & K4).
            rewrite R2 in K2. injection K2 as <-. rewrite R3 in K3. injection K3 as <-.
            rewrite R1 in K1. unfold font_ref in K1. apply app_inv_head, dec_inj in K1. subst i1.
            split; [exact R|]. destruct R as (_ & _ & R). rewrite E0 in R. lia.
          + subst k0. left. split; [reflexivity|]. cbn [fs' fs_fonts] in R2. rewrite dget_dset_same in R2.
            injection R2 as <-. rewrite dget_dset_same in R3. injection R3 as <-.
            cbn [fnew f_ref] in R1. unfold font_ref in R1. now apply app_inv_head, dec_inj in R1. }
      split; [|split; [eauto|exact Hkeep]].
      constructor.
      * reflexivity.
      * pose proof (fi_index _ _ HI). cbn [fs' fs_index]. lia.
      * intros fam0 modes0 H0. cbn [fs' fs_fonts]. rewrite dget_dset_other; [eapply fi_std; eauto|].
        intros ->. congruence.
      * intros k0 H0. apply in_app_or in H0 as [H0|[H0|[]]].
        -- destruct (fi_loaded _ _ HI _ H0) as (E0 & f1 & i1 & R). split; [exact E0|]. eauto.
        -- subst k0. split; [exact Es|]. eauto.
      * intros k1 k2 f1 f2 i R1 R2. apply Hinv in R1, R2.
        destruct R1 as [[A1 B1]|[R1 N1]], R2 as [[A2 B2]|[R2 N2]]; try congruence.
        eapply fi_inj; eauto.
Qed.

(** The key of a style. *)
Lemma state_mode_key fs p fam b i mode : fonts_inv fs p -> state_mode fs fam b i = Ok mode ->
  (fam, mode) = style_key (fam, b, i) /\
  (forall modes, dget fam standard_fonts = Some modes -> dmem mode modes = true).
Proof.
  assert (Hv : variant b i = mode_of b i) by (destruct b, i; reflexivity).
  intros HI. unfold state_mode, style_key, is_standard, dmem at 1. rewrite Hv.
  destruct (dget fam standard_fonts) as [modes|] eqn:Es; [|intros [= <-]; split; [reflexivity|discriminate]].
  rewrite (fi_std _ _ HI _ _ Es). destruct (init_fonts_ok fam modes Es) as (m & Hm & Hk & _). rewrite Hm.
  assert (Hd : forall k, dmem k m = dmem k modes).
  { intros k. unfold dmem. pose proof (dget_none k m) as D1. pose proof (dget_none k modes) as D2.
    rewrite Hk in D1. destruct (dget k m), (dget k modes); try reflexivity; exfalso.
    - assert (HH : Some f = None) by (apply D1, D2; reflexivity). discriminate.
    - assert (HH : Some p0 = None) by (apply D2, D1; reflexivity). discriminate. }
  intros [= <-]. rewrite Hd. split; [reflexivity|]. intros modes' [= <-].
  destruct (dmem (mode_of b i) modes) eqn:E; [exact E|].
  assert (Hn : Forall (fun fm : str * list (str * (str * list N)) => dmem (lit "n") (snd fm) = true) standard_fonts).
  { unfold standard_fonts. repeat (apply Forall_cons); [..|apply Forall_nil]; reflexivity. }
  rewrite Forall_forall in Hn. apply dget_in in Es. apply (Hn _ Es).
Qed.
End Fonts.
