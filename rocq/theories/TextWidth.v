(** Widths of lines (C33, C34, C37). *)
From Coq Require Import String QArith Lqa.
From Verif Require Import Py PyStr Gfx TextLayout TextProofs TextWords TextOrder TextFit.
Open Scope list_scope.

(** Specification: a text without the spaces at its end. *)
Fixpoint drop_spaces (ts : list tok) : list tok :=
  match ts with TSpace _ :: r => drop_spaces r | _ => ts end.
Definition strip (ts : list tok) : list tok := rev (drop_spaces (rev ts)).
Lemma strip_space ts y : strip (ts ++ [TSpace y]) = strip ts.
Proof. unfold strip. rewrite rev_unit. reflexivity. Qed.
Lemma strip_word ts y ids w : strip (ts ++ [TWord y ids w]) = ts ++ [TWord y ids w].
Proof. unfold strip. rewrite rev_unit. cbn. rewrite rev_involutive. reflexivity. Qed.
Lemma strip_words ts ws : forallb is_word ws = true -> ws <> [] -> strip (ts ++ ws) = ts ++ ws.
Proof.
  intros H Hn. destruct (snoc_cases ws) as [->|(i & x & ->)]; [congruence|].
  rewrite forallb_app in H. apply andb_true_iff in H as [_ H]. cbn in H. destruct x; try discriminate.
  rewrite app_assoc. apply strip_word.
Qed.

Section Width.
Variable round3 : Q -> Q.
Variable text_w : fkey -> str -> Q.
Variable space_w : fkey -> Q.
Variable fref : fkey -> str.
Notation run := (run round3 text_w space_w fref).
Notation lwf := (lwf text_w space_w).
Notation min_of := (min_of text_w space_w).

(** A line fits: one unbreakable chunk, or narrower than the limit when its
    spaces are as narrow as they may become (70% when justified). *)
Definition fits (a : align) (limit : Q) (ts : list tok) : Prop :=
  forallb is_word ts = true \/ (min_of a ts < limit)%Q.

Section Limits.
Variable a : align.
Variables L0 L1 : Q.
Definition lim (d : dyn) : Q := if no_lines d then L0 else L1.
Record fit_inv (d : dyn) (cur : line) : Prop := {
  fi_wf : lwf cur;
  fi_max : (l_max cur == lim d)%Q;
  fi_cur : l_started cur = true -> fits a (lim d) (strip (ctoks cur));
  fi_next : l_started cur = true -> otoks cur = [] \/ (min_of a (ctoks cur ++ otoks cur) < lim d)%Q }.
Definition lines_fit (ls : list line) : Prop :=
  forall i l, nth_error ls i = Some l -> fits a (if (i =? 0)%nat then L0 else L1) (strip (ltoks (l_parts l))).

Lemma lines_fit_snoc ls l : lines_fit ls -> fits a (match ls with [] => L0 | _ => L1 end) (strip (ltoks (l_parts l))) ->
  lines_fit (ls ++ [l]).
Proof.
  intros H Hl i l0 Hi. destruct (Nat.lt_ge_cases i (List.length ls)) as [Hlt|Hge].
  - rewrite nth_error_app1 in Hi by exact Hlt. now apply H.
  - rewrite nth_error_app2 in Hi by exact Hge.
    destruct (i - List.length ls)%nat as [|k] eqn:E; [|destruct k; discriminate]. cbn in Hi. injection Hi as <-.
    destruct ls as [|x ls]; cbn [List.length] in *.
    + replace (i =? 0)%nat with true; [exact Hl|]. symmetry. apply Nat.eqb_eq. lia.
    + replace (i =? 0)%nat with false; [exact Hl|]. symmetry. apply Nat.eqb_neq. lia.
Qed.

(** The line when everything that waits is put into it. *)
Lemma flush_fits d cur : fit_inv d cur -> fits a (lim d) (strip (ltoks (l_parts (flush cur true)))).
Proof.
  intros [A B C D]. rewrite flush_parts, ltoks_app. fold (ctoks cur) (otoks cur).
  destruct (otoks cur) as [|t r] eqn:Eo.
  - rewrite app_nil_r. destruct (l_started cur) eqn:Es; [exact (C eq_refl)|].
    unfold ctoks. rewrite (wf_stopped _ _ _ A Es). left. reflexivity.
  - pose proof (wf_words _ _ _ A) as Hw. rewrite Eo in Hw. rewrite strip_words by (exact Hw || discriminate).
    destruct (l_started cur) eqn:Es.
    + destruct (D eq_refl) as [D'|D']; [discriminate|]. right. exact D'.
    + unfold ctoks. rewrite (wf_stopped _ _ _ A Es). left. exact Hw.
Qed.

(** A word. *)
Lemma fit_word d cur w y ids st cur1 : fit_inv d cur -> curpart cur y ids -> good_word w ->
  add_word text_w space_w a cur w = Ok (st, cur1) ->
  match st with
  | Finished nl => fits a (lim d) (strip (ctoks cur1)) /\ lwf nl /\ curpart nl y ids /\ l_started nl = false /\ l_parts nl = [] /\
      l_next cur1 = Some nl
  | _ => fit_inv d cur1 /\ curpart cur1 y ids
  end.
Proof.
  intros [A B C D] Hcp Hg E.
  destruct (add_word_spec text_w space_w a cur w y ids A Hcp Hg) as (st' & cur' & E' & [Hm _] & _ & H).
  rewrite E in E'. injection E' as <- <-.
  destruct st as [| | |nl].
  - destruct H as (Hwf & Hcp1 & _ & H). split; [|exact Hcp1].
    destruct (isspace w) eqn:Ew.
    + destruct H as (_ & Hst & Ho & Hct). constructor.
      * exact Hwf.
      * rewrite Hm. exact B.
      * intros _. rewrite Hct, app_assoc, strip_space.
        destruct (otoks cur) as [|t r] eqn:Eo.
        -- rewrite app_nil_r. destruct (l_started cur) eqn:Es; [exact (C eq_refl)|].
           unfold ctoks. rewrite (wf_stopped _ _ _ A Es). left. reflexivity.
        -- pose proof (wf_words _ _ _ A) as Hw. rewrite Eo in Hw. rewrite strip_words by (exact Hw || discriminate).
           destruct (l_started cur) eqn:Es.
           ++ destruct (D eq_refl) as [D'|D']; [discriminate|]. right. exact D'.
           ++ unfold ctoks. rewrite (wf_stopped _ _ _ A Es). left. exact Hw.
      * intros _. left. exact Ho.
    + destruct H as (Hst0 & Hst & _). constructor; try congruence; rewrite ?Hm; assumption.
  - destruct H as (_ & -> & _). split; [constructor; assumption|exact Hcp].
  - destruct H as (Hwf & Hcp1 & _ & _ & Hst0 & _ & Hparts & _ & Hlt). split; [|exact Hcp1].
    assert (Hct : ctoks cur1 = ctoks cur) by (unfold ctoks; now rewrite Hparts).
    constructor.
    + exact Hwf.
    + rewrite Hm. exact B.
    + intros _. rewrite Hct. exact (C Hst0).
    + intros _. right. rewrite Hct. rewrite <- B. exact Hlt.
  - destruct H as (_ & Hst0 & Hwf & Hcpn & Hpn & Hsn & _ & Hnx & _ & _ & _ & (y1 & Hct) & _).
    split; [|exact (conj Hwf (conj Hcpn (conj Hsn (conj Hpn Hnx))))]. specialize (C Hst0). rewrite Hct, strip_space in C. exact C.
Qed.
Lemma fit_new d mx nl : (mx == lim d)%Q -> lwf nl -> l_started nl = false -> fit_inv d (relimit mx nl).
Proof.
  intros H1 H2 H3. constructor.
  - apply relimit_lwf. exact H2.
  - exact H1.
  - unfold relimit. cbn. congruence.
  - unfold relimit. cbn. congruence.
Qed.
End Limits.

(** ** Without a list text *)

Lemma accept_no_lines c d l k e f q : no_lines (accept c d l k e f q) = false.
Proof. unfold no_lines. cbn. destruct (d_lines d); reflexivity. Qed.
Lemma lim_case L0 L1 d : lim L0 L1 d = match d_lines d with [] => L0 | _ => L1 end.
Proof. unfold lim, no_lines. destruct (d_lines d); reflexivity. Qed.
Lemma flush_nl cur nl b : l_next cur = Some nl -> l_parts nl = [] -> l_parts (flush cur b) = l_parts cur.
Proof. intros H1 H2. rewrite flush_parts. unfold nparts. rewrite H1, H2, app_nil_r. destruct b; reflexivity. Qed.

Definition plain_W (c : config) (w : Q) (L0 : Q) (p : nat) (d : dyn) (cur : line) : Prop :=
  fit_inv (c_align c) L0 w d cur /\ lines_fit (c_align c) L0 w (d_lines d) /\ d_width d = w.
Lemma plain_ind c w L0 : c_list c = None -> run_ind round3 text_w space_w fref c
  (fun p d cur => plain_W c w L0 p d cur)
  (fun p i d cur => plain_W c w L0 p d cur /\ exists t y ids, nth_error (c_content c) p = Some (CText t y ids) /\ curpart cur y ids)
  (fun d => lines_fit (c_align c) L0 w (d_lines d)).
Proof.
  intros Hl. constructor.
  - intros p d cur _ H. exact H.
  - intros p d cur go d1 _ (A & B & C) El. apply add_current_line_spec in El. destruct go.
    + destruct El as (e & x & q & f & k & _ & _ & ->).
      assert (Hlim : lim L0 w (accept c (set_added d (S p) 0) (flush cur true) (mkMark true x q) e f k) = w)
        by (unfold lim; rewrite accept_no_lines; reflexivity).
      split; [|split; [|exact C]].
      * constructor; try (cbn; discriminate).
        -- apply new_line_lwf.
        -- rewrite Hlim. cbn. rewrite C. reflexivity.
      * cbn [accept set_added d_lines]. apply lines_fit_snoc; [exact B|]. rewrite <- lim_case. exact (flush_fits _ _ _ _ _ A).
    + destruct El as [_ ->]. exact B.
  - intros p d cur t y ids d1 cur1 Hp ([A1 A2 A3 A4] & B & C) Eb.
    destruct (begin_part_spec _ _ _ _ _ _ _ _ Eb) as (Hs & Hn & _ & _ & _ & Hst & _).
    destruct (begin_part_lwf _ _ _ _ _ _ _ _ _ Eb A1) as (Hwf & Hcp & Hct & Hot).
    assert (Hlim : lim L0 w d1 = lim L0 w d) by (rewrite !lim_case, (sp_lines _ _ Hs); reflexivity).
    split; [|eauto 8]. split; [|rewrite (sp_lines _ _ Hs), (sp_width _ _ Hs); split; assumption].
    constructor; rewrite ?Hlim, ?Hct, ?Hot, ?Hst; try assumption.
    destruct (Hn Hl) as [-> _]. exact A2.
  - intros p i d cur t y ids w0 st cur1 Hp Hi [(A & B & C) (t' & y' & ids' & Hp' & Hcp)] E.
    rewrite Hp in Hp'. injection Hp' as <- <- <-.
    assert (Hg : good_word w0) by (apply (good_token t), (nth_error_In _ i), Hi).
    pose proof (fit_word _ _ _ _ _ _ _ _ _ _ A Hcp Hg E) as H. destruct st as [| | |nl].
    + destruct H as [H1 H2]. split; [|eauto 8]. destruct H1. split; [constructor; assumption|split; assumption].
    + destruct H as [H1 H2]. split; [|eauto 8]. split; [exact H1|split; assumption].
    + destruct H as [H1 H2]. split; [|eauto 8]. split; [exact H1|split; assumption].
    + destruct H as (H1 & H2 & H3 & H4 & H5 & H6). intros go d1 mx El Em. apply add_current_line_spec in El. destruct go.
      * destruct El as (e & x & q & f & k & _ & _ & ->). unfold limit_of in Em. rewrite Hl in Em. injection Em as <-.
        split.
        -- split; [|split; [|exact C]].
           ++ apply fit_new; try assumption. unfold lim. rewrite accept_no_lines. cbn. rewrite C. reflexivity.
           ++ cbn [accept d_lines]. apply lines_fit_snoc; [exact B|]. rewrite <- lim_case.
              rewrite (flush_nl _ nl _ H6 H5). exact H1.
        -- exists t, y, ids. split; [exact Hp|]. unfold curpart. rewrite (proj2 (relimit_same _ nl)). exact H3.
      * destruct El as [_ ->]. exact B.
  - intros p i d cur t y ids _ _ [([A1 A2 A3 A4] & B & C) _]. split; [constructor; assumption|]. split; assumption.
  - intros p d cur go d1 _ (A & B & C) El. apply add_current_line_spec in El. destruct go.
    + destruct El as (e & x & q & f & k & _ & _ & ->). cbn [accept set_fin d_lines]. apply lines_fit_snoc; [exact B|].
      rewrite <- lim_case. exact (flush_fits _ _ _ _ _ A).
    + destruct El as [_ ->]. exact B.
Qed.

(** The width of the first line of a run, and of the others. *)
Definition first_limit (c : config) (d : dyn) (w : Q) : Q := (w - (if d_first d then c_indent c else 0))%Q.
Lemma run_width c d w h d' : c_list c = None -> run c d w h = Ok d' ->
  lines_fit (c_align c) (first_limit c d w) w (d_lines d').
Proof.
  intros Hl E. refine (run_induction _ _ _ _ _ _ _ _ (plain_ind c w (first_limit c d w) Hl) d w h d' _ E).
  split; [|split; [|reflexivity]].
  - constructor; try (cbn; discriminate).
    + apply new_line_lwf.
    + reflexivity.
  - intros i l Hi. cbn in Hi. destruct i; discriminate.
Qed.

(** ** With a list text, without line breaks, from the beginning *)

Definition list_W (c : config) (w ind : Q) (p : nat) (d : dyn) (cur : line) : Prop :=
  fit_inv (c_align c) (w - c_indent c - ind) (w - ind) d cur /\
  lines_fit (c_align c) (w - c_indent c - ind) (w - ind) (d_lines d) /\ d_width d = w /\
  d_listdone d = true /\ d_lindent d = Some ind.
(** The indent of the list text: given, or its width. *)
Definition list_indent (li : listinfo) (y : style) : Q :=
  match li_indent li with Some q => q | None => word_w text_w (li_style li y) (li_text li) end.
Fixpoint first_style (l : list cpart) : option style :=
  match l with CText _ y _ :: _ => Some y | _ :: r => first_style r | [] => None end.

Lemma first_style_skip content : forall p, (forall q, (q < p)%nat -> nth_error content q = Some COther) ->
  forall t y ids, nth_error content p = Some (CText t y ids) -> first_style content = Some y.
Proof.
  induction content as [|x content IH]; intros p H t y ids Hp; [destruct p; discriminate|]. destruct p as [|p].
  - cbn in Hp. injection Hp as ->. reflexivity.
  - assert (H0 := H 0%nat ltac:(lia)). cbn in H0. injection H0 as ->. cbn [first_style].
    apply (IH p) with (t := t) (ids := ids); [|exact Hp]. intros q Hq. apply (H (S q)). lia.
Qed.

Lemma list_ind c w li y0 : c_list c = Some li -> ~ In CBr (c_content c) -> first_style (c_content c) = Some y0 ->
  run_ind round3 text_w space_w fref c
  (fun p d cur =>
     (d_listdone d = false /\ d_lindent d = li_indent li /\ d_lines d = [] /\ d_width d = w /\
      cur = new_line (w - c_indent c)%Q (c_lh c) /\ forall q, (q < p)%nat -> nth_error (c_content c) q = Some COther) \/
     list_W c w (list_indent li y0) p d cur)
  (fun p i d cur => list_W c w (list_indent li y0) p d cur /\
     exists t y ids, nth_error (c_content c) p = Some (CText t y ids) /\ curpart cur y ids)
  (fun d => lines_fit (c_align c) (w - c_indent c - list_indent li y0) (w - list_indent li y0) (d_lines d)).
Proof.
  intros Hl Hbr Hy. set (ind := list_indent li y0). constructor.
  - intros p d cur Hp [(A & B & C & D & E & F)|H]; [left|right; exact H].
    repeat split; try assumption. intros q Hq. destruct (Nat.eq_dec q p) as [->|Hne]; [exact Hp|]. apply F. lia.
  - intros p d cur go d1 Hp. exfalso. apply Hbr. exact (nth_error_In _ _ Hp).
  - intros p d cur t y ids d1 cur1 Hp [(A & B & C & D & E & F)|(A & B & C & D & E)] Eb.
    + assert (Hyy : y = y0).
      { assert (H := first_style_skip _ _ F t y ids Hp). congruence. }
      subst y. subst cur. unfold begin_part in Eb. rewrite Hl, A in Eb.
      unfold setup_list, add_line_part in Eb. cbn [new_line l_next l_max with_next with_parts l_parts app bind] in Eb.
      cbn [lp_style new_part] in Eb. rewrite B in Eb. fold (list_indent li y0) in Eb.
      apply Ok_inj in Eb. apply pair_equal_spec in Eb as [<- <-].
      split.
      * unfold list_W. cbn [add_used d_lines d_width d_listdone d_lindent]. split; [|repeat split; try assumption; try reflexivity].
        -- constructor; try (cbn; discriminate).
           ++ constructor; try discriminate; try (intros; reflexivity).
              ** constructor.
              ** constructor; [apply new_part_ok|constructor].
              ** intros n [= <-]. split; reflexivity.
           ++ unfold lim, no_lines. cbn. rewrite C. reflexivity.
        -- rewrite C. intros i l Hi. destruct i; discriminate.
      * exists t, y0, ids. split; [exact Hp|]. exists [], (new_part y0 ids). repeat split.
    + destruct A as [A1 A2 A3 A4].
      destruct (begin_part_spec _ _ _ _ _ _ _ _ Eb) as (Hs & _ & _ & _ & _ & Hst & _).
      destruct (begin_part_lwf _ _ _ _ _ _ _ _ _ Eb A1) as (Hwf & Hcp & Hct & Hot).
      assert (Hmm : l_max cur1 = l_max cur /\ d_listdone d1 = true /\ d_lindent d1 = Some ind).
      { unfold begin_part in Eb. rewrite Hl, D in Eb. cbn [bind] in Eb. injection Eb as <- <-. repeat split; assumption. }
      destruct Hmm as (Hm & Hd1 & Hd2).
      assert (Hlim : lim (w - c_indent c - ind) (w - ind) d1 = lim (w - c_indent c - ind) (w - ind) d)
        by (rewrite !lim_case, (sp_lines _ _ Hs); reflexivity).
      split; [|eauto 8]. split; [|rewrite (sp_lines _ _ Hs), (sp_width _ _ Hs); repeat split; assumption].
      constructor; rewrite ?Hlim, ?Hct, ?Hot, ?Hst, ?Hm; assumption.
  - intros p i d cur t y ids w0 st cur1 Hp Hi [(A & B & C & D1 & D2) (t' & y' & ids' & Hp' & Hcp)] E.
    rewrite Hp in Hp'. injection Hp' as <- <- <-.
    assert (Hg : good_word w0) by (apply (good_token t), (nth_error_In _ i), Hi).
    pose proof (fit_word _ _ _ _ _ _ _ _ _ _ A Hcp Hg E) as H. destruct st as [| | |nl].
    + destruct H as [H1 H2]. split; [|eauto 8]. destruct H1. split; [constructor; assumption|repeat split; assumption].
    + destruct H as [H1 H2]. split; [|eauto 8]. split; [exact H1|repeat split; assumption].
    + destruct H as [H1 H2]. split; [|eauto 8]. split; [exact H1|repeat split; assumption].
    + destruct H as (H1 & H2 & H3 & H4 & H5 & H6). intros go d1 mx El Em. apply add_current_line_spec in El. destruct go.
      * destruct El as (e & x & q & f & k & _ & _ & ->). unfold limit_of in Em. rewrite Hl in Em.
        cbn [accept d_lindent d_width] in Em. rewrite D2 in Em. injection Em as <-.
        split.
        -- split; [|split; [|repeat split; assumption]].
           ++ apply fit_new; try assumption. unfold lim. rewrite accept_no_lines. rewrite C. reflexivity.
           ++ cbn [accept d_lines]. apply lines_fit_snoc; [exact B|]. rewrite <- lim_case.
              rewrite (flush_nl _ nl _ H6 H5). exact H1.
        -- exists t, y, ids. split; [exact Hp|]. unfold curpart. rewrite (proj2 (relimit_same _ nl)). exact H3.
      * destruct El as [_ ->]. exact B.
  - intros p i d cur t y ids _ _ [([A1 A2 A3 A4] & B & C & D1 & D2) _]. right. split; [constructor; assumption|].
    repeat split; assumption.
  - intros p d cur go d1 Hp [(A & B & C & D & E & F)|(A & B & C & D1 & D2)] El; apply add_current_line_spec in El.
    + exfalso. clear -Hy Hp F. revert p Hp F. induction (c_content c) as [|x l IH]; intros p Hp F; [discriminate|].
      destruct p as [|p]; [cbn in Hp; lia|].
      assert (H0 := F 0%nat ltac:(lia)). cbn in H0. injection H0 as ->. cbn in Hy.
      apply (IH Hy p); [cbn in Hp; lia|]. intros q Hq. apply (F (S q)). lia.
    + destruct go.
      * destruct El as (e & x & q & f & k & _ & _ & ->). cbn [accept set_fin d_lines]. apply lines_fit_snoc; [exact B|].
        rewrite <- lim_case. exact (flush_fits _ _ _ _ _ A).
      * destruct El as [_ ->]. exact B.
Qed.
Lemma fresh_list_width c li y0 w h d' : c_list c = Some li -> ~ In CBr (c_content c) -> first_style (c_content c) = Some y0 ->
  run c (fresh c) w h = Ok d' ->
  lines_fit (c_align c) (w - c_indent c - list_indent li y0) (w - list_indent li y0) (d_lines d').
Proof.
  intros Hl Hbr Hy E.
  refine (run_induction _ _ _ _ _ _ _ _ (list_ind c w li y0 Hl Hbr Hy) (fresh c) w h d' _ E).
  left. cbn. rewrite Hl. repeat split. intros q Hq. lia.
Qed.
End Width.
