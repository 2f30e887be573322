(** Spaces in lines (C72). *)
From Coq Require Import String QArith Lqa Lia.
From Verif Require Import Py PyStr Gfx TextLayout TextProofs TextWords TextOrder TextFit TextWidth.
Open Scope list_scope.

(** Specification.  Two spaces one after the other in a text. *)
Definition double_space (ts : list tok) : Prop := exists a y y' b, ts = a ++ TSpace y :: TSpace y' :: b.
Definition begins_blank (ts : list tok) : Prop := exists y r, ts = TSpace y :: r.
Definition ends_blank (ts : list tok) : Prop := exists r y, ts = r ++ [TSpace y].

Lemma double_app a b : double_space (a ++ b) -> double_space a \/ double_space b \/ (ends_blank a /\ begins_blank b).
Proof.
  revert b. induction a as [|t a IH]; intros b (x & y & y' & z & E); [right; left; now exists x, y, y', z|].
  destruct x as [|t' x].
  - cbn in E. injection E as -> E. destruct a as [|t a].
    + cbn in E. right. right. split; [exists [], y; reflexivity|]. exists y', z. exact E.
    + cbn in E. injection E as -> E. left. exists [], y, y', a. reflexivity.
  - cbn in E. injection E as -> E. destruct (IH b) as [(x1 & y1 & y2 & z1 & ->)|[H|[(r & y0 & ->) H]]].
    + now exists x, y, y', z.
    + left. now exists (t' :: x1), y1, y2, z1.
    + tauto.
    + right. right. split; [now exists (t' :: r), y0|exact H].
Qed.
Lemma double_l a b : double_space a -> double_space (a ++ b).
Proof. intros (x & y & y' & z & ->). exists x, y, y', (z ++ b). rewrite <- app_assoc. reflexivity. Qed.
Lemma double_r a b : double_space b -> double_space (a ++ b).
Proof. intros (x & y & y' & z & ->). exists (a ++ x), y, y', z. rewrite <- app_assoc. reflexivity. Qed.
Lemma words_no_double ts : forallb is_word ts = true -> ~ double_space ts.
Proof. intros H (a & y & y' & b & ->). rewrite forallb_app in H. apply andb_true_iff in H as [_ H]. discriminate. Qed.
Lemma words_no_begin ts : forallb is_word ts = true -> ~ begins_blank ts.
Proof. intros H (y & r & ->). discriminate. Qed.
Lemma words_no_end ts : forallb is_word ts = true -> ~ ends_blank ts.
Proof. intros H (r & y & ->). rewrite forallb_app in H. apply andb_true_iff in H as [_ H]. discriminate. Qed.
Lemma one_no_double t : ~ double_space [t].
Proof. intros (a & y & y' & b & E). apply (f_equal (@List.length _)) in E. rewrite app_length in E. cbn in E. lia. Qed.
Lemma begins_app a b : a <> [] -> begins_blank (a ++ b) -> begins_blank a.
Proof. destruct a as [|t a]; [congruence|]. intros _ (y & r & E). cbn in E. injection E as -> E. now exists y, a. Qed.
Lemma ends_app a b : b <> [] -> ends_blank (a ++ b) -> ends_blank b.
Proof.
  intros Hb (r & y & E). destruct (snoc_cases b) as [->|(i & x & ->)]; [congruence|].
  rewrite app_assoc in E. apply app_inj_tail in E as [_ ->]. now exists i, y.
Qed.

Section Space.
Variable round3 : Q -> Q.
Variable text_w : fkey -> str -> Q.
Variable space_w : fkey -> Q.
Variable fref : fkey -> str.
Notation run := (run round3 text_w space_w fref).
Notation lwf := (lwf text_w space_w).
Variable c : config.
Notation content := (c_content c).

(** A line that is written, and how. *)
Definition line_ok (l : line) (k : mark) : Prop :=
  ~ begins_blank (ltoks (l_parts l)) /\
  (~ double_space (all_toks content) ->
    ~ double_space (ltoks (l_parts l)) /\ (k_last k = false -> ~ ends_blank (ltoks (l_parts l)))).
Definition lines_ok (ls : list line) (ks : list mark) : Prop := Forall2 line_ok ls ks.
(** Without line breaks only the line at the end of the text may end with a
    space. *)
Definition no_end (ls : list line) : Prop :=
  ~ double_space (all_toks content) -> ~ In CBr content -> Forall (fun l => ~ ends_blank (ltoks (l_parts l))) ls.

Record space_inv (p i : nat) (d : dyn) (cur : line) : Prop := {
  si_wf : lwf cur;
  si_first : l_started cur = false -> l_first cur = true -> otoks cur <> [];
  si_begin : ~ begins_blank (ctoks cur);
  si_double : ~ double_space (all_toks content) -> ~ double_space (ctoks cur);
  si_open : l_started cur = true -> otoks cur = [] -> ends_blank (before content p i);
  si_lines : lines_ok (d_lines d) (d_marks d);
  si_ends : no_end (d_lines d);
  si_fin : d_fin d = false }.
Definition space_G (p : nat) (d : dyn) (cur : line) : Prop := space_inv p (d_word d) d cur /\ pos_ok c p (d_word d).
Definition space_W (p i : nat) (d : dyn) (cur : line) : Prop :=
  space_inv p i d cur /\ exists t y ids, nth_error content p = Some (CText t y ids) /\ curpart cur y ids.
Definition space_F (d : dyn) : Prop := lines_ok (d_lines d) (d_marks d) /\
  exists init rest, d_lines d = init ++ rest /\ no_end init /\ (List.length rest <= 1)%nat /\ (d_fin d = false -> rest = []).

Lemma started_ends cur : lwf cur -> l_started cur = true -> ends_blank (ctoks cur).
Proof.
  intros Hwf Es. destruct (wf_started _ _ _ Hwf Es) as (i & x & ws & f & r & A & B & _).
  unfold ctoks. rewrite A, ltoks_app, ltoks_one. unfold ptoks. rewrite B, map_app, app_assoc.
  eexists _, (lp_style x). reflexivity.
Qed.

(** A line with what waits put into it. *)
Lemma flush_ok cur k : lwf cur -> ~ begins_blank (ctoks cur) ->
  (~ double_space (all_toks content) -> ~ double_space (ctoks cur)) -> k_last k = true -> line_ok (flush cur true) k.
Proof.
  intros Hwf Hb Hd Hk. unfold line_ok. rewrite flush_parts, ltoks_app. fold (ctoks cur) (otoks cur).
  pose proof (wf_words _ _ _ Hwf) as Hw. split.
  - destruct (ctoks cur) as [|t r] eqn:Ec; [exact (words_no_begin _ Hw)|]. intros H. apply Hb. apply begins_app in H; [exact H|discriminate].
  - intros Hnd. split; [|congruence]. intros H. apply double_app in H as [H|[H|[_ H]]].
    + exact (Hd Hnd H).
    + exact (words_no_double _ Hw H).
    + exact (words_no_begin _ Hw H).
Qed.
Lemma lines_snoc ls ks l k : lines_ok ls ks -> line_ok l k -> lines_ok (ls ++ [l]) (ks ++ [k]).
Proof. intros H1 H2. apply Forall2_app; [exact H1|]. constructor; [exact H2|constructor]. Qed.

Lemma refuse_ok d : lines_ok (d_lines d) (d_marks d) -> no_end (d_lines d) -> space_F (refuse d).
Proof. intros H K. split; [exact H|]. exists (d_lines d), []. rewrite app_nil_r. repeat split; try assumption. cbn. lia. Qed.
Lemma space_new p i d m t : lines_ok (d_lines d) (d_marks d) -> no_end (d_lines d) -> d_fin d = false -> space_inv p i d (new_line m t).
Proof.
  intros H He Hf. constructor; try (cbn; discriminate).
  - apply new_line_lwf.
  - intros (y & r & E). discriminate.
  - intros _ (a & y & y' & b & E). destruct a; discriminate.
  - exact H.
  - exact He.
  - exact Hf.
Qed.

Theorem space_ind : run_ind round3 text_w space_w fref c space_G space_W space_F.
Proof.
  constructor.
  - intros p d cur Hp [[A B C D E F Fe Ff] Hpos].
    assert (Hw : d_word d = 0%nat).
    { destruct (d_word d); [reflexivity|]. destruct (Hpos (Nat.neq_succ_0 _)) as (t & y & ids & H). congruence. }
    assert (HB : before content (S p) (d_word d) = before content p (d_word d)).
    { rewrite Hw, before_S. unfold toks_at. rewrite Hp. cbn. now rewrite app_nil_r. }
    split; [|intros Hn; congruence]. constructor; try assumption. now rewrite HB.
  - intros p d cur go d1 Hp [[A B C D E F Fe Ff] Hpos] El.
    assert (Hw : d_word d = 0%nat).
    { destruct (d_word d); [reflexivity|]. destruct (Hpos (Nat.neq_succ_0 _)) as (t & y & ids & H). congruence. }
    apply add_current_line_spec in El. destruct go.
    + destruct El as (e & x & q & f & k & _ & _ & ->). split; [|cbn; congruence]. apply space_new.
      * cbn [accept set_added d_lines d_marks]. apply lines_snoc; [exact F|]. apply flush_ok; try assumption. reflexivity.
      * intros _ Hno. destruct Hno. exact (nth_error_In _ _ Hp).
      * exact Ff.
    + destruct El as [_ ->]. exact (refuse_ok (set_added d (S p) 0) F Fe).
  - intros p d cur t y ids d1 cur1 Hp [[A B C D E F Fe Ff] Hpos] Eb.
    destruct (begin_part_spec _ _ _ _ _ _ _ _ Eb) as (Hs & _ & _ & _ & _ & Hst & Hfi & _).
    destruct (begin_part_lwf _ _ _ _ _ _ _ _ _ Eb A) as (Hwf & Hcp & Hct & Hot). split; [|eauto 8].
    constructor; rewrite ?Hct, ?Hot, ?Hst, ?Hfi, ?(sp_word _ _ Hs), ?(sp_lines _ _ Hs), ?(sp_marks _ _ Hs), ?(sp_fin _ _ Hs); assumption.
  - intros p i d cur t y ids w st cur1 Hp Hi [[A B C D E F Fe Ff] (t' & y' & ids' & Hp' & Hcp)] Ea.
    rewrite Hp in Hp'. injection Hp' as <- <- <-.
    assert (Hg : good_word w) by (apply (good_token t), (nth_error_In _ i), Hi).
    destruct (add_word_spec text_w space_w (c_align c) cur w y ids A Hcp Hg) as (st' & cur1' & E' & _ & _ & H).
    rewrite Ea in E'. injection E' as <- <-.
    assert (Hn : nth_error (toks_at content p) i = Some (tok_of y ids w)).
    { unfold toks_at. rewrite Hp. cbn. apply map_nth_error. exact Hi. }
    assert (HB : before content p (S i) = before content p i ++ [tok_of y ids w]) by (apply before_step; exact Hn).
    assert (Hend : isspace w = true -> ends_blank (before content p (S i))).
    { intros Ew. rewrite HB. unfold tok_of. rewrite Ew. now exists (before content p i), y. }
    destruct st as [| | |nl].
    + destruct H as (Hwf & Hcp1 & _ & H). split; [|eauto 8]. destruct (isspace w) eqn:Ew.
      * destruct H as (Hfl & Hst & Hot & Hct). pose proof (wf_words _ _ _ A) as Hww.
        constructor; cbn [set_added d_lines d_marks d_fin]; try assumption.
        -- congruence.
        -- rewrite Hct. destruct (l_started cur) eqn:Es.
           ++ destruct (started_ends cur A Es) as (r & y0 & Er). intros Hbl.
              apply begins_app in Hbl; [now apply C|]. rewrite Er. destruct r; discriminate.
           ++ unfold ctoks. rewrite (wf_stopped _ _ _ A Es). cbn [ltoks flat_map app]. intros Hbl.
              apply begins_app in Hbl; [exact (words_no_begin _ Hww Hbl)|]. exact (B eq_refl Hfl).
        -- intros Hnd. rewrite Hct. intros Hdb. apply double_app in Hdb as [Hdb|[Hdb|[_ Hdb]]].
           ++ exact (D Hnd Hdb).
           ++ apply double_app in Hdb as [Hdb|[Hdb|[Hdb _]]].
              ** exact (words_no_double _ Hww Hdb).
              ** exact (one_no_double _ Hdb).
              ** exact (words_no_end _ Hww Hdb).
           ++ destruct (otoks cur) as [|o1 o] eqn:Eo.
              ** (* a space after a space *)
                 assert (Hst0 : l_started cur = true).
                 { destruct (l_started cur); [reflexivity|]. now destruct (B eq_refl Hfl). }
                 destruct (E Hst0 eq_refl) as (r & y0 & Er). apply Hnd.
                 rewrite <- (before_after content p (S i)). apply double_l. rewrite HB, Er.
                 exists r, y0, y, []. rewrite <- app_assoc. unfold tok_of. rewrite Ew. reflexivity.
              ** apply begins_app in Hdb; [|discriminate]. exact (words_no_begin _ Hww Hdb).
        -- intros _ _. exact (Hend eq_refl).
      * destruct H as (Hst0 & Hst & Hct & Hot). constructor; cbn [set_added d_lines d_marks d_fin]; try assumption.
        -- intros _ _. rewrite Hot. destruct (otoks cur); discriminate.
        -- rewrite Hct. intros (y0 & r & E0). discriminate.
        -- intros _. rewrite Hct. intros (a0 & y0 & y1 & b0 & E0). destruct a0; discriminate.
        -- congruence.
    + destruct H as (Ew & -> & Hot). split; [|eauto 8]. constructor; try assumption. intros _ _. exact (Hend Ew).
    + destruct H as (Hwf & Hcp1 & _ & Ew & Hst0 & Hst & Hparts & Hot & _). split; [|eauto 8].
      assert (Hct : ctoks cur1 = ctoks cur) by (unfold ctoks; now rewrite Hparts).
      constructor; rewrite ?Hct; try assumption.
      * congruence.
      * intros _ Hn0. rewrite Hot in Hn0. destruct (otoks cur); discriminate.
    + intros go d1 mx El Em. apply add_current_line_spec in El.
      destruct H as (Ew & Hst0 & Hwfn & Hcpn & Hpn & Hsn & Hfn & Hnx & _ & _ & Hot & (y1 & Hct) & Hok & _).
      destruct go.
      * destruct El as (e & x & q & f & k & _ & _ & ->). set (b := _ && _) in *.
        destruct (relimit_same mx nl) as [R1 R2].
        assert (R4 : otoks (relimit mx nl) = otoks nl) by (unfold otoks; now rewrite R2).
        split; [|exists t, y, ids; split; [exact Hp|]; unfold curpart; rewrite R2; exact Hcpn].
        constructor; rewrite ?R1, ?R4.
        -- apply relimit_lwf. exact Hwfn.
        -- intros _ _. rewrite Hot. destruct (otoks cur); discriminate.
        -- unfold ctoks. rewrite Hpn. intros (y0 & r & E0). discriminate.
        -- intros _. unfold ctoks. rewrite Hpn. intros (a0 & y0 & y2 & b0 & E0). destruct a0; discriminate.
        -- unfold relimit. cbn. congruence.
        -- cbn [accept d_lines d_marks]. apply lines_snoc; [exact F|].
           unfold line_ok. rewrite (flush_nl cur1 nl b Hnx Hpn). fold (ctoks cur1).
           split.
           ++ intros (y0 & r & E0). apply C. rewrite Hct, E0. eexists y0, _. reflexivity.
           ++ intros Hnd. specialize (D Hnd). rewrite Hct in D. split.
              ** intros Hdb. apply D. now apply double_l.
              ** intros _ (r & y0 & E0). apply D. rewrite E0, <- app_assoc. exists r, y0, y1, []. reflexivity.
        -- cbn [accept d_lines]. intros Hnd Hno. apply Forall_app. split; [exact (Fe Hnd Hno)|]. constructor; [|constructor].
           rewrite (flush_nl cur1 nl b Hnx Hpn). fold (ctoks cur1). specialize (D Hnd). rewrite Hct in D.
           intros (r & y0 & E0). apply D. rewrite E0, <- app_assoc. exists r, y0, y1, []. reflexivity.
        -- exact Ff.
      * destruct El as [_ ->]. exact (refuse_ok d F Fe).
  - intros p i d cur t y ids Hp Hi [[A B C D E F Fe Ff] _]. split; [|cbn; congruence].
    constructor; cbn [set_word d_word d_lines d_marks d_fin]; try assumption.
    rewrite <- (before_full content p i); [exact E|]. unfold toks_at. rewrite Hp. cbn. rewrite map_length. exact Hi.
  - intros p d cur go d1 Hp [[A B C D E F Fe Ff] _] El. apply add_current_line_spec in El. destruct go.
    + destruct El as (e & x & q & f & k & _ & _ & ->). unfold space_F. cbn [set_fin accept d_lines d_marks d_fin].
      split; [apply lines_snoc; [exact F|]; apply flush_ok; try assumption; reflexivity|].
      exists (d_lines d), [flush cur true]. repeat split; [exact Fe|cbn; lia|discriminate].
    + destruct El as [_ ->]. exact (refuse_ok d F Fe).
Qed.

Lemma run_spaces done d w h d' : paused c done d -> run c d w h = Ok d' -> space_F d'.
Proof.
  intros (Hf & [Hr Hp] & H1 & H2) E.
  refine (run_induction round3 text_w space_w fref c _ _ _ space_ind d w h d' _ E).
  split; [|exact Hp]. apply space_new; [constructor|intros _ _; constructor|exact Hf].
Qed.
End Space.
