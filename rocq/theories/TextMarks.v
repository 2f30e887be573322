(** Where the lines of a paragraph start and how their spaces are stretched
    (C37, C38). *)
From Coq Require Import String QArith Lqa Lia.
From Verif Require Import Py PyStr Gfx TextLayout TextProofs TextWords TextOrder TextFit TextWidth TextEmit.
Open Scope list_scope.

Lemma words_before_stop : forall ts d o D O, scan d o ts = (D, O) ->
  (exists pre ws, ts = pre ++ ws /\ scan d o pre = (D, []) /\ forallb is_word ws = true) \/
  (forallb is_word ts = true /\ d = D).
Proof.
  intros ts. induction ts as [|t ts IH] using rev_ind; intros d o D O E.
  - right. cbn in *. split; congruence.
  - rewrite scan_app in E. destruct (scan d o ts) as [d1 o1] eqn:Es. destruct t as [y ids w|y|].
    + cbn in E. injection E as <- <-. destruct (IH _ _ _ _ Es) as [(pre & ws & -> & H1 & H2)|[H1 H2]].
      * left. exists pre, (ws ++ [TWord y ids w]). rewrite <- app_assoc. split; [reflexivity|]. split; [exact H1|].
        rewrite forallb_app, H2. reflexivity.
      * right. rewrite forallb_app, H1. split; [reflexivity|exact H2].
    + left. exists (ts ++ [TSpace y]), []. rewrite app_nil_r. split; [reflexivity|]. split; [|reflexivity].
      rewrite scan_app, Es. cbn [scan] in E |- *. injection E as <- <-. reflexivity.
    + left. exists (ts ++ [TBr]), []. rewrite app_nil_r. split; [reflexivity|]. split; [|reflexivity].
      rewrite scan_app, Es. cbn [scan] in E |- *. injection E as <- <-. reflexivity.
Qed.

Section Marks.
Variable round3 : Q -> Q.
Variable text_w : fkey -> str -> Q.
Variable space_w : fkey -> Q.
Variable fref : fkey -> str.
Notation run := (run round3 text_w space_w fref).
Notation width_of := (width_of text_w space_w).
Notation parts_ok := (parts_ok text_w space_w).

(** ** Specification *)

(** The line starts after the indent if it is the first of the paragraph; a
    centered or right-aligned line is moved by half of the free space or by
    all of it. *)
Definition line_indent (c : config) (first : bool) : Q := if first then c_indent c else 0%Q.
Definition line_start (c : config) (first : bool) (w : Q) (l : line) : Q :=
  (line_indent c first + match c_align c with
                         | ACenter => (w - width_of 1 (ltoks (l_parts l))) / 2
                         | ARight => w - width_of 1 (ltoks (l_parts l))
                         | _ => 0
                         end)%Q.
(** A line may be left unjustified at the end of the paragraph, before a
    forced break, and when nothing but the last word of the paragraph is
    left. *)
Definition last_stop (content : list cpart) (shown : list chunk) : Prop :=
  exists pre post, all_toks content = pre ++ post /\ chunks pre = shown /\
    ((exists p, pre = p ++ [TBr]) \/ forallb is_word post = true).
Definition has_space (l : line) : Prop := exists y, In (TSpace y) (ltoks (l_parts l)).

Record line_ok (c : config) (done : list chunk) (first : bool) (w : Q) (ls : list line) (l : line) (k : mark) : Prop := {
  lk_parts : parts_ok (l_parts l);
  lk_x : (k_x k == line_start c first w l)%Q;
  lk_plain : c_align c <> AJust \/ k_last k = true \/ (spaces_w (l_parts l) == 0)%Q -> k_factor k = 1%Q;
  lk_fill : c_align c = AJust -> k_last k = false -> ~ (spaces_w (l_parts l) == 0)%Q ->
    (k_x k + width_of (k_factor k) (ltoks (l_parts l)) == w)%Q;
  lk_last : k_last k = true -> last_stop (c_content c) (done ++ lc (ls ++ [l])) }.
Fixpoint lines_ok (c : config) (done : list chunk) (first : bool) (w : Q) (ls : list line) (lks : list (line * mark)) : Prop :=
  match lks with
  | [] => True
  | (l, k) :: r => line_ok c done first w ls l k /\ lines_ok c done false w (ls ++ [l]) r
  end.
Lemma lines_ok_snoc c done w lks : forall first ls l k,
  lines_ok c done first w ls (lks ++ [(l, k)]) <->
  lines_ok c done first w ls lks /\
  line_ok c done (match lks with [] => first | _ => false end) w (ls ++ map fst lks) l k.
Proof.
  induction lks as [|[l0 k0] r IH]; intros first ls l k; cbn [app lines_ok map fst].
  - rewrite app_nil_r. tauto.
  - rewrite IH, <- app_assoc. cbn [app]. destruct r; tauto.
Qed.

(** ** The invariant *)

Variable c : config.
Hypothesis no_list : c_list c = None.
Variable done : list chunk.
Variable d0 : dyn.
Variable w : Q.

Record marks_inv (d : dyn) : Prop := {
  mi_width : d_width d = w;
  mi_len : List.length (d_marks d) = List.length (d_lines d);
  mi_started : e_started (d_em d) = negb (no_lines d);
  mi_first : d_first d = d_first d0 && no_lines d;
  mi_lines : lines_ok c done (d_first d0) w [] (combine (d_lines d) (d_marks d)) }.

Lemma just_mark (a : align) (last : bool) (sw : Q) :
  (a <> AJust \/ last = true \/ (sw == 0)%Q) <-> negb (is_just a) || last || Qeq_bool sw 0 = true.
Proof.
  rewrite !orb_true_iff. destruct a; cbn; split; intros H; try (left; left; reflexivity);
    try (left; discriminate).
  - destruct H as [H|[H|H]]; [congruence|auto|right]. now apply Qeq_bool_iff.
  - destruct H as [[H|H]|H]; [discriminate|auto|]. apply Qeq_bool_iff in H. auto.
Qed.

Lemma mark_accept d cur b e x q f k : marks_inv d -> parts_ok (l_parts (flush cur b)) ->
  (b = true -> last_stop (c_content c) (done ++ lc (d_lines d ++ [flush cur b]))) ->
  add_line_to_stream round3 space_w fref c d (flush cur b) b = Ok (e, x, q, f, k) ->
  marks_inv (accept c d (flush cur b) (mkMark b x q) e f k).
Proof.
  intros [A B S F L] Hp Hl Es. pose proof (line_y _ _ _ _ _ _ _ _ _ _ _ _ Es) as [Hst _].
  unfold add_line_to_stream in Es.
  destruct (start_line _ _ _ _ _ _) as [[[[[e1 x1] q1] f1] k1]|er] eqn:E; [|discriminate]. cbn [bind] in Es.
  apply Ok_inj in Es. rewrite !pair_equal_spec in Es. destruct Es as [[[[He ->] ->] ->] ->].
  set (l := flush cur b) in *.
  unfold start_line in E. rewrite no_list, S in E. cbn [bind] in E.
  set (ww := words_w (l_parts l)) in *. set (sw := spaces_w (l_parts l)) in *.
  assert (Hww : (ww + sw == width_of 1 (ltoks (l_parts l)))%Q)
    by (rewrite <- (line_width text_w space_w _ 1%Q Hp); unfold ww, sw; ring).
  set (ign := _ || Qeq_bool sw 0) in *.
  set (first := match combine (d_lines d) (d_marks d) with [] => d_first d0 | _ => false end).
  assert (Hfirst : d_first d = first).
  { unfold first. rewrite F. unfold no_lines. destruct (d_lines d) as [|l0 r]; [cbn; now rewrite andb_true_r|].
    rewrite andb_false_r. destruct (d_marks d); [discriminate|reflexivity]. }
  assert (Hx : (x == line_start c first w l)%Q /\ f = false /\
     (q == (if ign then 1 else (w - ww - 0 - line_indent c first) / sw))%Q /\ (ign = true -> q = 1%Q)).
  { unfold line_start, line_indent. rewrite <- A.
    destruct (no_lines d) eqn:En; cbn [negb] in E.
    - rewrite Hfirst in E. destruct first; apply Ok_inj in E; rewrite !pair_equal_spec in E;
        destruct E as [[[[_ <-] <-] <-] _].
      + split; [destruct (c_align c); cbn [is_rc]; rewrite <- ?Hww; field|]. split; [reflexivity|].
        destruct ign; split; try reflexivity. discriminate.
      + split; [destruct (c_align c); cbn [is_rc]; rewrite <- ?Hww; field|]. split; [reflexivity|].
        destruct ign; split; try reflexivity; try discriminate. apply Qdiv_comp; [ring|reflexivity].
    - rewrite andb_false_r in F. rewrite F in Hfirst. rewrite <- Hfirst. rewrite F in E.
      apply Ok_inj in E; rewrite !pair_equal_spec in E; destruct E as [[[[_ <-] <-] <-] _].
      split; [destruct (c_align c); cbn [is_rc]; rewrite <- ?Hww; field|]. split; [reflexivity|].
      destruct ign; split; try reflexivity; try discriminate. apply Qdiv_comp; [ring|reflexivity]. }
  destruct Hx as (Hx & -> & Hq & Hq1). clear E.
  assert (Hne : no_lines (accept c d l (mkMark b x q) e false k) = false) by (unfold no_lines; cbn; destruct (d_lines d); reflexivity).
  constructor.
  - exact A.
  - cbn [accept d_lines d_marks]. rewrite !app_length. cbn. congruence.
  - rewrite Hne. exact Hst.
  - rewrite Hne, andb_false_r. reflexivity.
  - cbn [accept d_lines d_marks]. rewrite combine_snoc by exact B. apply lines_ok_snoc. split; [exact L|].
    fold first. cbn [app]. rewrite map_fst_combine by exact B.
    constructor; cbn [k_x k_factor k_last].
    + exact Hp.
    + exact Hx.
    + intros H. apply just_mark in H. exact (Hq1 H).
    + intros Ha Hb Hsw. subst b.
      assert (Hi : ign = false).
      { destruct ign eqn:Ei; [|reflexivity]. apply just_mark in Ei. destruct Ei as [Ei|[Ei|Ei]]; [congruence|discriminate|contradiction]. }
      rewrite Hi in Hq. rewrite Hx, <- (line_width text_w space_w _ q Hp), Hq. fold ww sw. unfold line_start. rewrite Ha.
      fold sw in Hsw. field. exact Hsw.
    + exact Hl.
Qed.

Lemma marks_core d d1 : core d = core d1 -> marks_inv d -> marks_inv d1.
Proof.
  unfold core. intros E. rewrite !pair_equal_spec in E. destruct E as [[[[[[[H1 H2] H3] H4] H5] H6] H7] H8].
  intros [A B C D E]. constructor; rewrite <- ?H1, <- ?H3, <- ?H6, <- ?H7, <- ?H8; try assumption.
  - rewrite C. unfold no_lines. rewrite H6. reflexivity.
  - rewrite D. unfold no_lines. rewrite H6. reflexivity.
Qed.

Lemma stop_of_scan pre post D : all_toks (c_content c) = pre ++ post -> scan [] [] pre = (D, []) ->
  (exists p, pre = p ++ [TBr]) \/ forallb is_word post = true -> last_stop (c_content c) D.
Proof.
  intros H1 H2 H3. exists pre, post. split; [exact H1|]. split; [|exact H3].
  unfold chunks. rewrite H2. reflexivity.
Qed.
Lemma flush_ok cur b : lwf text_w space_w cur -> parts_ok (l_parts (flush cur b)).
Proof.
  intros H. rewrite flush_parts. destruct b; [|apply H]. apply Forall_app. split; apply H.
Qed.
Lemma before_prefix content p i : exists post, all_toks content = before content p i ++ post.
Proof. exists (after content p i). symmetry. apply before_after. Qed.

Theorem marks_ind : run_ind round3 text_w space_w fref c
  (fun p d cur => order_G text_w space_w c done p d cur /\ marks_inv d)
  (fun p i d cur => order_W text_w space_w c done p i d cur /\ marks_inv d)
  marks_inv.
Proof.
  pose proof (order_ind round3 text_w space_w fref c done) as O. constructor.
  - intros p d cur Hp [HG HM]. split; [exact (ri_other _ _ _ _ _ _ _ _ O p d cur Hp HG)|exact HM].
  - intros p d cur go d1 Hp [HG HM] El.
    pose proof (ri_br _ _ _ _ _ _ _ _ O p d cur go d1 Hp HG El) as H.
    apply add_current_line_spec in El. destruct go.
    + destruct El as (e & x & q & f & k & _ & Es & ->). split; [exact H|].
      apply mark_accept; [exact (marks_core d (set_added d (S p) 0) eq_refl HM)| | |exact Es].
      * apply flush_ok. apply HG.
      * intros _. destruct H as [[_ _ [Hr _] _ _] _]. cbn [accept set_added d_lines d_lpart d_lword d_apart d_aword] in Hr.
        destruct (before_prefix (c_content c) (S p) 0) as [post Hpost].
        apply (stop_of_scan _ _ _ Hpost Hr). left. rewrite before_S. unfold toks_at. rewrite Hp. eexists. reflexivity.
    + destruct El as [_ ->]. apply (marks_core d); [reflexivity|exact HM].
  - intros p d cur t y ids d1 cur1 Hp [HG HM] Eb. split; [exact (ri_text _ _ _ _ _ _ _ _ O p d cur t y ids d1 cur1 Hp HG Eb)|].
    destruct (begin_part_spec _ _ _ _ _ _ _ _ Eb) as (Hs & _). refine (marks_core d d1 _ HM). unfold core. destruct Hs. congruence.
  - intros p i d cur t y ids wd st cur1 Hp Hi [HW HM] E.
    pose proof (ri_word _ _ _ _ _ _ _ _ O p i d cur t y ids wd st cur1 Hp Hi HW E) as H.
    destruct st as [| | |nl]; try (split; [exact H|exact HM]).
    + split; [exact H|apply (marks_core d); [reflexivity|exact HM]].
    + intros go d1 mx El Em. specialize (H go d1 mx El Em). apply add_current_line_spec in El. destruct go.
      * destruct El as (e & x & q & f & k & _ & Es & ->). split; [exact H|].
        destruct HW as [Ho (t' & y' & ids' & Hp' & Hcp)]. rewrite Hp in Hp'. injection Hp' as <- <- <-.
        assert (Hg : good_word wd) by (apply (good_token t), (nth_error_In _ i), Hi).
        destruct (add_word_spec text_w space_w (c_align c) cur wd y ids (or_wf _ _ _ _ _ _ _ _ Ho) Hcp Hg)
          as (st' & cur1' & E' & _ & _ & H2). rewrite E in E'. injection E' as <- <-.
        destruct H2 as (Ew & Hst0 & Hwfn & Hcpn & Hpn & Hsn & Hfn & Hnx & _ & _ & Hot & (y1 & Hct) & Hok & _).
        apply mark_accept; [exact HM| | |exact Es].
        -- rewrite (flush_nl cur1 nl _ Hnx Hpn). exact Hok.
        -- intros Hb. apply andb_true_iff in Hb as [Hb1 Hb2]. apply Nat.eqb_eq in Hb1, Hb2.
           destruct H as [[_ Hsc _ _ _] _]. cbn [accept d_lines] in Hsc.
           assert (R3 : chk (relimit mx nl) = []).
           { unfold chk. destruct (relimit_same mx nl) as [R1 _]. rewrite R1. unfold ctoks. rewrite Hpn. reflexivity. }
           rewrite R3, app_nil_r in Hsc.
           assert (HB : before (c_content c) p (S i) = all_toks (c_content c)).
           { rewrite (before_full (c_content c) p (S i)), Hb1.
             - unfold before. rewrite firstn_all2 by reflexivity.
               unfold toks_at. rewrite (proj2 (nth_error_None _ _)) by reflexivity. cbn. apply app_nil_r.
             - unfold toks_at. rewrite Hp. cbn. rewrite map_length, Hb2. reflexivity. }
           rewrite HB in Hsc. destruct (words_before_stop _ _ _ _ _ Hsc) as [(pre & ws & P1 & P2 & P3)|[P1 P2]].
           ++ apply (stop_of_scan _ _ _ P1 P2). right. exact P3.
           ++ apply (stop_of_scan [] (all_toks (c_content c))); [reflexivity| |right; exact P1].
              cbn. rewrite P2. reflexivity.
      * destruct El as [_ ->]. apply (marks_core d); [reflexivity|exact HM].
  - intros p i d cur t y ids Hp Hi [HW HM]. split; [exact (ri_end _ _ _ _ _ _ _ _ O p i d cur t y ids Hp Hi HW)|].
    apply (marks_core d); [reflexivity|exact HM].
  - intros p d cur go d1 Hp [HG HM] El. pose proof (ri_fin _ _ _ _ _ _ _ _ O p d cur go d1 Hp HG El) as H.
    apply add_current_line_spec in El. destruct go.
    + destruct El as (e & x & q & f & k & _ & Es & ->).
      apply (marks_core (accept c d (flush cur true) (mkMark true x q) e f k)); [reflexivity|].
      apply mark_accept; [exact HM| | |exact Es].
      * apply flush_ok. apply HG.
      * intros _. destruct H as [[_ H]|[H _]]; [|cbn in H; discriminate]. cbn [set_fin accept d_lines] in H.
        exists (all_toks (c_content c)), []. rewrite app_nil_r. split; [reflexivity|]. split; [symmetry; exact H|]. right. reflexivity.
    + destruct El as [_ ->]. apply (marks_core d); [reflexivity|exact HM].
Qed.

Theorem run_marks h d' : paused c done d0 -> run c d0 w h = Ok d' -> marks_inv d'.
Proof.
  intros (Hf & [Hr Hp] & H1 & H2) E.
  refine (run_induction round3 text_w space_w fref c _ _ _ marks_ind d0 w h d' _ E). split.
  - split; [|exact Hp]. constructor; cbn [init_run d_lines d_lpart d_lword d_apart d_aword d_word d_fin d_part].
    + apply new_line_lwf.
    + cbn [lc flat_map app]. unfold chk, ctoks, otoks. cbn. rewrite app_nil_r. exact Hr.
    + rewrite H1, H2. cbn. rewrite app_nil_r. split; assumption.
    + discriminate.
    + exact Hf.
  - constructor; try reflexivity. cbn. now rewrite andb_true_r.
Qed.
End Marks.

(** ** Justified lines *)

Section Just.
Variable round3 : Q -> Q.
Variable text_w : fkey -> str -> Q.
Variable space_w : fkey -> Q.
Variable fref : fkey -> str.
Notation run := (run round3 text_w space_w fref).
Notation width_of := (width_of text_w space_w).
Notation parts_ok := (parts_ok text_w space_w).

Definition gaps (ts : list tok) : Q :=
  fold_right (fun t q => (match t with TSpace y => spw space_w y | _ => 0 end + q)%Q) 0%Q ts.
Lemma width_gaps f ts : (width_of f ts == width_of 0 ts + f * gaps ts)%Q.
Proof.
  induction ts as [|t ts IH]; cbn [TextWords.width_of gaps fold_right]; [ring|].
  fold (width_of f ts) (width_of 0 ts) (gaps ts). rewrite IH. destruct t; cbn; ring.
Qed.
Lemma gaps_pos ts : (forall y, In (TSpace y) ts -> 0 < spw space_w y)%Q ->
  (0 <= gaps ts)%Q /\ ((exists y, In (TSpace y) ts) -> (0 < gaps ts)%Q).
Proof.
  induction ts as [|t ts IH]; intros H; cbn [gaps fold_right].
  - split; [lra|]. intros [y []].
  - destruct IH as [I1 I2]; [intros y Hy; apply H; now right|]. fold (gaps ts).
    destruct t as [y ids w|y|].
    + split; [lra|]. intros [y0 [Hy|Hy]]; [discriminate|]. specialize (I2 (ex_intro _ y0 Hy)). lra.
    + pose proof (H y (or_introl eq_refl)). split; [lra|]. intros _. lra.
    + split; [lra|]. intros [y0 [Hy|Hy]]; [discriminate|]. specialize (I2 (ex_intro _ y0 Hy)). lra.
Qed.
Lemma spaces_gaps ps : parts_ok ps -> (spaces_w ps == gaps (ltoks ps))%Q.
Proof.
  intros H. pose proof (line_width _ _ ps 1%Q H) as H1. pose proof (line_width _ _ ps 0%Q H) as H0.
  rewrite (width_gaps 1) in H1. lra.
Qed.

Lemma lines_ok_nth c done w lks : forall first ls i l k, lines_ok text_w space_w c done first w ls lks ->
  nth_error lks i = Some (l, k) ->
  line_ok text_w space_w c done (first && (i =? 0)%nat) w (ls ++ firstn i (map fst lks)) l k.
Proof.
  induction lks as [|[l0 k0] r IH]; intros first ls [|i] l k H Hi; cbn in Hi; try discriminate.
  - injection Hi as <- <-. cbn. rewrite andb_true_r, app_nil_r. apply H.
  - destruct H as [_ H]. specialize (IH false (ls ++ [l0]) i l k H Hi). cbn [andb] in IH.
    cbn [Nat.eqb map fst firstn]. rewrite andb_false_r. rewrite <- app_assoc in IH. exact IH.
Qed.

Theorem run_line c done d w h d' i l k : c_list c = None -> paused c done d -> run c d w h = Ok d' ->
  nth_error (d_lines d') i = Some l -> nth_error (d_marks d') i = Some k ->
  line_ok text_w space_w c done (d_first d && (i =? 0)%nat) w (firstn i (d_lines d')) l k.
Proof.
  intros Hl Hp E Hi Hk. pose proof (run_marks round3 text_w space_w fref c Hl done d w h d' Hp E) as [_ B _ _ M].
  assert (H : nth_error (combine (d_lines d') (d_marks d')) i = Some (l, k)).
  { clear - Hi Hk B. revert i Hi Hk B. generalize (d_marks d') as ks. induction (d_lines d') as [|l0 ls IH]; intros [|k0 ks] [|i] Hi Hk B;
      cbn in *; try discriminate; [congruence|]. apply IH; congruence. }
  pose proof (lines_ok_nth _ _ _ _ _ _ _ _ _ M H) as R. rewrite map_fst_combine in R by exact B. exact R.
Qed.

Theorem run_justified c done d w h d' i l k : c_list c = None -> c_align c = AJust -> paused c done d -> run c d w h = Ok d' ->
  nth_error (d_lines d') i = Some l -> nth_error (d_marks d') i = Some k -> k_last k = false ->
  has_space l -> (forall y, In (TSpace y) (ltoks (l_parts l)) -> 0 < spw space_w y)%Q ->
  (k_x k + width_of (k_factor k) (ltoks (l_parts l)) == w)%Q /\
  (strip (ltoks (l_parts l)) = ltoks (l_parts l) -> (7#10) < k_factor k)%Q.
Proof.
  intros Hl Ha Hp E Hi Hk Hkl Hs Hpos.
  pose proof (run_line c done d w h d' i l k Hl Hp E Hi Hk) as [A B _ D _].
  destruct (gaps_pos _ Hpos) as [_ G]. specialize (G Hs).
  assert (Hsw : ~ (spaces_w (l_parts l) == 0)%Q) by (rewrite (spaces_gaps _ A); lra).
  specialize (D Ha Hkl Hsw). split; [exact D|]. intros Hst.
  pose proof (run_width round3 text_w space_w fref c d w h d' Hl E i l Hi) as F. rewrite Hst in F.
  destruct F as [F|F].
  - exfalso. destruct Hs as [y Hy]. rewrite forallb_forall in F. specialize (F _ Hy). discriminate.
  - assert (HL : ((if (i =? 0)%nat then first_limit c d w else w) == w - k_x k)%Q).
    { rewrite B. unfold line_start, line_indent, first_limit. rewrite Ha. destruct (i =? 0)%nat; [rewrite andb_true_r; ring|].
      rewrite andb_false_r. ring. }
    rewrite HL in F. unfold min_of in F. rewrite Ha in F. cbn [factor_of is_just] in F.
    rewrite (width_gaps (k_factor k)) in D. rewrite (width_gaps (7#10)) in F.
    assert (K : (0 < (k_factor k - (7#10)) * gaps (ltoks (l_parts l)))%Q) by lra.
    destruct (Qlt_le_dec (7#10) (k_factor k)) as [Hc|Hc]; [exact Hc|exfalso].
    assert (0 <= ((7#10) - k_factor k) * gaps (ltoks (l_parts l)))%Q by (apply Qmult_le_0_compat; lra). lra.
Qed.
End Just.
