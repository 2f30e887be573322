(** The lines of a paragraph do not overlap (C60). *)
From Coq Require Import String QArith Lqa Lia.
From Verif Require Import Py PyStr Gfx TextLayout TextProofs TextWords TextOrder TextFit TextWidth TextEmit TextMarks TextTerm.
Open Scope list_scope.

Section Tops.
Variable round3 : Q -> Q.
Variable text_w : fkey -> str -> Q.
Variable space_w : fkey -> Q.
Variable fref : fkey -> str.
Variable c : config.
Notation content := (c_content c).

(** The room over a line: what hangs from the line before it, or the line
    height at the beginning and after a break. *)
Definition after_line (ls : list line) (l : line) : Prop :=
  match rev ls with
  | [] => l_top l = c_lh c
  | l0 :: _ => l_top l = line_bottom l0 \/ (l_top l = c_lh c /\ In CBr content)
  end.
Definition own_styles (l : line) : Prop := incl (sty (l_parts l)) (styles content).
Definition lines_ok (ls : list line) : Prop := forall a l b, ls = a ++ l :: b -> after_line a l /\ own_styles l.
Record tops (d : dyn) (cur : line) : Prop := {
  to_lines : lines_ok (d_lines d); to_cur : after_line (d_lines d) cur;
  to_sty : incl (sty (l_parts cur) ++ sty (nparts cur)) (styles content) }.

Lemma lines_ok_snoc ls l : lines_ok ls -> after_line ls l -> own_styles l -> lines_ok (ls ++ [l]).
Proof.
  intros H1 H2 H3 a m b E. destruct b as [|x b].
  - apply app_inj_tail in E as [-> ->]. split; assumption.
  - destruct (exists_last (l := x :: b)) as (b' & y & Eb); [discriminate|]. rewrite Eb in E.
    change (a ++ m :: b' ++ [y]) with (a ++ (m :: b') ++ [y]) in E. rewrite app_assoc in E.
    apply app_inj_tail in E as [-> ->]. apply (H1 a m b'). reflexivity.
Qed.
Lemma after_top ls l l' : l_top l' = l_top l -> after_line ls l -> after_line ls l'.
Proof. unfold after_line. intros ->. auto. Qed.
Lemma after_snoc ls l m : l_top m = line_bottom l \/ (l_top m = c_lh c /\ In CBr content) -> after_line (ls ++ [l]) m.
Proof. unfold after_line. rewrite rev_app_distr. cbn. auto. Qed.

Theorem tops_ind done : run_ind round3 text_w space_w fref c
    (fun p d cur => order_G text_w space_w c done p d cur /\ tops d cur)
    (fun p i d cur => order_W text_w space_w c done p i d cur /\ tops d cur) (fun d => lines_ok (d_lines d)).
Proof.
  pose proof (order_ind round3 text_w space_w fref c done) as O.
  assert (Hacc : forall d cur b, tops d cur -> lines_ok (d_lines d ++ [flush cur b])).
  { intros d cur b [A B C]. apply lines_ok_snoc; [exact A| |].
    - apply (after_top _ cur); [apply flush_same|exact B].
    - apply flush_sty. exact C. }
  constructor.
  - intros p d cur Hp [HG T]. split; [exact (ri_other _ _ _ _ _ _ _ _ O p d cur Hp HG)|exact T].
  - intros p d cur go d1 Hp [HG T] El.
    pose proof (ri_br _ _ _ _ _ _ _ _ O p d cur go d1 Hp HG El) as H.
    apply add_current_line_spec in El. destruct go.
    + destruct El as (e & x & q & f & k & _ & Es & ->). split; [exact H|].
      constructor; cbn [accept set_added d_lines new_line l_parts nparts l_next].
      * apply Hacc. destruct T. constructor; assumption.
      * apply after_snoc. right. split; [reflexivity|]. apply (nth_error_In _ p Hp).
      * intros z [].
    + destruct El as [_ ->]. exact (to_lines _ _ T).
  - intros p d cur t y ids d1 cur1 Hp [HG [A B C]] Eb.
    split; [exact (ri_text _ _ _ _ _ _ _ _ O p d cur t y ids d1 cur1 Hp HG Eb)|].
    destruct (begin_part_spec _ _ _ _ _ _ _ _ Eb) as (Hs & _ & Hl & Hn & Ht & Hst & _).
    pose proof (sp_lines _ _ Hs) as Hd. constructor; rewrite ?Hd; [exact A|apply (after_top _ cur); assumption|].
    rewrite Hl, Hn. unfold sty in *. rewrite map_app. cbn [map new_part lp_style].
    intros z Hz. rewrite !in_app_iff in Hz. destruct Hz as [Hz|[Hz|[<-|[]]]].
    + apply C, in_app_iff. now left.
    + apply C, in_app_iff. now right.
    + unfold styles. apply in_flat_map. exists (CText t y ids). split; [apply (nth_error_In _ p Hp)|left; reflexivity].
  - intros p i d cur t y ids wd st cur1 Hp Hi [HW T] Ew.
    pose proof (ri_word _ _ _ _ _ _ _ _ O p i d cur t y ids wd st cur1 Hp Hi HW Ew) as H.
    destruct HW as [Ho (t' & y' & ids' & Hp' & Hcp)]. rewrite Hp in Hp'. injection Hp' as <- <- <-.
    assert (Hg : good_word wd) by (apply (good_token t), (nth_error_In _ i), Hi).
    destruct (add_word_spec text_w space_w (c_align c) cur wd y ids (or_wf _ _ _ _ _ _ _ _ Ho) Hcp Hg)
      as (st' & cur1' & E' & [_ Htop] & Hinc & H2). rewrite Ew in E'. injection E' as <- <-.
    destruct T as [A B E]. assert (Htop' : after_line (d_lines d) cur1) by (apply (after_top _ cur); assumption).
    destruct st as [| | |nl].
    + split; [exact H|]. destruct H2 as (_ & _ & Hinc2 & _). constructor; cbn [set_added d_lines]; try assumption.
      intros z Hz. apply E. rewrite in_app_iff in Hz. destruct Hz as [Hz|Hz]; [apply Hinc, Hz|apply Hinc2, Hz].
    + split; [exact H|]. destruct H2 as (_ & -> & _). constructor; assumption.
    + split; [exact H|]. destruct H2 as (_ & _ & Hinc2 & _). constructor; try assumption.
      intros z Hz. apply E. rewrite in_app_iff in Hz. destruct Hz as [Hz|Hz]; [apply Hinc, Hz|].
      apply in_app_iff. right. apply Hinc2, Hz.
    + destruct H2 as (_ & Hst0 & Hwfn & _ & Hpn & Hsn & _ & Hnx & Hbot & Hincn & _).
      assert (Hsf : forall b, l_parts (flush cur1 b) = l_parts cur1) by (intros b; exact (flush_nl cur1 nl b Hnx Hpn)).
      intros go d1 mx El Em. specialize (H go d1 mx El Em). apply add_current_line_spec in El. destruct go.
      * destruct El as (e & x & q & f & k & _ & Es & ->). split; [exact H|].
        constructor; cbn [accept d_lines].
        -- apply lines_ok_snoc; [exact A| |].
           ++ apply (after_top _ cur1); [apply flush_same|exact Htop'].
           ++ unfold own_styles. rewrite Hsf. intros z Hz. apply E, Hinc, Hz.
        -- apply after_snoc. left. change (l_top (relimit mx nl)) with (l_top nl). rewrite Hbot.
           unfold line_bottom. rewrite Hsf. reflexivity.
        -- destruct (relimit_same mx nl) as [_ R2]. rewrite R2. change (l_parts (relimit mx nl)) with (l_parts nl).
           rewrite Hpn. cbn [sty map app]. intros z Hz. apply E, in_app_iff. right. apply Hincn, Hz.
      * destruct El as [_ ->]. exact A.
  - intros p i d cur t y ids Hp Hi [HW [A B C]]. split; [exact (ri_end _ _ _ _ _ _ _ _ O p i d cur t y ids Hp Hi HW)|].
    constructor; assumption.
  - intros p d cur go d1 Hp [HG T] El. apply add_current_line_spec in El. destruct go.
    + destruct El as (e & x & q & f & k & _ & Es & ->). apply (Hacc d cur true T).
    + destruct El as [_ ->]. exact (to_lines _ _ T).
Qed.
Lemma run_tops done d w h d' : paused c done d -> run round3 text_w space_w fref c d w h = Ok d' -> lines_ok (d_lines d').
Proof.
  intros Hpa E. destruct Hpa as (Hf & [Hr Hp] & H1 & H2).
  refine (run_induction round3 text_w space_w fref c _ _ _ (tops_ind done) d w h d' _ E). split.
  - split; [|exact Hp]. constructor; cbn [init_run d_lines d_lpart d_lword d_apart d_aword d_word d_fin d_part].
    + apply new_line_lwf.
    + cbn [lc flat_map app]. unfold chk, ctoks, otoks. cbn. rewrite app_nil_r. exact Hr.
    + rewrite H1, H2. cbn. rewrite app_nil_r. split; assumption.
    + discriminate.
    + exact Hf.
  - constructor; cbn [init_run d_lines first_line new_line l_parts nparts l_next sty map app].
    + intros a l b Hn. destruct a; discriminate.
    + reflexivity.
    + intros z [].
Qed.
End Tops.

(** ** Geometry *)

Notation rise p := (t_rise (y_state (lp_style p))).
Notation fsize p := (t_size (y_state (lp_style p))).
Lemma qgtb_true a b : qgtb a b = true -> (b < a)%Q.
Proof. unfold qgtb. intros H. apply negb_true_iff in H. apply Qnot_le_lt. intros Hc. apply Qle_bool_iff in Hc. congruence. Qed.
Lemma qgtb_false a b : qgtb a b = false -> (a <= b)%Q.
Proof. unfold qgtb. intros H. apply negb_false_iff in H. now apply Qle_bool_iff. Qed.
Lemma max_size_ge ps : (0 <= max_size ps)%Q /\ forall p, In p ps -> (fsize p <= max_size ps)%Q.
Proof.
  unfold max_size. match goal with |- context [fold_left ?f ps 0%Q] =>
    assert (G : forall a, (a <= fold_left f ps a)%Q /\ forall p, In p ps -> (fsize p <= fold_left f ps a)%Q) end.
  { induction ps as [|q ps IH]; intros a; cbn [fold_left]; [split; [apply Qle_refl|intros p []]|].
    destruct (qgtb (fsize q) a) eqn:E.
    - apply qgtb_true in E. destruct (IH (fsize q)) as [I1 I2]. split; [lra|]. intros p [<-|Hp]; [exact I1|apply I2, Hp].
    - apply qgtb_false in E. destruct (IH a) as [I1 I2]. split; [exact I1|]. intros p [<-|Hp]; [lra|apply I2, Hp]. }
  apply G.
Qed.
Lemma top_rise_ge ps : (0 <= top_rise ps)%Q /\ forall p, In p ps -> (rise p <= top_rise ps)%Q.
Proof.
  unfold top_rise. match goal with |- context [fold_left ?f ps 0%Q] =>
    assert (G : forall a, (0 <= a)%Q -> (a <= fold_left f ps a)%Q /\ forall p, In p ps -> (rise p <= fold_left f ps a)%Q) end.
  { induction ps as [|q ps IH]; intros a Ha; cbn [fold_left]; [split; [apply Qle_refl|intros p []]|].
    destruct (qgtb (rise q) 0 && qgtb (rise q) a) eqn:E.
    - apply andb_true_iff in E as [E1 E2]. apply qgtb_true in E1, E2. destruct (IH (rise q)) as [I1 I2]; [lra|].
      split; [lra|]. intros p [<-|Hp]; [exact I1|apply I2, Hp].
    - destruct (IH a Ha) as [I1 I2]. split; [exact I1|]. intros p [<-|Hp]; [|apply I2, Hp].
      apply andb_false_iff in E as [E|E]; apply qgtb_false in E; lra. }
  apply G. lra.
Qed.
Lemma line_bottom_ge l : (0 <= line_bottom l)%Q /\ forall p, In p (l_parts l) -> (- rise p <= line_bottom l)%Q.
Proof.
  unfold line_bottom. generalize (l_parts l). intros ps. match goal with |- context [fold_left ?f ps 0%Q] =>
    assert (G : forall a, (0 <= a)%Q -> (a <= fold_left f ps a)%Q /\ forall p, In p ps -> (- rise p <= fold_left f ps a)%Q) end.
  { induction ps as [|q ps IH]; intros a Ha; cbn [fold_left]; [split; [apply Qle_refl|intros p []]|].
    cbv zeta. destruct (qgtb 0 (rise q) && qgtb (- rise q) a) eqn:E.
    - apply andb_true_iff in E as [E1 E2]. apply qgtb_true in E1, E2. destruct (IH (- rise q)%Q) as [I1 I2]; [lra|].
      split; [lra|]. intros p [<-|Hp]; [exact I1|apply I2, Hp].
    - destruct (IH a Ha) as [I1 I2]. split; [exact I1|]. intros p [<-|Hp]; [|apply I2, Hp].
      apply andb_false_iff in E as [E|E]; apply qgtb_false in E; lra. }
  apply G. lra.
Qed.

Section Apart.
Variable c : config.
Hypothesis lh : (1 <= c_lh c)%Q.
(** Lowered text before a break is within the line height. *)
Hypothesis low : ~ In CBr (c_content c) \/ forall y, In y (styles (c_content c)) -> (- c_lh c <= t_rise (y_state y))%Q.
Variable ls : list line.
Hypothesis ok : lines_ok c ls.

Lemma top_ge0 a l b : ls = a ++ l :: b -> (0 <= l_top l)%Q.
Proof.
  intros E. destruct (ok _ _ _ E) as [H _]. unfold after_line in H. destruct (rev a) as [|l0 r].
  - rewrite H. lra.
  - destruct H as [->|[-> _]]; [apply line_bottom_ge|lra].
Qed.
Lemma height_ge a l b : ls = a ++ l :: b -> (l_top l <= line_height l)%Q /\
  forall p, In p (l_parts l) -> (l_top l + rise p + fsize p <= line_height l)%Q.
Proof.
  intros E. unfold line_height. destruct (max_size_ge (l_parts l)) as [M1 M2], (top_rise_ge (l_parts l)) as [T1 T2].
  split; [lra|]. intros p Hp. specialize (M2 p Hp). specialize (T2 p Hp). lra.
Qed.
Lemma cost_ge a l b : ls = a ++ l :: b -> (total_height c a + line_height l <= total_height c (a ++ [l]))%Q.
Proof.
  intros E. rewrite total_height_snoc. pose proof (top_ge0 _ _ _ E). destruct (height_ge _ _ _ E) as [H1 _].
  destruct a; [apply Qle_refl|]. assert (line_height l * 1 <= line_height l * c_lh c)%Q; [|lra].
  apply Qmult_le_l_compat || (rewrite !(Qmult_comm (line_height l)); apply Qmult_le_compat_r; lra).
Qed.
Lemma total_mono a b r : ls = a ++ b ++ r -> (total_height c a <= total_height c (a ++ b))%Q.
Proof.
  revert a. induction b as [|l b IH]; intros a E; [rewrite app_nil_r; apply Qle_refl|].
  change (a ++ l :: b) with (a ++ [l] ++ b). rewrite app_assoc.
  assert (E2 : ls = (a ++ [l]) ++ b ++ r) by (rewrite <- app_assoc; exact E).
  specialize (IH _ E2). pose proof (cost_ge _ _ _ E) as H. pose proof (top_ge0 _ _ _ E). destruct (height_ge _ _ _ E) as [H1 _]. lra.
Qed.
Lemma total_0 a b : ls = a ++ b -> (0 <= total_height c a)%Q.
Proof. intros E. exact (total_mono [] a b E). Qed.

(** A part of a line is under the parts of the lines before it. *)
Lemma bottom_le a l m b q : ls = a ++ l :: m :: b -> In q (l_parts l) -> (- rise q <= l_top m)%Q.
Proof.
  intros E Hq. assert (E2 : ls = (a ++ [l]) ++ m :: b) by (rewrite <- app_assoc; exact E).
  destruct (ok _ _ _ E2) as [H _]. unfold after_line in H. rewrite rev_app_distr in H. cbn in H.
  destruct H as [->|[-> Hb]]; [apply line_bottom_ge, Hq|].
  destruct low as [Hn|Hl]; [contradiction|]. destruct (ok _ _ _ E) as [_ Hs].
  specialize (Hl (lp_style q)). assert (In (lp_style q) (styles (c_content c))) as Hi by (apply Hs, in_map, Hq). specialize (Hl Hi). lra.
Qed.
Lemma part_under a l b m r p q : ls = a ++ l :: b ++ m :: r -> In q (l_parts l) -> In p (l_parts m) ->
  (total_height c (a ++ [l]) - rise q <= total_height c (a ++ l :: b ++ [m]) - rise p - fsize p)%Q.
Proof.
  intros E Hq Hp. destruct b as [|m' b].
  - cbn [app] in *. pose proof (bottom_le _ _ _ _ _ E Hq) as H1.
    assert (E2 : ls = (a ++ [l]) ++ m :: r) by (rewrite <- app_assoc; exact E).
    pose proof (cost_ge _ _ _ E2) as H2. destruct (height_ge _ _ _ E2) as [_ H3]. specialize (H3 p Hp).
    rewrite <- app_assoc in H2. cbn [app] in H2. lra.
  - cbn [app] in *. pose proof (bottom_le _ _ _ _ _ E Hq) as H1.
    assert (E2 : ls = (a ++ [l]) ++ m' :: b ++ m :: r) by (rewrite <- app_assoc; exact E).
    pose proof (cost_ge _ _ _ E2) as H2. destruct (height_ge _ _ _ E2) as [H3 _].
    assert (E3 : ls = ((a ++ [l]) ++ [m']) ++ b ++ m :: r) by (rewrite <- !app_assoc; exact E).
    pose proof (total_mono _ _ _ E3) as H4.
    assert (E4 : ls = (((a ++ [l]) ++ [m']) ++ b) ++ m :: r) by (rewrite <- app_assoc; exact E3).
    pose proof (cost_ge _ _ _ E4) as H5. destruct (height_ge _ _ _ E4) as [_ H6]. specialize (H6 p Hp).
    pose proof (top_ge0 _ _ _ E4) as H7. pose proof (top_ge0 _ _ _ E2) as H8.
    replace (a ++ l :: m' :: b ++ [m]) with ((((a ++ [l]) ++ [m']) ++ b) ++ [m]) by (rewrite <- !app_assoc; reflexivity). lra.
Qed.
Lemma part_top a l b p : ls = a ++ l :: b -> In p (l_parts l) -> (rise p + fsize p <= total_height c (a ++ [l]))%Q.
Proof.
  intros E Hp. pose proof (cost_ge _ _ _ E) as H1. destruct (height_ge _ _ _ E) as [_ H2]. specialize (H2 p Hp).
  pose proof (top_ge0 _ _ _ E). pose proof (total_0 _ _ E). lra.
Qed.
End Apart.

(** ** What is shown *)

(** The parts that should be shown, with their lines. *)
Lemma wants_in c x y lks : forall bef w, In w (wants c x y bef lks) ->
  exists a l k b p, lks = a ++ (l, k) :: b /\ w = (p, k_factor k, line_pos c x y (bef ++ map fst a ++ [l]) k) /\ In p (l_parts l).
Proof.
  induction lks as [|[l k] lks IH]; intros bef w Hw; cbn [wants] in Hw; [destruct Hw|].
  apply in_app_iff in Hw as [Hw|Hw].
  - unfold line_wants in Hw. apply in_map_iff in Hw as (p & <- & Hp). apply filter_In in Hp as [Hp _].
    exists [], l, k, lks, p. repeat split; assumption.
  - destruct (IH _ _ Hw) as (a & l' & k' & b & p & -> & -> & Hp). exists ((l, k) :: a), l', k', b, p.
    repeat split; [|exact Hp]. cbn [map fst app]. rewrite <- app_assoc. reflexivity.
Qed.
Section Pairs.
Variable A : Type.
Variable R : A -> A -> Prop.
Lemma pairs_app (l m : list A) : ForallOrdPairs R l -> ForallOrdPairs R m ->
  (forall x y, In x l -> In y m -> R x y) -> ForallOrdPairs R (l ++ m).
Proof.
  induction l as [|x l IH]; intros H1 H2 H3; [exact H2|]. inversion H1 as [|? ? Hx Hl]; subst. cbn [app]. constructor.
  - apply Forall_app. split; [exact Hx|]. apply Forall_forall. intros y Hy. apply H3; [left; reflexivity|exact Hy].
  - apply IH; [exact Hl|exact H2|]. intros u v Hu Hv. apply H3; [right; exact Hu|exact Hv].
Qed.
Lemma pairs_all (l : list A) : (forall x y, In x l -> In y l -> R x y) -> ForallOrdPairs R l.
Proof.
  induction l as [|x l IH]; intros H; constructor.
  - apply Forall_forall. intros y Hy. apply H; [left; reflexivity|right; exact Hy].
  - apply IH. intros u v Hu Hv. apply H; right; assumption.
Qed.
End Pairs.
Lemma pairs_transfer {A B} (F : A -> B -> Prop) (R : A -> A -> Prop) (S : B -> B -> Prop) :
  (forall a a' b b', F a b -> F a' b' -> R a a' -> S b b') -> forall l m, Forall2 F l m -> ForallOrdPairs R l -> ForallOrdPairs S m.
Proof.
  intros H l m H2. induction H2 as [|a b l m Hab H2 IH]; intros Hp; [constructor|]. inversion Hp as [|? ? Hx Hl]; subst.
  constructor; [|apply IH, Hl]. clear IH Hl Hp. induction H2 as [|a' b' l m Hab' H2 IH]; constructor.
  - inversion Hx; subst. eapply H; eauto.
  - apply IH. inversion Hx; assumption.
Qed.

(** Two wanted texts: the second on the line of the first or under it. *)
Definition want_under (u v : lpart * Q * (Q * Q)) : Prop :=
  let '(p, _, (_, y1)) := u in let '(q, _, (_, y2)) := v in
  (y1 == y2 \/ y2 + rise q + fsize q <= y1 + rise p)%Q.
Lemma wants_under c x y ls (ks : list mark) : (1 <= c_lh c)%Q ->
  (~ In CBr (c_content c) \/ forall y, In y (styles (c_content c)) -> (- c_lh c <= t_rise (y_state y))%Q) ->
  lines_ok c ls -> List.length ks = List.length ls -> ForallOrdPairs want_under (wants c x y [] (combine ls ks)).
Proof.
  intros Hlh Hlow Hok Hlen.
  assert (G : forall lks bef, ls = bef ++ map fst lks -> ForallOrdPairs want_under (wants c x y bef lks)).
  { induction lks as [|[l k] lks IH]; intros bef E; cbn [wants]; [constructor|]. apply pairs_app.
    - apply pairs_all. intros u v Hu Hv. unfold line_wants in Hu, Hv. apply in_map_iff in Hu as (p & <- & _).
      apply in_map_iff in Hv as (q & <- & _). left. reflexivity.
    - apply IH. rewrite <- app_assoc. exact E.
    - intros u v Hu Hv. unfold line_wants in Hu. apply in_map_iff in Hu as (p & <- & Hp). apply filter_In in Hp as [Hp _].
      destruct (wants_in _ _ _ _ _ _ Hv) as (a & m & k' & b & q & Ea & -> & Hq). right.
      cbn [map fst] in E. rewrite Ea, map_app in E. cbn [map fst] in E.
      pose proof (part_under c Hlh Hlow ls Hok bef l (map fst a) m (map fst b) q p E Hp Hq) as H.
      rewrite <- app_assoc. cbn [app]. lra. }
  apply G. cbn [app]. rewrite map_fst_combine by exact Hlen. reflexivity.
Qed.
Lemma wants_inside c x y ls (ks : list mark) : (1 <= c_lh c)%Q -> lines_ok c ls -> List.length ks = List.length ls ->
  Forall (fun w : lpart * Q * (Q * Q) => let '(p, _, (_, y1)) := w in
    y1 + rise p + fsize p <= y /\ y - total_height c ls <= y1)%Q (wants c x y [] (combine ls ks)).
Proof.
  intros Hlh Hok Hlen. apply Forall_forall. intros w Hw. destruct (wants_in _ _ _ _ _ _ Hw) as (a & l & k & b & p & Ea & -> & Hp).
  assert (E : ls = map fst a ++ l :: map fst b).
  { rewrite <- (map_fst_combine ls ks Hlen), Ea, map_app. reflexivity. }
  pose proof (part_top c Hlh ls Hok _ _ _ _ E Hp) as H1.
  assert (E2 : ls = (map fst a ++ [l]) ++ map fst b ++ []) by (rewrite app_nil_r, <- app_assoc; exact E).
  pose proof (total_mono c Hlh ls Hok _ _ _ E2) as H2. rewrite app_nil_r in E2. rewrite <- E2 in H2. cbn [app]. split; lra.
Qed.
