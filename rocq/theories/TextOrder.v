(** Every word of a paragraph is laid out once and in order (C31). *)
From Coq Require Import String QArith Lqa.
From Verif Require Import Py PyStr Gfx TextLayout TextProofs TextWords.
Open Scope list_scope.

(** ** Steps that do not depend on the order *)

Definition flush (cur : line) (is_last : bool) : line :=
  if is_last then match l_next cur with Some n => with_parts cur (l_parts cur ++ l_parts n) | None => cur end else cur.
Lemma flush_parts cur b : l_parts (flush cur b) = if b then l_parts cur ++ nparts cur else l_parts cur.
Proof.
  unfold flush, nparts. destruct b; [|reflexivity]. destruct (l_next cur); [reflexivity|]. now rewrite app_nil_r.
Qed.
Lemma flush_same cur b : l_max (flush cur b) = l_max cur /\ l_top (flush cur b) = l_top cur.
Proof. unfold flush. destruct b; [|split; reflexivity]. destruct (l_next cur); split; reflexivity. Qed.

(** The two outcomes of [add_current_line]. *)
Section Step.
Variable round3 : Q -> Q.
Variable text_w : fkey -> str -> Q.
Variable space_w : fkey -> Q.
Variable fref : fkey -> str.
Notation add_current_line := (add_current_line round3 space_w fref).
Definition line_cost (c : config) (d : dyn) (l : line) : Q :=
  (if d_added d then line_height l * c_lh c else line_height l)%Q.
Definition refuse (d : dyn) : dyn :=
  mkDyn (d_lpart d) (d_lword d) (d_lpart d) (d_lword d) (d_apart d) (d_aword d)
    (d_first d) (d_correct d) (d_listdone d) (d_fin d) (d_lindent d) (d_lstate d)
    (d_width d) (d_height d) true (d_h d) (d_lines d) (d_em d) (d_used d) (d_cused d) (d_marks d).
Definition accept (c : config) (d : dyn) (l : line) (k : mark) (e : em) (first correct : bool) : dyn :=
  mkDyn (d_part d) (d_word d) (d_apart d) (d_aword d) (d_apart d) (d_aword d)
    first correct (d_listdone d) (d_fin d) (d_lindent d) (d_lstate d)
    (d_width d) (d_height d) true (d_h d + line_cost c d l) (d_lines d ++ [l]) e (d_used d ++ d_cused d) []
    (d_marks d ++ [k]).
Lemma add_current_line_spec c d cur b go d1 : add_current_line c d cur b = Ok (go, d1) ->
  if go then exists e x q f k, ~ (d_height d < line_cost c d (flush cur b) + d_h d)%Q /\
       add_line_to_stream round3 space_w fref c d (flush cur b) b = Ok (e, x, q, f, k) /\
       d1 = accept c d (flush cur b) (mkMark b x q) e f k
  else (d_height d < line_cost c d (flush cur b) + d_h d)%Q /\ d1 = refuse d.
Proof.
  intros E. unfold TextLayout.add_current_line in E. fold (flush cur b) in E. fold (line_cost c d (flush cur b)) in E.
  destruct (qgtb _ _) eqn:Eq.
  - injection E as <- <-. split; [|reflexivity]. unfold qgtb in Eq. apply negb_true_iff in Eq.
    apply Qnot_le_lt. intros Hc. apply Qle_bool_iff in Hc. congruence.
  - destruct (add_line_to_stream _ _ _ _ _ _ _) as [[[[[e x] q] f] k]|er] eqn:El; [|discriminate]. cbn [bind] in E.
    injection E as <- <-. exists e, x, q, f, k. split; [|split; reflexivity].
    unfold qgtb in Eq. apply negb_false_iff in Eq. apply Qle_bool_iff in Eq. apply Qle_not_lt. exact Eq.
Qed.

(** The beginning of a text part. *)
Record same_pos (d d1 : dyn) : Prop := {
  sp_part : d_part d1 = d_part d; sp_word : d_word d1 = d_word d;
  sp_lpart : d_lpart d1 = d_lpart d; sp_lword : d_lword d1 = d_lword d;
  sp_apart : d_apart d1 = d_apart d; sp_aword : d_aword d1 = d_aword d;
  sp_first : d_first d1 = d_first d; sp_correct : d_correct d1 = d_correct d; sp_fin : d_fin d1 = d_fin d;
  sp_width : d_width d1 = d_width d; sp_height : d_height d1 = d_height d; sp_added : d_added d1 = d_added d;
  sp_h : d_h d1 = d_h d; sp_lines : d_lines d1 = d_lines d; sp_em : d_em d1 = d_em d; sp_marks : d_marks d1 = d_marks d }.
Lemma begin_part_spec c y ids d cur d1 cur1 : begin_part text_w c y ids d cur = Ok (d1, cur1) ->
  same_pos d d1 /\ (c_list c = None -> cur1 = add_line_part cur y ids /\ d1 = add_used d (t_font (y_state y))) /\
  l_parts cur1 = l_parts cur /\ nparts cur1 = nparts cur ++ [new_part y ids] /\ l_top cur1 = l_top cur /\
  l_started cur1 = l_started cur /\ l_first cur1 = l_first cur /\ l_lws cur1 = l_lws cur /\
  l_next cur1 = l_next (add_line_part cur y ids).
Proof.
  intros E. unfold begin_part in E.
  assert (Hadd : l_parts (add_line_part cur y ids) = l_parts cur /\
    nparts (add_line_part cur y ids) = nparts cur ++ [new_part y ids] /\ l_top (add_line_part cur y ids) = l_top cur /\
    l_started (add_line_part cur y ids) = l_started cur /\ l_first (add_line_part cur y ids) = l_first cur /\
    l_lws (add_line_part cur y ids) = l_lws cur /\
    l_next (add_line_part cur y ids) = l_next (add_line_part cur y ids)).
  { repeat split. unfold nparts, add_line_part. cbn. destruct (l_next cur); reflexivity. }
  assert (Hs : same_pos d (add_used d (t_font (y_state y)))) by (constructor; reflexivity).
  destruct (c_list c) as [li|]; [destruct (d_listdone d)|]; cbn [bind] in E.
  - injection E as <- <-. split; [exact Hs|]. split; [discriminate|]. exact Hadd.
  - unfold setup_list in E.
    assert (Hn : exists n, l_next (add_line_part cur y ids) = Some n /\ l_parts n = nparts cur ++ [new_part y ids]).
    { unfold add_line_part, nparts. cbn. destruct (l_next cur); eexists; split; reflexivity. }
    destruct Hn as (n & Hn & Hnp). rewrite Hn in E. destruct (l_parts n) as [|p0 r0] eqn:Ep; [discriminate|].
    cbn [bind] in E. injection E as <- <-. split; [constructor; reflexivity|]. split; [discriminate|].
    split; [reflexivity|]. split; [unfold nparts at 1; cbn [l_next]; congruence|]. rewrite Hn. repeat split.
  - injection E as <- <-. split; [exact Hs|]. split; [intros _; split; reflexivity|]. exact Hadd.
Qed.
End Step.

Section Layout.
Variable round3 : Q -> Q.
Variable text_w : fkey -> str -> Q.
Variable space_w : fkey -> Q.
Variable fref : fkey -> str.
Notation add_word := (add_word text_w space_w).
Notation lwf := (lwf text_w space_w).
Notation parts_ok := (parts_ok text_w space_w).
Notation run := (run round3 text_w space_w fref).
Notation runs := (runs round3 text_w space_w fref).

Lemma new_line_lwf m t : lwf (new_line m t).
Proof. constructor; try discriminate; try (constructor || reflexivity); intros; reflexivity. Qed.

Lemma ltoks_new ps y ids : ltoks (ps ++ [new_part y ids]) = ltoks ps.
Proof. rewrite ltoks_app. unfold new_part, ltoks at 2. cbn. apply app_nil_r. Qed.

Lemma begin_part_lwf c y ids d cur d1 cur1 : begin_part text_w c y ids d cur = Ok (d1, cur1) -> lwf cur ->
  lwf cur1 /\ curpart cur1 y ids /\ ctoks cur1 = ctoks cur /\ otoks cur1 = otoks cur.
Proof.
  intros E Hwf. destruct (begin_part_spec _ _ _ _ _ _ _ _ E) as (_ & _ & H1 & H2 & H3 & H4 & H5 & H6 & H7).
  assert (Ho : otoks cur1 = otoks cur) by (unfold otoks; rewrite H2; apply ltoks_new).
  split; [|split; [exists (nparts cur), (new_part y ids); repeat split; exact H2|split; [unfold ctoks; now rewrite H1|exact Ho]]].
  constructor.
  - rewrite H1. apply Hwf.
  - rewrite H2. apply Forall_app. split; [apply Hwf|]. constructor; [apply new_part_ok|constructor].
  - rewrite Ho. apply Hwf.
  - rewrite H4, H1. apply Hwf.
  - rewrite H4, H1. intros Hs. destruct (wf_started _ _ _ Hwf Hs) as (i & x & ws & f & r & A & B & C & D).
    exists i, x, ws, f, (r ++ [new_part y ids]). rewrite H2, C. repeat split; try assumption; apply D.
  - rewrite H4, H5, Ho. apply Hwf.
  - rewrite H4, H6, Ho. apply Hwf.
  - rewrite H7. unfold add_line_part. cbn. intros n [= <-]. destruct (l_next cur) as [n0|] eqn:En; [|split; reflexivity].
    exact (wf_next _ _ _ Hwf n0 En).
Qed.

Lemma relimit_lwf mx nl : lwf nl -> lwf (relimit mx nl).
Proof.
  intros Hwf. assert (Hn : nparts (relimit mx nl) = nparts nl) by (unfold nparts, relimit; cbn; destruct (l_next nl); reflexivity).
  assert (Ho : otoks (relimit mx nl) = otoks nl) by (unfold otoks; now rewrite Hn).
  constructor; rewrite ?Ho, ?Hn; try apply Hwf.
  intros n. unfold relimit. cbn. destruct (l_next nl) as [n0|] eqn:En; [|discriminate]. intros [= <-]. cbn.
  exact (wf_next _ _ _ Hwf n0 En).
Qed.
Lemma relimit_same mx nl : ctoks (relimit mx nl) = ctoks nl /\ nparts (relimit mx nl) = nparts nl.
Proof. split; [reflexivity|]. unfold nparts, relimit. cbn. destruct (l_next nl); reflexivity. Qed.

(** ** The order *)

(** The chunks that are complete in a line. *)
Definition chk (cur : line) : list chunk := fst (scan [] [] (ctoks cur)).
Lemma closed cur : lwf cur -> scan [] [] (ctoks cur) = (chk cur, []).
Proof.
  intros Hwf. unfold chk. destruct (l_started cur) eqn:Es.
  - destruct (wf_started _ _ _ Hwf Es) as (i & x & ws & f & r & A & B & C & D).
    assert (H : exists X y, ctoks cur = X ++ [TSpace y]).
    { unfold ctoks. rewrite A, ltoks_app, ltoks_one. unfold ptoks. rewrite B, map_app, app_assoc.
      eexists _, (lp_style x). reflexivity. }
    destruct H as (X & y & ->). rewrite scan_app. destruct (scan [] [] X) as [dX oX]. reflexivity.
  - unfold ctoks. rewrite (wf_stopped _ _ _ Hwf Es). reflexivity.
Qed.
Lemma flush_chunks cur b : lwf cur -> (b = false -> otoks cur = []) ->
  line_chunks (flush cur b) = close (chk cur) (words_of (otoks cur)).
Proof.
  intros Hwf Hb. unfold line_chunks. rewrite flush_parts. destruct b.
  - rewrite ltoks_app. fold (ctoks cur) (otoks cur). rewrite (chunks_cut _ _ _ (closed cur Hwf)).
    unfold chunks. rewrite (scan_words _ [] [] (wf_words _ _ _ Hwf)). cbn [app]. rewrite <- close_app, app_nil_r. reflexivity.
  - rewrite (Hb eq_refl). cbn. fold (ctoks cur). unfold chunks. rewrite (closed cur Hwf). reflexivity.
Qed.

Variable c : config.
Notation content := (c_content c).
Definition pos_ok (p w : nat) : Prop := w <> 0%nat -> exists t y ids, nth_error content p = Some (CText t y ids).
(** The chunks of lines. *)
Definition lc (ls : list line) : list chunk := flat_map line_chunks ls.
Definition reads (p w : nat) (d : list chunk) : Prop := scan [] [] (before content p w) = (d, []) /\ pos_ok p w.

Variable done : list chunk.
Record order (p i : nat) (d : dyn) (cur : line) : Prop := {
  or_wf : lwf cur;
  or_scan : scan [] [] (before content p i) = (done ++ lc (d_lines d) ++ chk cur, words_of (otoks cur));
  or_line : reads (d_lpart d) (d_lword d) (done ++ lc (d_lines d));
  or_added : l_started cur = true -> reads (d_apart d) (d_aword d) (done ++ lc (d_lines d) ++ chk cur);
  or_fin : d_fin d = false }.
Definition order_G (p : nat) (d : dyn) (cur : line) : Prop := order p (d_word d) d cur /\ pos_ok p (d_word d).
Definition order_W (p i : nat) (d : dyn) (cur : line) : Prop :=
  order p i d cur /\ exists t y ids, nth_error content p = Some (CText t y ids) /\ curpart cur y ids.
(** After a run: either everything is in lines or the position is where the
    next run goes on. *)
Definition order_F (d : dyn) : Prop :=
  (d_fin d = true /\ done ++ lc (d_lines d) = chunks (all_toks content)) \/
  (d_fin d = false /\ reads (d_part d) (d_word d) (done ++ lc (d_lines d)) /\ d_lpart d = d_part d /\ d_lword d = d_word d).

Lemma lc_snoc ls l : lc (ls ++ [l]) = lc ls ++ line_chunks l.
Proof. unfold lc. rewrite flat_map_app. cbn. now rewrite app_nil_r. Qed.

Lemma order_refuse d : reads (d_lpart d) (d_lword d) (done ++ lc (d_lines d)) -> d_fin d = false -> order_F (refuse d).
Proof. intros H Hf. right. cbn. repeat split; try apply H. exact Hf. Qed.

Theorem order_ind : run_ind round3 text_w space_w fref c order_G order_W order_F.
Proof.
  constructor.
  - (* other *)
    intros p d cur Hp [Ho Hpos].
    assert (Hw : d_word d = 0%nat).
    { destruct (d_word d); [reflexivity|]. destruct (Hpos (Nat.neq_succ_0 _)) as (t & y & ids & H). congruence. }
    assert (HB : before content (S p) (d_word d) = before content p (d_word d)).
    { rewrite Hw, before_S. unfold toks_at. rewrite Hp. cbn. now rewrite app_nil_r. }
    split; [|intros Hn; congruence]. destruct Ho as [A B C D E]. constructor; try assumption. now rewrite HB.
  - (* line break *)
    intros p d cur go d1 Hp [Ho Hpos] E.
    assert (Hw : d_word d = 0%nat).
    { destruct (d_word d); [reflexivity|]. destruct (Hpos (Nat.neq_succ_0 _)) as (t & y & ids & H). congruence. }
    apply add_current_line_spec in E. destruct Ho as [A B C D Fi]. destruct go.
    + destruct E as (e & x & q & f & k & _ & _ & ->).
      assert (HB : scan [] [] (before content (S p) 0) = (done ++ lc (d_lines d ++ [flush cur true]), [])).
      { rewrite before_S, scan_app. unfold toks_at. rewrite Hp. rewrite Hw in B. rewrite B. cbn [part_toks scan].
        rewrite lc_snoc, (flush_chunks cur true A) by discriminate. rewrite app_assoc, close_app, <- app_assoc. reflexivity. }
      split; [|cbn; congruence]. constructor; cbn [accept set_added d_lines d_lpart d_lword d_apart d_aword d_word d_fin l_started new_line].
      * apply new_line_lwf.
      * rewrite Hw, HB. unfold chk, ctoks, otoks. cbn. now rewrite app_nil_r.
      * split; [exact HB|]. intros H; congruence.
      * discriminate.
      * exact Fi.
    + destruct E as [_ ->]. apply order_refuse; assumption.
  - (* beginning of a part *)
    intros p d cur t y ids d1 cur1 Hp [Ho Hpos] E.
    destruct (begin_part_spec _ _ _ _ _ _ _ _ E) as (Hs & _ & _ & _ & _ & Hst & _).
    destruct (begin_part_lwf _ _ _ _ _ _ _ E (or_wf _ _ _ _ Ho)) as (Hwf & Hcp & Hct & Hot).
    destruct Ho as [A B C D Fi]. split; [|eauto 8].
    constructor.
    + exact Hwf.
    + rewrite (sp_word _ _ Hs), (sp_lines _ _ Hs), Hot. unfold chk. rewrite Hct. exact B.
    + rewrite (sp_lpart _ _ Hs), (sp_lword _ _ Hs), (sp_lines _ _ Hs). exact C.
    + rewrite Hst, (sp_apart _ _ Hs), (sp_aword _ _ Hs), (sp_lines _ _ Hs). unfold chk. rewrite Hct. exact D.
    + rewrite (sp_fin _ _ Hs). exact Fi.
  - (* a word *)
    intros p i d cur t y ids w st cur1 Hp Hi [Ho (t' & y' & ids' & Hp' & Hcp)] E.
    rewrite Hp in Hp'. injection Hp' as <- <- <-.
    assert (Hg : good_word w) by (apply (good_token t), (nth_error_In _ i), Hi).
    destruct (add_word_spec text_w space_w (c_align c) cur w y ids (or_wf _ _ _ _ Ho) Hcp Hg)
      as (st' & cur1' & E' & _ & _ & H).
    rewrite E in E'. injection E' as <- <-.
    assert (HB : before content p (S i) = before content p i ++ [tok_of y ids w]).
    { apply before_step. unfold toks_at. rewrite Hp. cbn. apply map_nth_error. exact Hi. }
    destruct Ho as [A B C D Fi].
    assert (Hscan : scan [] [] (before content p (S i)) =
              scan (done ++ lc (d_lines d) ++ chk cur) (words_of (otoks cur)) [tok_of y ids w])
      by (rewrite HB, scan_app, B; reflexivity).
    assert (Hpk : pos_ok p (S i)) by (intros _; eauto).
    destruct st as [| | |nl].
    + destruct H as (Hwf & Hcp1 & _ & H). split; [|eauto 8].
      destruct (isspace w) eqn:Ew.
      * destruct H as (_ & Hst & Hot & Hct).
        assert (Hck : chk cur1 = close (chk cur) (words_of (otoks cur))).
        { unfold chk at 1. rewrite Hct, scan_app, (closed cur A), scan_app, (scan_words _ _ _ (wf_words _ _ _ A)). reflexivity. }
        unfold tok_of in Hscan. rewrite Ew in Hscan. cbn [scan] in Hscan. rewrite !close_app, <- Hck in Hscan.
        constructor; cbn [set_added d_lines d_lpart d_lword d_apart d_aword d_fin]; try assumption.
        -- rewrite Hscan, Hot. reflexivity.
        -- intros _. split; [exact Hscan|exact Hpk].
      * destruct H as (Hst0 & Hst & Hct & Hot). unfold tok_of in Hscan. rewrite Ew in Hscan. cbn [scan] in Hscan.
        constructor; cbn [set_added d_lines d_lpart d_lword d_apart d_aword d_fin]; try assumption.
        -- rewrite Hscan, Hot, words_of_app. unfold chk. rewrite Hct. unfold ctoks. rewrite (wf_stopped _ _ _ A Hst0).
           reflexivity.
        -- congruence.
    + destruct H as (Ew & -> & Hot). split; [|eauto 8]. constructor; try assumption.
      rewrite Hscan, Hot. unfold tok_of. rewrite Ew. reflexivity.
    + destruct H as (Hwf & Hcp1 & _ & Ew & Hst0 & Hst & Hparts & Hot & _). split; [|eauto 8].
      assert (Hck : chk cur1 = chk cur) by (unfold chk, ctoks; now rewrite Hparts).
      unfold tok_of in Hscan. rewrite Ew in Hscan. cbn [scan] in Hscan.
      constructor; rewrite ?Hck; try assumption.
      * rewrite Hscan, Hot, words_of_app. reflexivity.
      * intros _. exact (D Hst0).
    + intros go d1 mx El Em. apply add_current_line_spec in El.
      destruct H as (Ew & Hst0 & Hwfn & Hcpn & Hpn & Hsn & Hfn & Hnx & _ & _ & Hot & (y1 & Hct) & Hok & _).
      unfold tok_of in Hscan. rewrite Ew in Hscan. cbn [scan] in Hscan.
      destruct go.
      * destruct El as (e & x & q & f & k & _ & _ & ->).
        set (b := _ && _) in *.
        assert (Hlc : line_chunks (flush cur1 b) = chk cur).
        { assert (Hpa : l_parts (flush cur1 b) = l_parts cur1).
          { rewrite flush_parts. unfold nparts. rewrite Hnx, Hpn, app_nil_r. destruct b; reflexivity. }
          unfold line_chunks. rewrite Hpa. fold (ctoks cur1).
          assert (Hc := closed cur A). rewrite Hct, scan_app in Hc. unfold chunks.
          destruct (scan [] [] (ctoks cur1)) as [d0 o0]. cbn in Hc. congruence. }
        destruct (relimit_same mx nl) as [R1 R2]. split.
        -- constructor; cbn [accept d_lines d_lpart d_lword d_apart d_aword d_fin]; rewrite ?lc_snoc, ?Hlc.
           ++ apply relimit_lwf. exact Hwfn.
           ++ assert (R3 : chk (relimit mx nl) = []) by (unfold chk; rewrite R1; unfold ctoks; rewrite Hpn; reflexivity).
              assert (R4 : otoks (relimit mx nl) = otoks nl) by (unfold otoks; now rewrite R2).
              rewrite Hscan, R3, R4, Hot, words_of_app, app_nil_r. reflexivity.
           ++ exact (D Hst0).
           ++ unfold relimit. cbn. congruence.
           ++ exact Fi.
        -- exists t, y, ids. split; [exact Hp|]. unfold curpart. rewrite R2. exact Hcpn.
      * destruct El as [_ ->]. apply order_refuse; assumption.
  - (* the end of a part *)
    intros p i d cur t y ids Hp Hi [[A B C D Fi] _]. split; [|cbn; congruence].
    constructor; cbn [set_word d_word d_lines d_lpart d_lword d_apart d_aword d_fin]; try assumption.
    rewrite <- (before_full content p i); [exact B|]. unfold toks_at. rewrite Hp. cbn. rewrite map_length. exact Hi.
  - (* the end of the paragraph *)
    intros p d cur go d1 Hp [[A B C D Fi] _] E. apply add_current_line_spec in E. destruct go.
    + destruct E as (e & x & q & f & k & _ & _ & ->). left. split; [reflexivity|]. cbn [set_fin accept d_lines].
      rewrite lc_snoc, (flush_chunks cur true A) by discriminate.
      assert (HB : before content p (d_word d) = all_toks content).
      { unfold before, toks_at. rewrite firstn_all2 by exact Hp.
        assert (Hn : nth_error content p = None) by (apply nth_error_None; exact Hp). rewrite Hn, firstn_nil. apply app_nil_r. }
      unfold chunks. rewrite <- HB, B. rewrite !close_app. reflexivity.
    + destruct E as [_ ->]. apply order_refuse; assumption.
Qed.
End Layout.

Lemma Ok_inj {A} (x y : A) : Ok x = Ok y -> x = y.
Proof. congruence. Qed.

Section Runs.
Variable round3 : Q -> Q.
Variable text_w : fkey -> str -> Q.
Variable space_w : fkey -> Q.
Variable fref : fkey -> str.
Notation run := (run round3 text_w space_w fref).
Notation runs := (runs round3 text_w space_w fref).

(** Between runs. *)
Definition paused (c : config) (done : list chunk) (d : dyn) : Prop :=
  d_fin d = false /\ reads c (d_part d) (d_word d) done /\ d_lpart d = d_part d /\ d_lword d = d_word d.
Lemma paused_fresh c : paused c [] (fresh c).
Proof. repeat split; try reflexivity. intros H. now destruct H. Qed.

Lemma run_order c done d w h d' : paused c done d -> run c d w h = Ok d' -> order_F c done d'.
Proof.
  intros (Hf & [Hr Hp] & H1 & H2) E.
  refine (run_induction round3 text_w space_w fref c _ _ _ (order_ind round3 text_w space_w fref c done) d w h d' _ E).
  split; [|exact Hp]. constructor; cbn [init_run d_lines d_lpart d_lword d_apart d_aword d_word d_fin d_part].
  - apply new_line_lwf.
  - cbn [lc flat_map app]. unfold chk, ctoks, otoks. cbn. rewrite app_nil_r. exact Hr.
  - rewrite H1, H2. cbn. rewrite app_nil_r. split; assumption.
  - discriminate.
  - exact Hf.
Qed.

(** The chunks that runs put in lines, and the ones that remain. *)
Definition placed (ds : list dyn) : list chunk := flat_map (fun d => lc (d_lines d)) ds.
Definition remaining (c : config) (d : dyn) : list chunk :=
  if d_fin d then [] else chunks (after (c_content c) (fst (get_state d)) (snd (get_state d))).

Lemma reads_rest c p w done : reads c p w done -> done ++ chunks (after (c_content c) p w) = chunks (all_toks (c_content c)).
Proof. intros [H _]. rewrite <- (chunks_cut _ _ _ H), before_after. reflexivity. Qed.

Lemma runs_order c : forall rects done d ds, paused c done d -> runs c d rects = Ok ds ->
  done ++ placed ds ++ remaining c (last ds d) = chunks (all_toks (c_content c)).
Proof.
  induction rects as [|[w h] rects IH]; intros done d ds Hd E; cbn [TextLayout.runs] in E.
  - injection E as <-. destruct Hd as (Hf & Hr & _). cbn. unfold remaining. rewrite Hf. exact (reads_rest _ _ _ _ Hr).
  - destruct (run c d w h) as [d1|e] eqn:Er; [|discriminate]. cbn [bind] in E.
    pose proof (run_order c done d w h d1 Hd Er) as HF. destruct HF as [[Hf HF]|(Hf & HF & H1 & H2)]; rewrite Hf in E.
    + injection E as <-. cbn. unfold remaining. rewrite Hf, !app_nil_r. exact HF.
    + destruct (runs c d1 rects) as [rest|e] eqn:Err; [|discriminate]. cbn [bind] in E. injection E as <-.
      cbn [placed flat_map]. fold (placed rest).
      assert (Hl : last (d1 :: rest) d = last rest d1).
      { destruct rest as [|x rest]; [reflexivity|]. change (last (d1 :: x :: rest) d) with (last (x :: rest) d).
        clear. revert x; induction rest as [|z rest IH]; intros x; [reflexivity|]. apply (IH z). }
      rewrite Hl, <- (IH (done ++ lc (d_lines d1)) d1 rest); [rewrite <- !app_assoc; reflexivity| |exact Err].
      repeat split; try assumption; apply HF.
Qed.

(** ** Runs do not raise *)

(** The list text is set up before the first line: no line break comes
    before the first text. *)
Fixpoint text_first (l : list cpart) : Prop :=
  match l with [] => False | CBr :: _ => False | CText _ _ _ :: _ => True | COther :: r => text_first r end.
Definition list_ready (d : dyn) : Prop := d_lindent d <> None /\ d_lstate d <> None.
Definition safe (c : config) (p : nat) (d : dyn) : Prop :=
  match c_list c with
  | None => True
  | Some _ => if d_listdone d then list_ready d else text_first (skipn p (c_content c))
  end.

Lemma list_ready_line c d l b : (c_list c = None \/ list_ready d) ->
  exists r, add_line_to_stream round3 space_w fref c d l b = Ok r.
Proof.
  intros H. unfold add_line_to_stream, start_line. destruct (c_list c) as [li|].
  - destruct H as [H|[H1 H2]]; [discriminate|].
    destruct (d_lindent d) as [q|]; [|congruence]. destruct (d_lstate d) as [s|]; [|congruence]. cbn [bind].
    destruct (e_started (d_em d)); cbn [negb bind]; [eexists; reflexivity|].
    destruct (d_first d); cbn [bind]; eexists; reflexivity.
  - cbn [bind]. destruct (e_started (d_em d)); cbn [negb bind]; [eexists; reflexivity|].
    destruct (d_first d); cbn [bind]; eexists; reflexivity.
Qed.
Lemma current_line_total c d cur b : (c_list c = None \/ list_ready d) ->
  exists go d1, add_current_line round3 space_w fref c d cur b = Ok (go, d1) /\
    d_listdone d1 = d_listdone d /\ d_lindent d1 = d_lindent d /\ d_lstate d1 = d_lstate d.
Proof.
  intros H. unfold add_current_line. destruct (qgtb _ _).
  - eexists _, _. split; [reflexivity|]. repeat split.
  - destruct (list_ready_line c d (flush cur b) b H) as ([[[[e x] q] f] k] & E). unfold flush in E. rewrite E. cbn [bind].
    eexists _, _. split; [reflexivity|]. repeat split.
Qed.

Definition set_up (c : config) (d : dyn) : Prop := c_list c = None \/ (d_listdone d = true /\ list_ready d).
Lemma set_up_line c d : set_up c d -> c_list c = None \/ list_ready d.
Proof. intros [H|[_ H]]; [now left|now right]. Qed.

Lemma words_total c p t y ids : forall ws i d cur, Forall good_word ws -> lwf text_w space_w cur -> curpart cur y ids ->
  nth_error (c_content c) p = Some (CText t y ids) -> set_up c d ->
  exists go d1 cur1, words_loop round3 text_w space_w fref c p (S p =? List.length (c_content c))%nat i ws d cur = Ok (go, d1, cur1)
    /\ set_up c d1 /\ (go = true -> lwf text_w space_w cur1).
Proof.
  induction ws as [|w ws IH]; intros i d cur Hg Hwf Hcp Hp Hs; cbn [words_loop].
  - eexists _, _, _. split; [reflexivity|]. split; [exact Hs|]. intros _. exact Hwf.
  - apply Forall_cons_iff in Hg as [Hg1 Hg2].
    destruct (add_word_spec text_w space_w (c_align c) cur w y ids Hwf Hcp Hg1) as (st & cur1 & E & _ & _ & H).
    rewrite E. cbn [bind]. destruct st as [| | |nl].
    + destruct H as (H1 & H2 & _). apply IH; try assumption.
    + destruct H as (_ & -> & _). now apply IH.
    + destruct H as (H1 & H2 & _). now apply IH.
    + destruct H as (_ & _ & H1 & H2 & _).
      destruct (current_line_total c d cur1 ((S p =? List.length (c_content c))%nat && match ws with [] => true | _ => false end)
                  (set_up_line _ _ Hs)) as (go & d1 & El & Hd & Hli & Hls).
      rewrite El. cbn [bind].
      assert (Hs1 : set_up c d1).
      { destruct Hs as [Hs|[A [B C]]]; [now left|right]. unfold list_ready. rewrite Hd, Hli, Hls. repeat split; assumption. }
      assert (Hm : exists mx, limit_of c d1 = Ok mx).
      { unfold limit_of. destruct (c_list c) eqn:Ec; [|eauto]. destruct Hs1 as [Hx|[_ [B _]]]; [congruence|].
        destruct (d_lindent d1); [eauto|congruence]. }
      destruct Hm as (mx & Hm). fold (limit_of c d1). rewrite Hm. cbn [bind]. fold (relimit mx nl).
      destruct go; [|eexists _, _, _; split; [reflexivity|]; split; [exact Hs1|intros Hx; discriminate Hx]].
      apply IH; try assumption; [now apply relimit_lwf|]. unfold curpart. rewrite (proj2 (relimit_same mx nl)). exact H2.
Qed.

Lemma begin_total c y ids d cur : exists d1 cur1, begin_part text_w c y ids d cur = Ok (d1, cur1) /\
  (set_up c d -> set_up c d1) /\ ((c_list c <> None -> d_listdone d = false) -> set_up c d1).
Proof.
  unfold begin_part. destruct (c_list c) as [li|] eqn:El.
  - destruct (d_listdone d) eqn:Ed; cbn [bind].
    + eexists _, _. split; [reflexivity|]. split; intros H.
      * destruct H as [H|H]; [congruence|]. right. exact H.
      * assert (Hx : true = false) by (apply H; discriminate). discriminate.
    + assert (Hn : exists n p r, l_next (add_line_part cur y ids) = Some n /\ l_parts n = p :: r).
      { unfold add_line_part. cbn [with_next l_next]. set (m := match l_next cur with Some n => n | None => _ end).
        exists (with_parts m (l_parts m ++ [new_part y ids])). cbn [with_parts l_parts]. destruct (l_parts m ++ [new_part y ids]) as [|p r] eqn:E; [destruct (l_parts m); discriminate|].
        exists p, r. split; reflexivity. }
      destruct Hn as (n & p & r & H1 & H2). unfold setup_list. rewrite H1, H2. cbn [bind].
      eexists _, _. split; [reflexivity|]. split; intros _; right; cbn; repeat split; discriminate.
  - cbn [bind]. eexists _, _. split; [reflexivity|]. split; intros _; left; exact El.
Qed.

Lemma parts_total c : forall ps p d cur, skipn p (c_content c) = ps -> lwf text_w space_w cur ->
  (set_up c d \/ (d_listdone d = false /\ text_first ps)) ->
  exists go d1 cur1, parts_loop round3 text_w space_w fref c p ps d cur = Ok (go, d1, cur1) /\ set_up c d1 /\
    (go = true -> lwf text_w space_w cur1).
Proof.
  induction ps as [|x ps IH]; intros p d cur Hs Hwf Hsafe; cbn [parts_loop].
  - destruct Hsafe as [Hsafe|[_ []]]. eexists _, _, _. split; [reflexivity|]. split; [exact Hsafe|]. intros _. exact Hwf.
  - apply nth_skipn in Hs as [Hn Hs]. destruct x as [|t y ids|].
    + destruct Hsafe as [Hsafe|[_ []]].
      destruct (current_line_total c (set_added d (S p) 0) cur true (set_up_line _ _ Hsafe)) as (go & d1 & El & Hd & Hli & Hls).
      rewrite El. cbn [bind].
      assert (Hs1 : set_up c d1).
      { destruct Hsafe as [H|[A [B C]]]; [now left|right]. unfold list_ready. rewrite Hd, Hli, Hls. repeat split; assumption. }
      destruct go; [|eexists _, _, _; split; [reflexivity|]; split; [exact Hs1|intros Hx; discriminate Hx]].
      apply IH; [exact Hs|apply new_line_lwf|now left].
    + unfold add_part. destruct (begin_total c y ids d cur) as (d1 & cur1 & Eb & H1 & H2).
      destruct (begin_part_lwf _ _ _ _ _ _ _ _ _ Eb Hwf) as (Hwf1 & Hcp1 & _).
      assert (Hs1 : set_up c d1).
      { destruct Hsafe as [H|[H _]]; [exact (H1 H)|]. apply H2. intros _. exact H. }
      unfold begin_part in Eb.
      set (z := match c_list c with Some _ => _ | None => _ end) in *.
      destruct z as [[d0 cur2]|e]; [|discriminate]. cbn [bind] in *. injection Eb as <- <-.
      assert (Hg : Forall good_word (skipn (d_word (add_used d0 (t_font (y_state y)))) (tokenize t))).
      { apply Forall_forall. intros w Hw. apply (good_token t). rewrite <- (firstn_skipn (d_word (add_used d0 (t_font (y_state y))))).
        apply in_app_iff. now right. }
      destruct (words_total c p t y ids _ (d_word (add_used d0 (t_font (y_state y)))) _ _ Hg Hwf1 Hcp1 Hn Hs1)
        as (go & d2 & cur3 & Ew & Hs2 & Hwf2).
      rewrite Ew. cbn [bind]. destruct go.
      * apply IH; [exact Hs|exact (Hwf2 eq_refl)|]. left. destruct Hs2 as [H|H]; [now left|now right].
      * cbn [bind]. eexists _, _, _. split; [reflexivity|]. split; [exact Hs2|intros Hx; discriminate Hx].
    + apply IH; [exact Hs|exact Hwf|]. destruct Hsafe as [H|[H1 H2]]; [now left|now right].
Qed.

(** The state between runs from which the next run does not raise. *)
Definition runnable (c : config) (d : dyn) : Prop :=
  set_up c d \/ (d_listdone d = false /\ text_first (skipn (d_part d) (c_content c))).
Lemma run_total c d w h : runnable c d -> exists d', run c d w h = Ok d' /\ set_up c d'.
Proof.
  intros Hr. unfold TextLayout.run.
  destruct (parts_total c (skipn (d_part d) (c_content c)) (d_part d) (init_run d w h) (first_line c d w) eq_refl
              (new_line_lwf text_w space_w _ _)) as (go & d1 & cur1 & E & Hs & Hwf).
  { destruct Hr as [[H|H]|H]; [left; now left|left; now right|now right]. }
  cbn [init_run d_part d_first] in E |- *. unfold first_line in E. rewrite E. cbn [bind]. destruct go.
  - destruct (current_line_total c d1 cur1 true (set_up_line _ _ Hs)) as (go & d2 & El & Hd & Hli & Hls).
    rewrite El. cbn [bind]. eexists. split; [reflexivity|].
    destruct Hs as [H|[A [B C]]]; [now left|right]. unfold list_ready.
    destruct go; cbn [set_fin d_listdone d_lindent d_lstate]; rewrite Hd, Hli, Hls; repeat split; assumption.
  - eexists. split; [reflexivity|]. exact Hs.
Qed.
Lemma runs_total c : forall rects d, runnable c d -> exists ds, runs c d rects = Ok ds.
Proof.
  induction rects as [|[w h] rects IH]; intros d Hr; cbn [TextLayout.runs]; [eauto|].
  destruct (run_total c d w h Hr) as (d1 & E & Hs). rewrite E. cbn [bind]. destruct (d_fin d1); [eauto|].
  destruct (IH d1 (or_introl Hs)) as (ds & ->). cbn [bind]. eauto.
Qed.

(** ** What is shown *)

Definition shown (ops : list gop) : list str := flat_map (fun o => match o with GShow t => [t] | _ => [] end) ops.
Lemma shown_app a b : shown (a ++ b) = shown a ++ shown b.
Proof. apply flat_map_app. Qed.
Definition nonempty (s : str) : bool := match s with [] => false | _ => true end.
Definition part_text (p : lpart) : str := List.concat (lp_words p).
Definition line_shows (l : line) : list str := filter nonempty (map part_text (l_parts l)).
(** The rectangles of ids: one for every id of a part that is not blank. *)
Definition part_marks (p : lpart) : list str :=
  match part_text p with [] => [] | _ => if isspace (part_text p) then [] else lp_ids p end.
Definition line_marks (l : line) : list str := flat_map part_marks (l_parts l).

Lemma compare_shown s o : shown (compare round3 fref s o) = [].
Proof.
  unfold compare. rewrite !shown_app. destruct (_ || _); destruct o as [o|]; cbn [shown flat_map app];
    repeat (destruct (negb _); cbn [shown flat_map app]); destruct (t_color s); reflexivity.
Qed.
Lemma output_text_shown p f e :
  shown (e_text (output_text round3 space_w fref p f e)) = shown (e_text e) ++ filter nonempty [part_text p].
Proof.
  unfold output_text. cbn [e_text]. rewrite !shown_app, compare_shown. cbn [app]. unfold part_text.
  f_equal. destruct (match e_tw e with Some t => _ | None => _ end); cbn [shown flat_map app];
    destruct (List.concat (lp_words p)); reflexivity.
Qed.
Lemma output_graphics_keeps p x y w e :
  e_text (output_graphics round3 p x y w e) = e_text e /\ e_ids (output_graphics round3 p x y w e) = e_ids e.
Proof.
  unfold output_graphics. destruct (y_bg (lp_style p)); destruct (y_under (lp_style p)); split; reflexivity.
Qed.
Lemma emit_parts_shown ps f : forall x e, let e' := emit_parts round3 space_w fref ps f x e in
  shown (e_text e') = shown (e_text e) ++ filter nonempty (map part_text ps) /\
  map fst (e_ids e') = map fst (e_ids e) ++ flat_map part_marks ps.
Proof.
  induction ps as [|p ps IH]; intros x e; cbn [emit_parts map filter flat_map].
  - rewrite !app_nil_r. split; reflexivity.
  - unfold emit_part.
    set (e2 := match List.concat (lp_words p) with [] => _ | _ => _ end).
    destruct (IH (x + part_width p f)%Q e2) as [A B].
    assert (C : shown (e_text e2) = shown (e_text e) ++ filter nonempty [part_text p] /\
                map fst (e_ids e2) = map fst (e_ids e) ++ part_marks p).
    { rewrite <- output_text_shown with (f := f). unfold e2, part_marks, part_text.
      destruct (List.concat (lp_words p)) as [|ch r]; [split; [reflexivity|now rewrite app_nil_r]|].
      destruct (isspace (ch :: r)); [split; [reflexivity|now rewrite app_nil_r]|].
      destruct (output_graphics_keeps p x (e_y (output_text round3 space_w fref p f e)) (part_width p f)
        (mkEm (e_started (output_text round3 space_w fref p f e)) (e_y (output_text round3 space_w fref p f e))
           (e_indent (output_text round3 space_w fref p f e)) (e_text (output_text round3 space_w fref p f e))
           (e_gfx (output_text round3 space_w fref p f e))
           (e_ids (output_text round3 space_w fref p f e) ++
            map (fun id => (id, (round3 x,
                round3 (e_y (output_text round3 space_w fref p f e) + t_rise (y_state (lp_style p)) - round3 (t_size (y_state (lp_style p))) * (1#4))%Q,
                round3 (x + part_width p f)%Q,
                round3 (e_y (output_text round3 space_w fref p f e) + t_rise (y_state (lp_style p)) - round3 (t_size (y_state (lp_style p))) * (1#4) + round3 (t_size (y_state (lp_style p))))%Q))) (lp_ids p))
           (e_state (output_text round3 space_w fref p f e)) (e_tw (output_text round3 space_w fref p f e))
           (e_fill (output_text round3 space_w fref p f e)) (e_color (output_text round3 space_w fref p f e))
           (e_sw (output_text round3 space_w fref p f e)))) as [D E].
      cbv zeta. rewrite D, E. split; [reflexivity|]. cbn [e_ids]. rewrite map_app, map_map. cbn [fst].
      rewrite map_id. reflexivity. }
    destruct C as [C1 C2]. cbv zeta. rewrite A, B, C1, C2, <- !app_assoc. split; [|reflexivity].
    f_equal. cbn [filter]. destruct (nonempty (part_text p)); reflexivity.
Qed.
Lemma start_line_shown c d l b e x f k1 k2 : start_line round3 fref c d l b = Ok (e, x, f, k1, k2) ->
  shown (e_text e) = shown (e_text (d_em d)) ++
    (match c_list c with
     | Some li => if negb (e_started (d_em d)) && d_first d then [li_text li] else []
     | None => []
     end) /\ e_ids e = e_ids (d_em d) /\ e_started e = true /\ (d_first d = false -> k1 = false).
Proof.
  unfold start_line. intros E.
  destruct (match c_list c with None => _ | Some _ => _ end) as [x0|er]; [|discriminate]. cbn [bind] in E.
  destruct (e_started (d_em d)); cbn [negb andb] in *.
  - injection E as <- _ _ <- _. unfold add_ops. cbn [e_text e_ids e_started]. rewrite shown_app. cbn [shown flat_map].
    split; [destruct (c_list c); reflexivity|]. auto.
  - destruct (d_first d) eqn:Ef.
    + destruct (c_list c) as [li|].
      * destruct (d_lstate d) as [ls|]; [|discriminate]. apply Ok_inj in E. apply (f_equal (fun q => (fst (fst (fst (fst q))), snd (fst q)))) in E. cbn [fst snd] in E.
        apply pair_equal_spec in E as [<- <-]. unfold add_ops. cbn [e_text e_ids e_started].
        rewrite !shown_app, compare_shown. cbn [shown flat_map app]. auto.
      * injection E as <- _ _ <- _. unfold add_ops. cbn [e_text e_ids e_started]. rewrite !shown_app. cbn. auto.
    + injection E as <- _ _ <- _. unfold add_ops. cbn [e_text e_ids e_started]. rewrite !shown_app. cbn [shown flat_map].
      split; [destruct (c_list c); reflexivity|]. auto.
Qed.
End Runs.

(** ** Invariants of the state alone *)

Section State.
Variable round3 : Q -> Q.
Variable text_w : fkey -> str -> Q.
Variable space_w : fkey -> Q.
Variable fref : fkey -> str.
Definition core (d : dyn) := (d_first d, d_correct d, d_width d, d_height d, d_h d, d_lines d, d_em d, d_marks d).
Lemma run_state_ind c (P : dyn -> Prop) :
  (forall d d', core d = core d' -> P d -> P d') ->
  (forall d cur b e x q f k, P d -> add_line_to_stream round3 space_w fref c d (flush cur b) b = Ok (e, x, q, f, k) ->
     P (accept c d (flush cur b) (mkMark b x q) e f k)) ->
  forall d w h d', P (init_run d w h) -> run round3 text_w space_w fref c d w h = Ok d' -> P d'.
Proof.
  intros Hc Ha d w h d' H0 E.
  assert (R : run_ind round3 text_w space_w fref c (fun _ d _ => P d) (fun _ _ d _ => P d) P).
  { constructor.
    - intros; assumption.
    - intros p d0 cur go d1 _ H El. apply add_current_line_spec in El. destruct go.
      + destruct El as (e & x & q & f & k & _ & Es & ->). apply Ha; [|exact Es]. apply (Hc d0); [reflexivity|exact H].
      + destruct El as [_ ->]. apply (Hc d0); [reflexivity|exact H].
    - intros p d0 cur t y ids d1 cur1 _ H Eb. destruct (begin_part_spec _ _ _ _ _ _ _ _ Eb) as (Hs & _).
      refine (Hc d0 _ _ H). unfold core. destruct Hs. congruence.
    - intros p i d0 cur t y ids w0 st cur1 _ _ H _. destruct st; try exact H; [apply (Hc d0); [reflexivity|exact H]|].
      intros go d1 mx El _. apply add_current_line_spec in El. destruct go.
      + destruct El as (e & x & q & f & k & _ & Es & ->). apply Ha; assumption.
      + destruct El as [_ ->]. apply (Hc d0); [reflexivity|exact H].
    - intros p i d0 cur t y ids _ _ H. apply (Hc d0); [reflexivity|exact H].
    - intros p d0 cur go d1 _ H El. apply add_current_line_spec in El. destruct go.
      + destruct El as (e & x & q & f & k & _ & Es & ->). apply (Hc (accept c d0 (flush cur true) (mkMark true x q) e f k)); [reflexivity|exact (Ha _ _ _ _ _ _ _ _ H Es)].
      + destruct El as [_ ->]. apply (Hc d0); [reflexivity|exact H]. }
  exact (run_induction round3 text_w space_w fref c _ _ _ R d w h d' H0 E).
Qed.

(** What a run shows: the list text, when it writes the first line of the
    paragraph, and the texts of the parts of its lines. *)
Lemma run_shown c d w h d' : run round3 text_w space_w fref c d w h = Ok d' ->
  shown (e_text (d_em d')) =
    (match c_list c with
     | Some li => if d_first d && negb (match d_lines d' with [] => true | _ => false end) then [li_text li] else []
     | None => []
     end) ++ flat_map line_shows (d_lines d') /\
  map fst (e_ids (d_em d')) = flat_map line_marks (d_lines d').
Proof.
  intros E.
  set (P := fun d0 =>
    shown (e_text (d_em d0)) =
      (match c_list c with
       | Some li => if d_first d && negb (match d_lines d0 with [] => true | _ => false end) then [li_text li] else []
       | None => []
       end) ++ flat_map line_shows (d_lines d0) /\
    map fst (e_ids (d_em d0)) = flat_map line_marks (d_lines d0) /\
    e_started (d_em d0) = negb (match d_lines d0 with [] => true | _ => false end) /\
    (d_lines d0 = [] -> d_first d0 = d_first d)).
  assert (H : P d'); [|destruct H as (A & B & _); split; assumption].
  refine (run_state_ind c P _ _ d w h d' _ E).
  - intros d1 d2 Hc. unfold core in Hc. injection Hc as H1 _ _ _ _ H2 H3 _. unfold P. rewrite H1, H2, H3. auto.
  - intros d1 cur b e x0 q0 f k (A & B & C & D) Es. unfold add_line_to_stream in Es.
    destruct (start_line _ _ _ _ _ _) as [[[[[e1 x] fa] k1] k2]|er] eqn:Est; [|discriminate]. cbn [bind] in Es.
    injection Es as <- <- <- <- <-. destruct (start_line_shown _ _ _ _ _ _ _ _ _ _ _ Est) as (S1 & S2 & S3 & _).
    destruct (emit_parts_shown round3 space_w fref (l_parts (flush cur b)) fa x e1) as [T1 T2].
    unfold P. cbn [accept d_em d_lines d_first].
    assert (T3 : e_started (emit_parts round3 space_w fref (l_parts (flush cur b)) fa x e1) = true).
    { rewrite <- S3. clear. revert x e1. induction (l_parts (flush cur b)) as [|p ps IH]; intros x e; [reflexivity|].
      cbn [emit_parts]. unfold emit_part. rewrite IH. destruct (List.concat (lp_words p)) as [|c0 r]; [reflexivity|].
      destruct (isspace (c0 :: r)); [reflexivity|]. unfold output_graphics.
      destruct (y_bg (lp_style p)); destruct (y_under (lp_style p)); reflexivity. }
    rewrite T1, T2, T3, S1, S2, A, B, C.
    assert (Hne : (match d_lines d1 ++ [flush cur b] with [] => true | _ => false end) = false) by (destruct (d_lines d1); reflexivity).
    rewrite Hne, !flat_map_app. cbn [negb flat_map]. rewrite !app_nil_r.
    split; [|split; [reflexivity|split; [reflexivity|]]].
    + destruct (c_list c) as [li|]; [|cbn [app]; now rewrite app_nil_r].
      destruct (d_lines d1) as [|l0 ls]; cbn [negb andb].
      * rewrite (D eq_refl). destruct (d_first d); reflexivity.
      * rewrite andb_true_r, app_nil_r, <- !app_assoc. reflexivity.
    + intros Hn. destruct (d_lines d1); discriminate.
  - unfold P. cbn. split; [|split; [reflexivity|split; [reflexivity|intros; reflexivity]]].
    destruct (c_list c); [|reflexivity]. rewrite andb_false_r. reflexivity.
Qed.
End State.
