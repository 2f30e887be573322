(** Every run makes progress when a line fits (C35), and what is kept by
    checkpoints (C36). *)
From Coq Require Import String QArith Lqa Lia.
From Verif Require Import Py PyStr Gfx TextLayout TextProofs TextWords TextOrder TextFit TextWidth TextEmit TextMarks.
Open Scope list_scope.

Section Term.
Variable round3 : Q -> Q.
Variable text_w : fkey -> str -> Q.
Variable space_w : fkey -> Q.
Variable fref : fkey -> str.
Notation run := (run round3 text_w space_w fref).
Notation runs := (runs round3 text_w space_w fref).

(** The styles of the parts of a content. *)
Definition styles (content : list cpart) : list style :=
  flat_map (fun x => match x with CText _ y _ => [y] | _ => [] end) content.
(** What was read before a position. *)
Definition len (content : list cpart) (p w : nat) : nat := List.length (before content p w).

Variable c : config.
Notation content := (c_content c).
Notation L := (len content).

Lemma L_S p : L (S p) 0 = (L p 0 + List.length (toks_at content p))%nat.
Proof. unfold len. rewrite before_S, app_length. reflexivity. Qed.
Lemma L_le p i : (L p 0 <= L p i <= L (S p) 0)%nat.
Proof.
  rewrite L_S. unfold len. rewrite (before_w _ p i), app_length, firstn_length. lia.
Qed.
Lemma L_step p t y ids i w : nth_error content p = Some (CText t y ids) -> nth_error (tokenize t) i = Some w -> L p (S i) = S (L p i).
Proof.
  intros Hp Hi. unfold len. erewrite before_step, app_length.
  - cbn. lia.
  - unfold toks_at. rewrite Hp. cbn. apply map_nth_error. exact Hi.
Qed.
Lemma L_all p i : (L p i <= List.length (all_toks content))%nat.
Proof. unfold len. rewrite <- (before_after content p i), app_length. lia. Qed.

(** The height of a line whose parts have styles of the paragraph. *)
Definition small (h M R : Q) : Prop :=
  (0 <= M /\ 0 <= R /\ M + R + c_lh c <= h)%Q /\
  (forall y, In y (styles content) -> t_size (y_state y) <= M /\ t_rise (y_state y) <= R)%Q.
Lemma max_size_le S ps : (0 <= S)%Q -> (forall p, In p ps -> t_size (y_state (lp_style p)) <= S)%Q -> (max_size ps <= S)%Q.
Proof.
  intros H0 Hp. unfold max_size. assert (G : forall a, (a <= S)%Q ->
    (fold_left (fun h p => if qgtb (t_size (y_state (lp_style p))) h then t_size (y_state (lp_style p)) else h) ps a <= S)%Q).
  { induction ps as [|p ps IH]; intros a Ha; cbn [fold_left]; [exact Ha|].
    apply IH; [intros q Hq; apply Hp; now right|]. destruct (qgtb _ _); [apply Hp; now left|exact Ha]. }
  apply G, H0.
Qed.
Lemma top_rise_le S ps : (0 <= S)%Q -> (forall p, In p ps -> t_rise (y_state (lp_style p)) <= S)%Q -> (top_rise ps <= S)%Q.
Proof.
  intros H0 Hp. unfold top_rise.
  match goal with |- (fold_left ?f ps 0 <= S)%Q => assert (G : forall a, (a <= S)%Q -> (fold_left f ps a <= S)%Q) end.
  { induction ps as [|p ps IH]; intros a Ha; cbn [fold_left]; [exact Ha|].
    apply IH; [intros q Hq; apply Hp; now right|]. destruct (_ && _); [apply Hp; now left|exact Ha]. }
  apply G, H0.
Qed.
Lemma small_line h M R l : small h M R -> incl (sty (l_parts l)) (styles content) -> l_top l = c_lh c -> (line_height l <= h)%Q.
Proof.
  intros [(HS & HR & Hh) Hy] Hi Ht. unfold line_height. rewrite Ht.
  assert (H : forall p, In p (l_parts l) -> In (lp_style p) (styles content)) by (intros p Hp; apply Hi, in_map, Hp).
  pose proof (max_size_le M (l_parts l) HS (fun p Hp => proj1 (Hy _ (H p Hp)))).
  pose proof (top_rise_le R (l_parts l) HR (fun p Hp => proj2 (Hy _ (H p Hp)))). lra.
Qed.

Variable n0 : nat.
Variable h : Q.
Record term_inv (p i : nat) (d : dyn) (cur : line) : Prop := {
  ti_ge : (n0 <= L (d_lpart d) (d_lword d))%nat;
  ti_gt : d_lines d <> [] -> (n0 < L (d_lpart d) (d_lword d))%nat;
  ti_le : (L (d_lpart d) (d_lword d) <= L p i)%nat;
  ti_added : l_started cur = true -> (L (d_lpart d) (d_lword d) < L (d_apart d) (d_aword d) <= L p i)%nat;
  ti_sty : incl (sty (l_parts cur) ++ sty (nparts cur)) (styles content);
  ti_first : d_lines d = [] -> l_top cur = c_lh c /\ d_h d = 0%Q /\ d_added d = false;
  ti_height : d_height d = h }.
Definition term_F (Sm : Prop) (d : dyn) : Prop :=
  d_fin d = true \/ (n0 <= L (d_part d) (d_word d))%nat /\ (Sm -> (n0 < L (d_part d) (d_word d))%nat).

Lemma flush_sty cur b : incl (sty (l_parts cur) ++ sty (nparts cur)) (styles content) -> incl (sty (l_parts (flush cur b))) (styles content).
Proof.
  intros H. rewrite flush_parts. destruct b; [unfold sty in *; rewrite map_app; exact H|].
  intros z Hz. apply H, in_app_iff. now left.
Qed.

Theorem term_ind done M R :
  run_ind round3 text_w space_w fref c
    (fun p d cur => order_G text_w space_w c done p d cur /\ term_inv p (d_word d) d cur)
    (fun p i d cur => order_W text_w space_w c done p i d cur /\ term_inv p i d cur) (term_F (small h M R)).
Proof.
  pose proof (order_ind round3 text_w space_w fref c done) as O.
  assert (Href : forall d cur b, (n0 <= L (d_lpart d) (d_lword d))%nat -> (d_lines d <> [] -> (n0 < L (d_lpart d) (d_lword d))%nat) ->
     incl (sty (l_parts (flush cur b))) (styles content) ->
     (d_lines d = [] -> l_top cur = c_lh c /\ d_h d = 0%Q /\ d_added d = false) -> d_height d = h ->
     (d_height d < line_cost c d (flush cur b) + d_h d)%Q -> term_F (small h M R) (refuse d)).
  { intros d cur b Hge Hg Hs Hf Hh Hlt. right. cbn [refuse d_part d_word]. split; [exact Hge|]. intros Hsm. apply Hg. intros Hn.
    destruct (Hf Hn) as (H1 & H2 & H3). unfold line_cost in Hlt. rewrite H3, H2, Hh in Hlt.
    pose proof (small_line h M R (flush cur b) Hsm Hs) as Hle. rewrite (proj2 (flush_same cur b)) in Hle. specialize (Hle H1). lra. }
  constructor.
  - intros p d cur Hp [HG [A B C D E F G]]. split; [exact (ri_other _ _ _ _ _ _ _ _ O p d cur Hp HG)|].
    assert (Hw : d_word d = 0%nat).
    { destruct HG as [_ Hpos]. destruct (d_word d); [reflexivity|]. destruct (Hpos (Nat.neq_succ_0 _)) as (t & y & ids & H). congruence. }
    rewrite Hw in *. assert (HL := L_le p 0). constructor; try assumption; try lia.
  - intros p d cur go d1 Hp [HG [A B C D E F G]] El.
    pose proof (ri_br _ _ _ _ _ _ _ _ O p d cur go d1 Hp HG El) as H.
    assert (Hw : d_word d = 0%nat).
    { destruct HG as [_ Hpos]. destruct (d_word d); [reflexivity|]. destruct (Hpos (Nat.neq_succ_0 _)) as (t & y & ids & Hx). congruence. }
    assert (HL : (L (S p) 0 = S (L p 0))%nat) by (rewrite L_S; unfold toks_at; rewrite Hp; cbn; lia).
    rewrite Hw in *. apply add_current_line_spec in El. destruct go.
    + destruct El as (e & x & q & f & k & _ & Es & ->). split; [exact H|].
      assert (Hlen : forall ls (l : line), ls ++ [l] <> []) by (intros ls l; destruct ls; discriminate).
      constructor; cbn [accept set_added d_lpart d_lword d_apart d_aword d_lines d_height d_word new_line l_started l_parts]; try lia; try discriminate.
      * rewrite Hw. lia.
      * intros z [].
      * intros Hn. exfalso. exact (Hlen _ _ Hn).
      * exact G.
    + destruct El as [Hlt ->]. apply (Href _ cur true); try assumption. apply flush_sty. exact E.
  - intros p d cur t y ids d1 cur1 Hp [HG [A B C D E F G]] Eb.
    split; [exact (ri_text _ _ _ _ _ _ _ _ O p d cur t y ids d1 cur1 Hp HG Eb)|].
    destruct (begin_part_spec _ _ _ _ _ _ _ _ Eb) as (Hs & _ & Hl & Hn & Ht & Hst & _).
    destruct Hs as [_ P2 P3 P4 P5 P6 _ _ _ _ P11 P12 P13 P14 _ _].
    constructor.
    + congruence.
    + rewrite P14, P3, P4. exact B.
    + rewrite P3, P4, P2. exact C.
    + rewrite Hst, P3, P4, P5, P6, P2. exact D.
    + rewrite Hl, Hn. unfold sty in *. rewrite map_app. cbn [map new_part lp_style].
      intros z Hz. rewrite !in_app_iff in Hz. destruct Hz as [Hz|[Hz|[<-|[]]]].
      * apply E, in_app_iff. now left.
      * apply E, in_app_iff. now right.
      * unfold styles. apply in_flat_map. exists (CText t y ids). split; [apply (nth_error_In _ p Hp)|left; reflexivity].
    + rewrite P14, Ht, P13, P12. exact F.
    + congruence.
  - intros p i d cur t y ids wd st cur1 Hp Hi [HW [A B C D E F G]] Ew.
    pose proof (ri_word _ _ _ _ _ _ _ _ O p i d cur t y ids wd st cur1 Hp Hi HW Ew) as H.
    destruct HW as [Ho (t' & y' & ids' & Hp' & Hcp)]. rewrite Hp in Hp'. injection Hp' as <- <- <-.
    assert (Hg : good_word wd) by (apply (good_token t), (nth_error_In _ i), Hi).
    destruct (add_word_spec text_w space_w (c_align c) cur wd y ids (or_wf _ _ _ _ _ _ _ _ Ho) Hcp Hg)
      as (st' & cur1' & E' & [_ Htop] & Hinc & H2). rewrite Ew in E'. injection E' as <- <-.
    pose proof (L_step p t y ids i wd Hp Hi) as HL.
    destruct st as [| | |nl].
    + split; [exact H|]. destruct H2 as (_ & _ & Hinc2 & _).
      constructor; cbn [set_added d_lpart d_lword d_apart d_aword d_lines d_height d_h d_added]; try assumption; try lia.
      * intros z Hz. apply E. rewrite in_app_iff in Hz. destruct Hz as [Hz|Hz]; [apply Hinc, Hz|apply Hinc2, Hz].
      * rewrite Htop. exact F.
    + split; [exact H|]. destruct H2 as (_ & -> & _). constructor; try assumption; try lia.
    + split; [exact H|]. destruct H2 as (_ & _ & Hinc2 & _ & Hs0 & Hs1 & _).
      constructor; try assumption; try lia.
      * intros z Hz. apply E. rewrite in_app_iff in Hz. destruct Hz as [Hz|Hz]; [apply Hinc, Hz|].
        apply in_app_iff. right. apply Hinc2, Hz.
      * rewrite Htop. exact F.
    + destruct H2 as (_ & Hst0 & Hwfn & _ & Hpn & Hsn & _ & Hnx & _ & Hincn & _ & _ & Hok & _). specialize (D Hst0).
      assert (Hsf : forall b, l_parts (flush cur1 b) = l_parts cur1) by (intros b; exact (flush_nl cur1 nl b Hnx Hpn)).
      intros go d1 mx El Em. specialize (H go d1 mx El Em). apply add_current_line_spec in El. destruct go.
      * destruct El as (e & x & q & f & k & _ & Es & ->). split; [exact H|].
        assert (Hlen : forall ls (l : line), ls ++ [l] <> []) by (intros ls l; destruct ls; discriminate).
        constructor; cbn [accept d_lpart d_lword d_apart d_aword d_lines d_height]; try lia.
        -- unfold relimit. cbn. congruence.
        -- destruct (relimit_same mx nl) as [_ R2]. rewrite R2. change (l_parts (relimit mx nl)) with (l_parts nl).
           rewrite Hpn. cbn [sty map app]. intros z Hz. apply E, in_app_iff. right. apply Hincn, Hz.
        -- intros Hn. exfalso. exact (Hlen _ _ Hn).
        -- exact G.
      * destruct El as [Hlt ->]. refine (Href d cur1 _ A B _ _ G Hlt); [|rewrite Htop; exact F].
        rewrite Hsf. intros z Hz. apply E, Hinc, Hz.
  - intros p i d cur t y ids Hp Hi [HW [A B C D E F G]]. split; [exact (ri_end _ _ _ _ _ _ _ _ O p i d cur t y ids Hp Hi HW)|].
    assert (HL := L_le p i).
    constructor; cbn [set_word d_lpart d_lword d_apart d_aword d_lines d_height d_word d_h d_added]; try assumption; try lia.
  - intros p d cur go d1 Hp [HG [A B C D E F G]] El. apply add_current_line_spec in El. destruct go.
    + left. reflexivity.
    + destruct El as [Hlt ->]. apply (Href _ cur true); try assumption. apply flush_sty. exact E.
Qed.
End Term.

Section Pages.
Variable round3 : Q -> Q.
Variable text_w : fkey -> str -> Q.
Variable space_w : fkey -> Q.
Variable fref : fkey -> str.
Notation run := (run round3 text_w space_w fref).
Notation runs := (runs round3 text_w space_w fref).

(** A run never goes back, and it goes on when a line fits. *)
Theorem run_forward c done d w h d' S R : paused c done d -> run c d w h = Ok d' ->
  d_fin d' = true \/
  (exists done', paused c done' d') /\ (len (c_content c) (d_part d) (d_word d) <= len (c_content c) (d_part d') (d_word d'))%nat /\
  (small c h S R -> (len (c_content c) (d_part d) (d_word d) < len (c_content c) (d_part d') (d_word d'))%nat).
Proof.
  intros Hpa E. pose proof (run_order _ _ _ _ _ _ _ _ _ _ Hpa E) as Ho.
  destruct Hpa as (Hf & [Hr Hp] & H1 & H2).
  assert (H : term_F c (len (c_content c) (d_part d) (d_word d)) (small c h S R) d').
  { refine (run_induction round3 text_w space_w fref c _ _ _ (term_ind _ _ _ _ c _ h done S R) d w h d' _ E). split.
    - split; [|exact Hp]. constructor; cbn [init_run d_lines d_lpart d_lword d_apart d_aword d_word d_fin d_part].
      + apply new_line_lwf.
      + cbn [lc flat_map app]. unfold chk, ctoks, otoks. cbn. rewrite app_nil_r. exact Hr.
      + rewrite H1, H2. cbn. rewrite app_nil_r. split; assumption.
      + discriminate.
      + exact Hf.
    - constructor; cbn [init_run d_lines d_lpart d_lword d_apart d_aword d_word d_fin d_part d_height d_h d_added first_line new_line l_started l_parts nparts l_next l_top];
        rewrite ?H1, ?H2; try lia; try congruence; try discriminate; try (intros z []). repeat split. }
  destruct Ho as [[Hd _]|(Hd & Hrd & Hl1 & Hl2)]; [left; exact Hd|].
  destruct H as [H|H]; [left; exact H|]. right. split; [|exact H]. exists (done ++ lc (d_lines d')). repeat split; try assumption; apply Hrd.
Qed.
Theorem run_progress c done d w h d' S R : small c h S R -> paused c done d -> run c d w h = Ok d' ->
  d_fin d' = true \/
  (exists done', paused c done' d') /\ (len (c_content c) (d_part d) (d_word d) < len (c_content c) (d_part d') (d_word d'))%nat.
Proof.
  intros Hsm Hpa E. destruct (run_forward c done d w h d' S R Hpa E) as [H|(H1 & _ & H2)]; [left; exact H|right; split; [exact H1|exact (H2 Hsm)]].
Qed.

(** Enough pages on which a line fits finish the paragraph. *)
Lemma runs_finish c S R : forall rects done d ds, Forall (fun r => small c (snd r) S R) rects -> paused c done d ->
  (List.length (all_toks (c_content c)) < len (c_content c) (d_part d) (d_word d) + List.length rects)%nat ->
  runs c d rects = Ok ds -> d_fin (last ds d) = true.
Proof.
  induction rects as [|[w h] rects IH]; intros done d ds Hs Hpa Hlen E; cbn [TextLayout.runs] in E.
  - cbn in Hlen. pose proof (L_all c (d_part d) (d_word d)). lia.
  - destruct (run c d w h) as [d1|er] eqn:Er; [|discriminate]. cbn [bind] in E.
    apply Forall_cons_iff in Hs as [Hs1 Hs2].
    destruct (d_fin d1) eqn:Ef; [injection E as <-; exact Ef|].
    destruct (runs c d1 rects) as [rest|er] eqn:Es; [|discriminate]. cbn [bind] in E. injection E as <-.
    destruct (run_progress c done d w h d1 S R Hs1 Hpa Er) as [H|[(done' & Hpa') Hlt]]; [congruence|].
    assert (Hl : last (d1 :: rest) d = last rest d1) by (destruct rest as [|a b]; [reflexivity|]; cbn [last]; clear; revert a; induction b; intros a0; [reflexivity|]; cbn in *; apply IHb).
    rewrite Hl. apply (IH done' d1 rest Hs2 Hpa'); [|exact Es]. cbn [List.length] in Hlen. lia.
Qed.
End Pages.

(** ** Checkpoints *)

Section Checkpoint.
Variable round3 : Q -> Q.
Variable text_w : fkey -> str -> Q.
Variable space_w : fkey -> Q.
Variable fref : fkey -> str.
Notation run := (run round3 text_w space_w fref).
Variable c : config.

(** For list paragraphs: what is known about the list text. *)
Definition list_alike (d e : dyn) : Prop :=
  match c_list c with
  | Some _ => d_listdone e = d_listdone d /\ d_lindent e = d_lindent d /\ d_lstate e = d_lstate d
  | None => True
  end.

(** What two states have in common during a replay: everything that decides
    where lines end, not the operators. *)
Record alike (d e : dyn) : Prop := {
  al_part : d_part e = d_part d; al_list : list_alike d e;
  al_word : d_word e = d_word d; al_first : d_first e = d_first d;
  al_width : d_width e = d_width d; al_height : d_height e = d_height d; al_added : d_added e = d_added d;
  al_h : d_h e = d_h d; al_lines : d_lines e = d_lines d; al_marks : d_marks e = d_marks d;
  al_started : e_started (d_em e) = e_started (d_em d);
  al_pos : d_lines d <> [] -> d_lpart e = d_lpart d /\ d_lword e = d_lword d }.
Definition added_alike (d e : dyn) : Prop := d_apart e = d_apart d /\ d_aword e = d_aword d.

(** The result of a step, in both. *)
Definition both {A} (P : A -> A -> Prop) (r s : res A) : Prop :=
  match r, s with Ok a, Ok b => P a b | Err x, Err y => True | _, _ => False end.

Definition ended (d e : dyn) : Prop :=
  list_alike d e /\ d_lines e = d_lines d /\ d_marks e = d_marks d /\ (d_lines d <> [] -> get_state e = get_state d).

Lemma emit_started ps f x e : e_started (emit_parts round3 space_w fref ps f x e) = e_started e.
Proof. apply emit_parts_keeps. Qed.
Lemma current_alike d e cur b : alike d e ->
  both (fun (x y : bool * dyn) => fst x = fst y /\
          if fst x then (added_alike d e -> alike (snd x) (snd y)) /\ (added_alike d e -> added_alike (snd x) (snd y)) /\
                        ended (set_fin (snd x)) (set_fin (snd y))
          else ended (snd x) (snd y))
    (add_current_line round3 space_w fref c d cur b) (add_current_line round3 space_w fref c e cur b).
Proof.
  intros [A1 L A2 A3 A4 A5 A6 A7 A8 A9 A10 A11]. unfold add_current_line. fold (flush cur b). rewrite A5, A6, A7.
  destruct (qgtb _ _).
  - cbn. split; [reflexivity|]. unfold ended. cbn. rewrite A8, A9. split; [exact L|]. split; [reflexivity|]. split; [reflexivity|].
    intros H. destruct (A11 H) as [-> ->]. reflexivity.
  - unfold add_line_to_stream, start_line. rewrite A3, A4, A10. unfold list_alike in *.
    destruct (c_list c) as [li|] eqn:Ec; [destruct L as (L1 & L2 & L3); rewrite L2, L3; destruct (d_lindent d) as [q|] eqn:Eq; [|exact I]; cbn [bind]; destruct (d_lstate d) as [ls|] eqn:Els|cbn [bind]];
    (destruct (negb (e_started (d_em d))); [destruct (d_first d) eqn:Ef|]); try exact I;
      cbn [bind both fst snd]; (split; [reflexivity|]);
      (split; [intros [B1 B2]|split; [intros [B1 B2]; split; cbn; assumption|
         unfold ended, list_alike, get_state; cbn; rewrite A8, A9, A1, A2, ?Ec; repeat split; congruence]]);
      constructor; unfold list_alike; rewrite ?Ec; cbn [d_listdone d_lindent d_lstate d_part d_word d_first d_width d_height d_added d_h d_lines d_marks d_em d_lpart d_lword]; try assumption.
    all: try (intros _; split; assumption).
    all: rewrite ?A8, ?A9; try reflexivity; try (repeat split; congruence).
    all: rewrite !emit_started; reflexivity.
Qed.

Lemma words_alike p lp : forall ws i d e cur, alike d e -> (l_started cur = true -> added_alike d e) ->
  both (fun (x y : bool * dyn * line) => fst (fst x) = fst (fst y) /\
          if fst (fst x) then alike (snd (fst x)) (snd (fst y)) /\ snd x = snd y /\
                              (l_started (snd x) = true -> added_alike (snd (fst x)) (snd (fst y)))
          else ended (snd (fst x)) (snd (fst y)))
    (words_loop round3 text_w space_w fref c p lp i ws d cur) (words_loop round3 text_w space_w fref c p lp i ws e cur).
Proof.
  induction ws as [|w ws IH]; intros i d e cur Ha Hs; cbn [words_loop].
  - cbn. split; [reflexivity|]. split; [exact Ha|]. split; [reflexivity|exact Hs].
  - destruct (add_word text_w space_w (c_align c) cur w) as [[st cur1]|er] eqn:Ea; [|exact I]. cbn [bind].
    assert (Hst : match st with Ignored => cur1 = cur | Preadded => l_started cur = true | Finished nl => l_started cur = true | Added => True end).
    { unfold add_word in Ea. destruct (l_started cur) eqn:El; cbn [negb] in Ea.
      - destruct st; try reflexivity; try exact I. destruct (isspace w).
        + destruct (l_lws cur); [congruence|]. destruct (add_accumulated _ _ _); discriminate.
        + destruct (next_add _ _ _) as [l1|]; [|discriminate]. cbn [bind] in Ea. destruct (l_next l1); [|discriminate].
          destruct (qgtb _ _); [discriminate|]. destruct (rev (l_parts l1)); discriminate.
      - destruct st; try exact I.
        + destruct (isspace w).
          * destruct (l_first cur); [destruct (add_accumulated _ _ _); discriminate|congruence].
          * destruct (next_add _ _ _); discriminate.
        + destruct (isspace w); [destruct (l_first cur); [destruct (add_accumulated _ _ _)|]|destruct (next_add _ _ _)]; discriminate.
        + destruct (isspace w); [destruct (l_first cur); [destruct (add_accumulated _ _ _)|]|destruct (next_add _ _ _)]; discriminate. }
    destruct st as [| | |nl].
    + apply IH; [|intros _; split; reflexivity]. destruct Ha. constructor; assumption.
    + subst cur1. apply IH; assumption.
    + apply IH; [assumption|]. intros _. exact (Hs Hst).
    + pose proof (current_alike d e cur1 (lp && match ws with [] => true | _ => false end) Ha) as H.
      destruct (add_current_line round3 space_w fref c d cur1 _) as [[g1 d1]|];
        destruct (add_current_line round3 space_w fref c e cur1 _) as [[g2 e1]|]; try contradiction; [|exact I].
      cbn [both fst snd bind] in *. destruct H as [<- H]. destruct g1.
      * destruct H as (H1 & H2 & _). specialize (H1 (Hs Hst)). specialize (H2 (Hs Hst)).
        rewrite (al_width _ _ H1). pose proof (al_list _ _ H1) as HL. unfold list_alike in HL.
        destruct (c_list c); [rewrite (proj1 (proj2 HL)); destruct (d_lindent d1); [|exact I]|]; (apply IH; [exact H1|intros _; exact H2]).
      * pose proof (proj1 H) as HL. unfold list_alike in HL. destruct (c_list c); [rewrite (proj1 (proj2 HL)); destruct (d_lindent d1); [|exact I]|]; (cbn; split; [reflexivity|exact H]).
Qed.

Lemma parts_alike : forall ps p d e cur, alike d e -> (l_started cur = true -> added_alike d e) ->
  both (fun (x y : bool * dyn * line) => fst (fst x) = fst (fst y) /\
          if fst (fst x) then alike (snd (fst x)) (snd (fst y)) /\ snd x = snd y
          else ended (snd (fst x)) (snd (fst y)))
    (parts_loop round3 text_w space_w fref c p ps d cur) (parts_loop round3 text_w space_w fref c p ps e cur).
Proof.
  induction ps as [|x ps IH]; intros p d e cur Ha Hs; cbn [parts_loop].
  - cbn. split; [reflexivity|]. split; [exact Ha|reflexivity].
  - destruct x as [|t y ids|].
    + assert (Ha' : alike (set_added d (S p) 0) (set_added e (S p) 0)) by (destruct Ha; constructor; assumption).
      pose proof (current_alike _ _ cur true Ha') as H.
      destruct (add_current_line round3 space_w fref c (set_added d (S p) 0) cur true) as [[g1 d1]|];
        destruct (add_current_line round3 space_w fref c (set_added e (S p) 0) cur true) as [[g2 e1]|]; try contradiction; [|exact I].
      cbn [both fst snd bind] in *. destruct H as [<- H]. destruct g1.
      * destruct H as (H1 & H2 & _). assert (Hx : added_alike (set_added d (S p) 0) (set_added e (S p) 0)) by (split; reflexivity).
        specialize (H1 Hx). rewrite (al_width _ _ H1). apply IH; [exact H1|]. cbn. discriminate.
      * cbn. split; [reflexivity|exact H].
    + unfold add_part. pose proof (al_list _ _ Ha) as HL. unfold list_alike in HL.
      assert (Hl : both (fun x y : dyn * line => alike (fst x) (fst y) /\ snd x = snd y /\ l_started (snd x) = l_started cur /\
                      (added_alike d e -> added_alike (fst x) (fst y)))
                (match c_list c with Some li => if d_listdone d then Ok (d, add_line_part cur y ids) else setup_list text_w li d (add_line_part cur y ids)
                 | None => Ok (d, add_line_part cur y ids) end)
                (match c_list c with Some li => if d_listdone e then Ok (e, add_line_part cur y ids) else setup_list text_w li e (add_line_part cur y ids)
                 | None => Ok (e, add_line_part cur y ids) end)).
      { destruct (c_list c) as [li|] eqn:Ec; [destruct HL as (L1 & L2 & L3); rewrite L1; destruct (d_listdone d); [cbn; auto|]|cbn; auto].
        unfold setup_list. destruct (l_next (add_line_part cur y ids)) as [n|]; [|exact I].
        destruct (l_parts n) as [|q0 qs]; [exact I|]. cbn [both fst snd]. rewrite L2.
        split; [destruct Ha; constructor; unfold list_alike; rewrite ?Ec; cbn; auto|]. split; [reflexivity|]. split; [reflexivity|]. intros H; exact H. }
      destruct (match c_list c with Some li => if d_listdone d then Ok (d, _) else setup_list text_w li d _ | None => _ end) as [[d0 cur0]|?];
        destruct (match c_list c with Some li => if d_listdone e then Ok (e, _) else setup_list text_w li e _ | None => _ end) as [[e00 cur1]|?];
        try contradiction; [|exact I].
      cbn [both fst snd bind] in *. destruct Hl as (Ha0 & <- & Hst0 & Had).
      assert (Hs0 : l_started cur0 = true -> added_alike d0 e00) by (rewrite Hst0; auto).
      clear Ha Hs Hst0 Had. rename Ha0 into Ha.
      assert (Ha' : alike (add_used d0 (t_font (y_state y))) (add_used e00 (t_font (y_state y)))) by (destruct Ha; constructor; assumption).
      cbn [add_used d_word]. rewrite (al_word _ _ Ha).
      pose proof (words_alike p (S p =? List.length (c_content c))%nat (skipn (d_word d0) (tokenize t)) (d_word d0)
                    _ _ cur0 Ha' Hs0) as H.
      destruct (words_loop round3 text_w space_w fref c p _ (d_word d0) _ (add_used d0 _) _) as [[[g1 d1] c1]|];
        destruct (words_loop round3 text_w space_w fref c p _ (d_word d0) _ (add_used e00 _) _) as [[[g2 e1] c2]|]; try contradiction; [|exact I].
      cbn [both fst snd bind] in *. destruct H as [<- H]. destruct g1; cbn [bind].
      * destruct H as (H1 & <- & H3). apply IH; [destruct H1; constructor; cbn; auto|exact H3].
      * cbn. split; [reflexivity|exact H].
    + apply IH; assumption.
Qed.

Theorem replay d e w h : d_part e = d_part d -> d_word e = d_word d -> d_first e = d_first d -> list_alike d e ->
  both ended (run c d w h) (run c e w h).
Proof.
  intros H1 H2 H3 H4. unfold TextLayout.run. cbn [init_run d_part d_first]. rewrite H1, H3.
  assert (Ha : alike (init_run d w h) (init_run e w h)).
  { constructor; try reflexivity; try assumption. intros H. now destruct H. }
  fold (init_run d w h). 
  pose proof (parts_alike (skipn (d_part d) (c_content c)) (d_part d) _ _ (new_line (w - (if d_first d then c_indent c else 0))%Q (c_lh c)) Ha) as H.
  assert (Hs : l_started (new_line (w - (if d_first d then c_indent c else 0))%Q (c_lh c)) = true -> added_alike (init_run d w h) (init_run e w h)) by discriminate.
  specialize (H Hs).
  change (mkDyn (d_part e) (d_word e) (d_lpart e) (d_lword e) (d_apart e) (d_aword e) (d_first e) (d_correct e) (d_listdone e) (d_fin e)
    (d_lindent e) (d_lstate e) w h false 0 [] em0 [] [] []) with (init_run e w h).
  destruct (parts_loop round3 text_w space_w fref c _ _ (init_run d w h) _) as [[[g1 d1] c1]|];
    destruct (parts_loop round3 text_w space_w fref c _ _ (init_run e w h) _) as [[[g2 e1] c2]|]; try contradiction; [|exact I].
  cbn [both fst snd bind] in *. destruct H as [<- H]. destruct g1.
  - destruct H as (H & <-). pose proof (current_alike d1 e1 c1 true H) as Hc.
    destruct (add_current_line round3 space_w fref c d1 c1 true) as [[g3 d2]|];
      destruct (add_current_line round3 space_w fref c e1 c1 true) as [[g4 e2]|]; try contradiction; [|exact I].
    cbn [both fst snd bind] in *. destruct Hc as [<- Hc]. destruct g3; [apply Hc|exact Hc].
  - exact H.
Qed.
End Checkpoint.
