(** Heights and widths of the lines of a paragraph (C32, C33, C35). *)
From Coq Require Import String QArith Lqa.
From Verif Require Import Py PyStr Gfx TextLayout TextProofs TextWords TextOrder.
Open Scope list_scope.

(** Specification: the height of lines, the first at face value and the
    others with the line height factor. *)
Definition rest_height (c : config) (ls : list line) : Q := fold_right (fun l q => (line_height l * c_lh c + q)%Q) 0%Q ls.
Definition total_height (c : config) (ls : list line) : Q :=
  match ls with [] => 0%Q | l :: r => (line_height l + rest_height c r)%Q end.
Lemma rest_height_app c a b : (rest_height c (a ++ b) == rest_height c a + rest_height c b)%Q.
Proof.
  induction a as [|l a IH].
  - change (rest_height c b == 0 + rest_height c b)%Q. ring.
  - change (line_height l * c_lh c + rest_height c (a ++ b) == line_height l * c_lh c + rest_height c a + rest_height c b)%Q.
    rewrite IH. ring.
Qed.
Lemma total_height_snoc c ls l : (total_height c (ls ++ [l]) ==
  total_height c ls + match ls with [] => line_height l | _ => line_height l * c_lh c end)%Q.
Proof.
  destruct ls as [|a r]; cbn [app total_height].
  - change (line_height l + 0 == 0 + line_height l)%Q. ring.
  - rewrite rest_height_app. change (rest_height c [l]) with (line_height l * c_lh c + 0)%Q. ring.
Qed.

Section Fit.
Variable round3 : Q -> Q.
Variable text_w : fkey -> str -> Q.
Variable space_w : fkey -> Q.
Variable fref : fkey -> str.
Notation run := (run round3 text_w space_w fref).
Notation runs := (runs round3 text_w space_w fref).
Notation add_current_line := (add_current_line round3 space_w fref).
Notation words_loop := (words_loop round3 text_w space_w fref).
Notation parts_loop := (parts_loop round3 text_w space_w fref).
Notation add_part := (add_part round3 text_w space_w fref).
Notation lwf := (lwf text_w space_w).

(** ** Height *)

Definition no_lines (d : dyn) : bool := match d_lines d with [] => true | _ => false end.
Record height_inv (c : config) (w h : Q) (d : dyn) : Prop := {
  hi_w : d_width d = w; hi_h : d_height d = h;
  hi_sum : (d_h d == total_height c (d_lines d))%Q;
  hi_bound : d_lines d <> [] -> (d_h d <= h)%Q;
  hi_y : c_list c = None -> (e_y (d_em d) == - d_h d)%Q;
  hi_started : e_started (d_em d) = negb (no_lines d) }.
Definition height_G (c : config) (w h : Q) (d : dyn) : Prop := height_inv c w h d /\ d_added d = negb (no_lines d).

Lemma emit_parts_keeps ps f : forall x e, let e' := emit_parts round3 space_w fref ps f x e in
  e_started e' = e_started e /\ e_y e' = e_y e /\ e_indent e' = e_indent e.
Proof.
  induction ps as [|p ps IH]; intros x e; [repeat split|]. cbn [emit_parts]. unfold emit_part.
  match goal with |- context [emit_parts _ _ _ ps f _ ?e2] => destruct (IH (x + part_width p f)%Q e2) as (A & B & C) end.
  cbv zeta. rewrite A, B, C. clear.
  destruct (List.concat (lp_words p)) as [|c0 r]; [repeat split|].
  destruct (isspace (c0 :: r)); [repeat split|]. unfold output_graphics.
  destruct (y_bg (lp_style p)); destruct (y_under (lp_style p)); repeat split.
Qed.
Lemma line_y c d l b e x q f k : add_line_to_stream round3 space_w fref c d l b = Ok (e, x, q, f, k) ->
  e_started e = true /\ (c_list c = None -> e_y e = (e_y (d_em d) - (if e_started (d_em d) then line_height l * c_lh c else line_height l))%Q).
Proof.
  unfold add_line_to_stream. destruct (start_line _ _ _ _ _ _) as [[[[[e1 x1] q1] f1] k1]|er] eqn:E; [|discriminate].
  cbn [bind]. intros H. injection H as <- _ _ _ _.
  destruct (emit_parts_keeps (l_parts l) q1 x1 e1) as (A & B & _). rewrite A, B. clear A B.
  unfold start_line in E. destruct (c_list c) as [li|]; cbn [bind] in E.
  - split; [|discriminate]. destruct (d_lindent d); [|discriminate]. cbn [bind] in E.
    destruct (e_started (d_em d)); cbn [negb] in E.
    + injection E as <- _ _ _ _. reflexivity.
    + destruct (d_first d); [destruct (d_lstate d); [|discriminate]|]; injection E as <- _ _ _ _; reflexivity.
  - destruct (e_started (d_em d)); cbn [negb] in E.
    + injection E as <- _ _ _ _. split; reflexivity.
    + destruct (d_first d); injection E as <- _ _ _ _; split; reflexivity.
Qed.

Lemma height_accept c w h d cur b e x q f k : height_G c w h d ->
  ~ (d_height d < line_cost c d (flush cur b) + d_h d)%Q ->
  add_line_to_stream round3 space_w fref c d (flush cur b) b = Ok (e, x, q, f, k) ->
  height_G c w h (accept c d (flush cur b) (mkMark b x q) e f k).
Proof.
  intros [[A B C D E F] G] Hn Es. destruct (line_y _ _ _ _ _ _ _ _ _ Es) as [S1 S2].
  assert (Hc : line_cost c d (flush cur b) = match d_lines d with [] => line_height (flush cur b) | _ => line_height (flush cur b) * c_lh c end%Q).
  { unfold line_cost. rewrite G. unfold no_lines. destruct (d_lines d); reflexivity. }
  assert (Hne : no_lines (accept c d (flush cur b) (mkMark b x q) e f k) = false).
  { unfold no_lines. cbn. destruct (d_lines d); reflexivity. }
  split; [|rewrite Hne; reflexivity].
  constructor; cbn [accept d_width d_height d_h d_lines d_em]; try assumption.
  - rewrite total_height_snoc, C, Hc. reflexivity.
  - intros _. rewrite B in Hn. apply Qnot_lt_le in Hn. rewrite Qplus_comm. exact Hn.
  - intros Hl. rewrite (S2 Hl), (E Hl), F, Hc. unfold no_lines. destruct (d_lines d); cbn [negb]; ring.
  - rewrite Hne, S1. reflexivity.
Qed.
Lemma height_refuse c w h d : height_inv c w h d -> height_inv c w h (refuse d).
Proof. intros [A B C D E F]. constructor; assumption. Qed.

Lemma height_ind c w h : run_ind round3 text_w space_w fref c
  (fun _ d _ => height_G c w h d) (fun _ _ d _ => height_G c w h d) (height_inv c w h).
Proof.
  constructor.
  - intros; assumption.
  - intros p d cur go d1 _ H El. apply add_current_line_spec in El. destruct go.
    + destruct El as (e & x & q & f & k & Hn & Es & ->). apply height_accept; try assumption.
      destruct H as [[A B C D E F] G]. split; [constructor|]; assumption.
    + destruct El as [_ ->]. apply height_refuse. destruct H as [[A B C D E F] G]. constructor; assumption.
  - intros p d cur t y ids d1 cur1 _ [[A B C D E F] G] Eb. destruct (begin_part_spec _ _ _ _ _ _ _ _ Eb) as (Hs & _).
    destruct Hs. unfold height_G, no_lines in *. split; [constructor|]; unfold no_lines in *;
      rewrite ?sp_h, ?sp_lines, ?sp_em, ?sp_width, ?sp_height, ?sp_added; assumption.
  - intros p i d cur t y ids w0 st cur1 _ _ [[A B C D E F] G] _. destruct st.
    + split; [constructor|]; assumption.
    + split; [constructor|]; assumption.
    + split; [constructor|]; assumption.
    + intros go d1 mx El _. apply add_current_line_spec in El. destruct go.
      * destruct El as (e & x & q & f & k & Hn & Es & ->). apply height_accept; try assumption. split; [constructor|]; assumption.
      * destruct El as [_ ->]. apply height_refuse. constructor; assumption.
  - intros p i d cur t y ids _ _ [[A B C D E F] G]. split; [constructor|]; assumption.
  - intros p d cur go d1 _ H El. apply add_current_line_spec in El. destruct go.
    + destruct El as (e & x & q & f & k & Hn & Es & ->). destruct (height_accept _ _ _ _ _ _ _ _ _ _ _ H Hn Es) as [[A B C D E F] _].
      constructor; assumption.
    + destruct El as [_ ->]. apply height_refuse. apply H.
Qed.

Lemma run_height c d w h d' : run c d w h = Ok d' -> height_inv c w h d'.
Proof.
  intros E. refine (run_induction _ _ _ _ _ _ _ _ (height_ind c w h) d w h d' _ E).
  split; [|reflexivity]. constructor; cbn; try reflexivity. intros H. congruence.
Qed.

(** ** Lines are left out only when they do not fit *)

Definition seth (d : dyn) (h : Q) : dyn :=
  mkDyn (d_part d) (d_word d) (d_lpart d) (d_lword d) (d_apart d) (d_aword d) (d_first d) (d_correct d) (d_listdone d) (d_fin d)
    (d_lindent d) (d_lstate d) (d_width d) h (d_added d) (d_h d) (d_lines d) (d_em d) (d_used d) (d_cused d) (d_marks d).

(** Loops only append lines and only [run] sets [d_fin]. *)
Definition extends (d d1 : dyn) : Prop := (exists rest, d_lines d1 = d_lines d ++ rest) /\ d_fin d1 = d_fin d.
Lemma extends_refl d : extends d d.
Proof. split; [exists []; now rewrite app_nil_r|reflexivity]. Qed.
Lemma extends_trans a b c : extends a b -> extends b c -> extends a c.
Proof. intros [[r1 H1] F1] [[r2 H2] F2]. split; [exists (r1 ++ r2); rewrite H2, H1, app_assoc; reflexivity|congruence]. Qed.
Lemma current_extends c d cur b go d1 : add_current_line c d cur b = Ok (go, d1) -> extends d d1.
Proof.
  intros E. apply add_current_line_spec in E. destruct go.
  - destruct E as (e & x & q & f & k & _ & _ & ->). split; [exists [flush cur b]|]; reflexivity.
  - destruct E as [_ ->]. split; [exists []; cbn; now rewrite app_nil_r|reflexivity].
Qed.
Lemma words_extends c p lp : forall ws i d cur go d1 cur1,
  words_loop c p lp i ws d cur = Ok (go, d1, cur1) -> extends d d1.
Proof.
  induction ws as [|w ws IH]; intros i d cur go d1 cur1 E; cbn [TextLayout.words_loop] in E.
  - injection E as _ <- _. apply extends_refl.
  - destruct (add_word _ _ _ _ _) as [[st cur2]|er]; [|discriminate]. cbn [bind] in E. destruct st as [| | |nl].
    + apply IH in E. exact E.
    + apply IH in E. exact E.
    + apply IH in E. exact E.
    + destruct (add_current_line c d cur2 _) as [[go1 d2]|er] eqn:El; [|discriminate]. cbn [bind] in E.
      destruct (match c_list c with None => _ | Some _ => _ end) as [mx|er]; [|discriminate]. cbn [bind] in E.
      apply current_extends in El. destruct go1.
      * apply IH in E. eapply extends_trans; eassumption.
      * injection E as _ <- _. exact El.
Qed.
Lemma begin_extends c y ids d cur d1 cur1 : begin_part text_w c y ids d cur = Ok (d1, cur1) -> extends d d1.
Proof.
  intros E. destruct (begin_part_spec _ _ _ _ _ _ _ _ E) as (Hs & _). destruct Hs. split; [exists []; rewrite app_nil_r|]; assumption.
Qed.

(** [add_part] in terms of [begin_part]. *)
Lemma add_part_begin c p t y ids d cur : add_part c p t y ids d cur =
  do dl <- begin_part text_w c y ids d cur;
  let '(d1, cur2) := dl in
  do r <- words_loop c p (S p =? List.length (c_content c))%nat (d_word d1) (skipn (d_word d1) (tokenize t)) d1 cur2;
  let '(go, d2, cur3) := r in
  if go then Ok (true, set_word d2 0, cur3) else Ok (false, d2, cur3).
Proof.
  unfold TextLayout.add_part, begin_part.
  destruct (match c_list c with Some _ => _ | None => _ end) as [[d0 cur2]|e]; reflexivity.
Qed.
Lemma part_extends c p t y ids d cur go d1 cur1 : add_part c p t y ids d cur = Ok (go, d1, cur1) -> extends d d1.
Proof.
  rewrite add_part_begin. destruct (begin_part _ _ _ _ _ _) as [[d0 cur2]|e] eqn:Eb; [|discriminate]. cbn [bind].
  destruct (words_loop _ _ _ _ _ _ _) as [[[go1 d2] cur3]|e] eqn:Ew; [|discriminate]. cbn [bind].
  apply begin_extends in Eb. apply words_extends in Ew. intros E.
  destruct go1; injection E as _ <- _; [|exact (extends_trans _ _ _ Eb Ew)]. exact (extends_trans _ _ _ Eb Ew).
Qed.
Lemma parts_extends c : forall ps p d cur go d1 cur1, parts_loop c p ps d cur = Ok (go, d1, cur1) -> extends d d1.
Proof.
  induction ps as [|x ps IH]; intros p d cur go d1 cur1 E; cbn [TextLayout.parts_loop] in E.
  - injection E as _ <- _. apply extends_refl.
  - destruct x as [|t y ids|].
    + destruct (add_current_line c _ cur true) as [[go1 d2]|e] eqn:El; [|discriminate]. cbn [bind] in E.
      apply current_extends in El. destruct go1; [apply IH in E; exact (extends_trans _ _ _ El E)|].
      injection E as _ <- _. exact El.
    + destruct (add_part c p t y ids d cur) as [[[go1 d2] cur2]|e] eqn:Ea; [|discriminate]. cbn [bind] in E.
      apply part_extends in Ea. destruct go1; [apply IH in E; exact (extends_trans _ _ _ Ea E)|].
      injection E as _ <- _. exact Ea.
    + apply IH in E. exact E.
Qed.

(** A larger height: the same lines and then more. *)
Definition stopped_at (c : config) (h : Q) (d1 d2 : dyn) : Prop :=
  exists rest, d_lines d2 = d_lines d1 ++ rest /\ (rest = [] -> d_fin d2 = false) /\
    forall l r, rest = l :: r -> (h < d_h d1 + match d_lines d1 with [] => line_height l | _ => line_height l * c_lh c end)%Q.
Lemma stopped_more c h d1 d2 d3 : stopped_at c h d1 d2 -> extends d2 d3 -> d_lines d2 <> d_lines d1 \/ d_lines d3 = d_lines d2 ->
  stopped_at c h d1 d3.
Proof.
  intros (rest & H1 & H2 & H3) [[r2 E1] E2] Hor. exists (rest ++ r2). rewrite E1, H1, app_assoc. split; [reflexivity|].
  destruct rest as [|l rest].
  - rewrite app_nil_r in H1. destruct Hor as [Hor|Hor]; [congruence|].
    assert (r2 = []) by (rewrite E1 in Hor; rewrite <- app_nil_r in Hor; now apply app_inv_head in Hor). subst r2.
    split; [intros _; rewrite E2; now apply H2|]. intros l r H. discriminate.
  - split; [discriminate|]. intros l0 r0 [= <- <-]. now apply (H3 l rest).
Qed.

Lemma current_same c d cur b h' : (d_height d <= h')%Q -> d_added d = negb (no_lines d) -> d_fin d = false ->
  forall go d1, add_current_line c d cur b = Ok (go, d1) ->
  if go then add_current_line c (seth d h') cur b = Ok (true, seth d1 h')
  else d_lines d1 = d_lines d /\ forall go2 d2, add_current_line c (seth d h') cur b = Ok (go2, d2) ->
    stopped_at c (d_height d) d1 d2 /\ (go2 = false -> d_lines d2 = d_lines d1) /\ (go2 = true -> d_lines d2 <> d_lines d1).
Proof.
  intros Hh Ha Hfin go d1 E. pose proof E as E0. apply add_current_line_spec in E. destruct go.
  - destruct E as (e & x & q & f & k & Hn & Es & ->).
    assert (Hn2 : qgtb (line_cost c d (flush cur b) + d_h d) h' = false).
    { unfold qgtb. apply negb_false_iff. apply Qle_bool_iff. apply Qnot_lt_le in Hn. eapply Qle_trans; eassumption. }
    unfold TextLayout.add_current_line. fold (flush cur b). cbn [seth d_added d_h d_height].
    change (if d_added d then (line_height (flush cur b) * c_lh c)%Q else line_height (flush cur b)) with (line_cost c d (flush cur b)).
    rewrite Hn2. change (add_line_to_stream round3 space_w fref c (seth d h') (flush cur b) b)
      with (add_line_to_stream round3 space_w fref c d (flush cur b) b). rewrite Es. reflexivity.
  - destruct E as [Hlt ->]. split; [reflexivity|]. intros go2 d2 E2. apply add_current_line_spec in E2.
    assert (Hcost : line_cost c d (flush cur b) = match d_lines d with [] => line_height (flush cur b) | _ => line_height (flush cur b) * c_lh c end%Q).
    { unfold line_cost. rewrite Ha. unfold no_lines. destruct (d_lines d); reflexivity. }
    destruct go2.
    + destruct E2 as (e & x & q & f & k & _ & _ & ->). split; [|split; [discriminate|]].
      * exists [flush cur b]. split; [reflexivity|]. split; [discriminate|]. intros l r [= <- <-].
        cbn [refuse d_h d_lines]. rewrite <- Hcost, Qplus_comm. exact Hlt.
      * intros _. cbn. intros H. rewrite <- app_nil_r in H. apply app_inv_head in H. discriminate.
    + destruct E2 as [_ ->]. split; [|split; [reflexivity|discriminate]].
      exists []. split; [cbn; now rewrite app_nil_r|]. split; [intros _; exact Hfin|]. intros l r H. discriminate.
Qed.

Definition tracked (d : dyn) : Prop := d_added d = negb (no_lines d) /\ d_fin d = false.
Lemma current_tracked c d cur b d1 : tracked d -> add_current_line c d cur b = Ok (true, d1) -> tracked d1 /\ d_height d1 = d_height d.
Proof.
  intros [A B] E. apply add_current_line_spec in E. destruct E as (e & x & q & f & k & _ & _ & ->).
  split; [split; [|exact B]|reflexivity]. cbn. unfold no_lines. cbn. destruct (d_lines d); reflexivity.
Qed.

Lemma words_same c p lp h' : forall ws i d cur, (d_height d <= h')%Q -> tracked d ->
  forall go d1 cur1, words_loop c p lp i ws d cur = Ok (go, d1, cur1) ->
  if go then words_loop c p lp i ws (seth d h') cur = Ok (true, seth d1 h', cur1) /\ tracked d1 /\ d_height d1 = d_height d
  else forall go2 d2 cur2, words_loop c p lp i ws (seth d h') cur = Ok (go2, d2, cur2) ->
    stopped_at c (d_height d) d1 d2 /\ (go2 = true -> d_lines d2 <> d_lines d1).
Proof.
  induction ws as [|w ws IH]; intros i d cur Hh Ht go d1 cur1 E; cbn [TextLayout.words_loop] in E |- *.
  - injection E as <- <- <-. repeat split; apply Ht.
  - destruct (add_word _ _ _ _ _) as [[st cur2]|er]; [|discriminate]. cbn [bind] in E |- *. destruct st as [| | |nl].
    + apply (IH _ (set_added d p (S i)) _ Hh Ht _ _ _ E).
    + apply (IH _ d _ Hh Ht _ _ _ E).
    + apply (IH _ d _ Hh Ht _ _ _ E).
    + set (b := lp && _) in *.
      destruct (add_current_line c d cur2 b) as [[go1 d3]|er] eqn:El; [|discriminate]. cbn [bind] in E.
      pose proof (current_same c d cur2 b h' Hh (proj1 Ht) (proj2 Ht) _ _ El) as Hc.
      fold (limit_of c d3) in E. destruct (limit_of c d3) as [mx|er] eqn:Em; [|discriminate]. cbn [bind] in E.
      fold (relimit mx nl) in E. destruct go1.
      * rewrite Hc. cbn [bind]. fold (limit_of c (seth d3 h')). change (limit_of c (seth d3 h')) with (limit_of c d3).
        rewrite Em. cbn [bind]. fold (relimit mx nl).
        destruct (current_tracked _ _ _ _ _ Ht El) as [Ht3 Hh3].
        assert (Hle : (d_height d3 <= h')%Q) by (rewrite Hh3; exact Hh).
        pose proof (IH (S i) d3 (relimit mx nl) Hle Ht3 _ _ _ E) as H. rewrite Hh3 in H. exact H.
      * injection E as <- <- <-. destruct Hc as [_ Hc]. intros go2 d2 cur3 E2.
        destruct (add_current_line c (seth d h') cur2 b) as [[go3 d4]|er] eqn:El2; [|discriminate]. cbn [bind] in E2.
        fold (limit_of c d4) in E2. destruct (limit_of c d4) as [mx2|er]; [|discriminate]. cbn [bind] in E2.
        destruct (Hc _ _ eq_refl) as (Hs & Hf & Hg). destruct go3.
        -- apply words_extends in E2. pose proof (Hg eq_refl) as Hg2. split; [|intros _].
           ++ eapply stopped_more; [exact Hs|exact E2|now left].
           ++ destruct Hs as (rest & R1 & _ & _). destruct E2 as [[r2 E2] _]. rewrite E2, R1.
              intros H. rewrite <- app_assoc in H. rewrite <- (app_nil_r (d_lines d3)) in H at 2. apply app_inv_head in H.
              apply app_eq_nil in H as [H _]. subst rest. rewrite app_nil_r in R1. congruence.
        -- injection E2 as <- <- <-. split; [exact Hs|discriminate].
Qed.

Lemma begin_seth c y ids d cur h' : begin_part text_w c y ids (seth d h') cur =
  match begin_part text_w c y ids d cur with Ok (d1, cur1) => Ok (seth d1 h', cur1) | Err e => Err e end.
Proof.
  unfold begin_part. cbn [seth d_listdone]. destruct (c_list c) as [li|]; [|reflexivity].
  destruct (d_listdone d); [reflexivity|]. unfold setup_list.
  destruct (l_next (add_line_part cur y ids)) as [n|]; [|reflexivity]. destruct (l_parts n); reflexivity.
Qed.
Lemma begin_tracked c y ids d cur d1 cur1 : begin_part text_w c y ids d cur = Ok (d1, cur1) -> tracked d ->
  tracked d1 /\ d_height d1 = d_height d.
Proof.
  intros E [A B]. destruct (begin_part_spec _ _ _ _ _ _ _ _ E) as (Hs & _). destruct Hs. unfold tracked, no_lines in *.
  rewrite sp_added, sp_lines, sp_fin. repeat split; assumption.
Qed.

Lemma parts_same c h' : forall ps p d cur, (d_height d <= h')%Q -> tracked d ->
  forall go d1 cur1, parts_loop c p ps d cur = Ok (go, d1, cur1) ->
  if go then parts_loop c p ps (seth d h') cur = Ok (true, seth d1 h', cur1) /\ tracked d1 /\ d_height d1 = d_height d
  else forall go2 d2 cur2, parts_loop c p ps (seth d h') cur = Ok (go2, d2, cur2) ->
    stopped_at c (d_height d) d1 d2 /\ (go2 = true -> d_lines d2 <> d_lines d1).
Proof.
  assert (Hmore : forall h d1 d3 d2 go3 go2, stopped_at c h d1 d3 -> (go3 = true -> d_lines d3 <> d_lines d1) -> extends d3 d2 ->
     (go3 = false -> d2 = d3 /\ go2 = false) -> stopped_at c h d1 d2 /\ (go2 = true -> d_lines d2 <> d_lines d1)).
  { intros h d1 d3 d2 go3 go2 Hs Hg He Hf. destruct go3.
    - pose proof (Hg eq_refl) as Hg2. split; [|intros _].
      + eapply stopped_more; [exact Hs|exact He|now left].
      + destruct Hs as (rest & R1 & _ & _). destruct He as [[r2 E2] _]. rewrite E2, R1.
        intros H. rewrite <- app_assoc in H. rewrite <- (app_nil_r (d_lines d1)) in H at 2. apply app_inv_head in H.
        apply app_eq_nil in H as [H _]. subst rest. rewrite app_nil_r in R1. congruence.
    - destruct (Hf eq_refl) as [-> ->]. split; [exact Hs|discriminate]. }
  induction ps as [|x ps IH]; intros p d cur Hh Ht go d1 cur1 E; cbn [TextLayout.parts_loop] in E |- *.
  - injection E as <- <- <-. repeat split; apply Ht.
  - destruct x as [|t y ids|].
    + destruct (add_current_line c (set_added d (S p) 0) cur true) as [[go1 d3]|er] eqn:El; [|discriminate]. cbn [bind] in E.
      change (set_added (seth d h') (S p) 0) with (seth (set_added d (S p) 0) h').
      pose proof (current_same c (set_added d (S p) 0) cur true h' Hh (proj1 Ht) (proj2 Ht) _ _ El) as Hc.
      destruct go1.
      * rewrite Hc. cbn [bind]. assert (Ht0 : tracked (set_added d (S p) 0)) by exact Ht.
        destruct (current_tracked _ _ _ _ _ Ht0 El) as [Ht3 Hh3]. cbn [set_added d_height] in Hh3.
        assert (Hle : (d_height d3 <= h')%Q) by (rewrite Hh3; exact Hh).
        pose proof (IH (S p) d3 (new_line (d_width d3) (c_lh c)) Hle Ht3 _ _ _ E) as H. rewrite Hh3 in H. exact H.
      * injection E as <- <- <-. destruct Hc as [_ Hc]. intros go2 d2 cur2 E2.
        destruct (add_current_line c (seth _ h') cur true) as [[go3 d4]|er] eqn:El2; [|discriminate]. cbn [bind] in E2.
        destruct (Hc _ _ eq_refl) as (Hs & Hf & Hg). cbn [set_added d_height] in Hs.
        apply (Hmore _ _ d4 d2 go3 go2 Hs Hg).
        -- destruct go3; [exact (parts_extends _ _ _ _ _ _ _ _ E2)|]. injection E2 as _ <- _. apply extends_refl.
        -- intros ->. injection E2 as <- <- _. split; reflexivity.
    + rewrite add_part_begin in E |- *. rewrite begin_seth.
      destruct (begin_part text_w c y ids d cur) as [[d0 cur0]|er] eqn:Eb; [|discriminate]. cbn [bind] in E |- *.
      destruct (begin_tracked _ _ _ _ _ _ _ Eb Ht) as [Ht0 Hh0].
      assert (Hle0 : (d_height d0 <= h')%Q) by (rewrite Hh0; exact Hh).
      cbn [seth d_word].
      destruct (words_loop c p _ (d_word d0) _ d0 cur0) as [[[go1 d3] cur3]|er] eqn:Ew; [|discriminate]. cbn [bind] in E.
      pose proof (words_same _ _ _ h' _ _ _ _ Hle0 Ht0 _ _ _ Ew) as Hw. destruct go1; cbn [bind] in E.
      * destruct Hw as (Hw & Ht3 & Hh3). rewrite Hw. cbn [bind].
        assert (Hle : (d_height (set_word d3 0) <= h')%Q) by (cbn; rewrite Hh3; exact Hle0).
        assert (Ht4 : tracked (set_word d3 0)) by exact Ht3.
        pose proof (IH (S p) (set_word d3 0) cur3 Hle Ht4 _ _ _ E) as H. cbn [set_word d_height] in H.
        rewrite Hh3, Hh0 in H. exact H.
      * injection E as <- <- <-. intros go2 d2 cur2 E2.
        destruct (words_loop c p _ (d_word d0) _ (seth d0 h') cur0) as [[[go3 d4] cur4]|er] eqn:Ew2; [|discriminate]. cbn [bind] in E2.
        destruct (Hw _ _ _ eq_refl) as [Hs Hg]. rewrite Hh0 in Hs.
        destruct go3; cbn [bind] in E2.
        -- apply parts_extends in E2. apply (Hmore _ _ d4 d2 true go2 Hs Hg E2). discriminate.
        -- injection E2 as <- <- _. apply (Hmore _ _ d4 d4 false false Hs Hg); [apply extends_refl|]. intros _. split; reflexivity.
    + apply (IH (S p) d cur Hh Ht _ _ _ E).
Qed.

(** In a higher rectangle a run that stopped gets the same lines and then the
    one that did not fit. *)
Lemma run_greedy c d w h h' d1 d2 : (h <= h')%Q -> d_fin d = false -> run c d w h = Ok d1 -> run c d w h' = Ok d2 ->
  if d_fin d1 then d2 = seth d1 h'
  else exists rest, d_lines d2 = d_lines d1 ++ rest /\ (rest = [] -> d_fin d2 = false) /\
    forall l r, rest = l :: r -> (h < total_height c (d_lines d1 ++ [l]))%Q.
Proof.
  intros Hh Hf E1 E2.
  assert (Hhi := run_height _ _ _ _ _ E1).
  unfold TextLayout.run in E1, E2. cbn [init_run d_part d_first] in E1, E2.
  fold (init_run d w h) in E1. fold (init_run d w h') in E2.
  change (init_run d w h') with (seth (init_run d w h) h') in E2.
  assert (Hlast : forall d1, stopped_at c h d1 d2 -> height_inv c w h d1 ->
    exists rest, d_lines d2 = d_lines d1 ++ rest /\ (rest = [] -> d_fin d2 = false) /\
    forall l r, rest = l :: r -> (h < total_height c (d_lines d1 ++ [l]))%Q).
  { intros d0 (rest & R1 & R2 & R3) Hi. exists rest. split; [exact R1|]. split; [exact R2|]. intros l r Hlr.
    rewrite total_height_snoc, <- (hi_sum _ _ _ _ Hi). exact (R3 l r Hlr). }
  assert (Ht0 : tracked (init_run d w h)) by (split; [reflexivity|exact Hf]).
  destruct (parts_loop c (d_part d) _ (init_run d w h) _) as [[[go1 d3] cur1]|er] eqn:Ep; [|discriminate]. cbn [bind] in E1.
  pose proof (parts_same c h' _ _ (init_run d w h) _ Hh Ht0 _ _ _ Ep) as H. cbn [init_run d_height] in H. fold (init_run d w h) in H.
  destruct go1.
  - destruct H as (Hp & Ht & Hh3). rewrite Hp in E2. cbn [bind] in E2.
    destruct (add_current_line c d3 cur1 true) as [[go2 d4]|er] eqn:El; [|discriminate]. cbn [bind] in E1. injection E1 as <-.
    assert (Hle : (d_height d3 <= h')%Q) by (rewrite Hh3; exact Hh).
    pose proof (current_same c d3 cur1 true h' Hle (proj1 Ht) (proj2 Ht) _ _ El) as Hc. destruct go2.
    + rewrite Hc in E2. cbn [bind] in E2. injection E2 as <-. reflexivity.
    + destruct Hc as [_ Hc].
      destruct (add_current_line c (seth d3 h') cur1 true) as [[go5 d5]|er] eqn:El2; [|discriminate]. cbn [bind] in E2. injection E2 as <-.
      destruct (Hc _ _ eq_refl) as (Hs & Hg1 & Hg2). rewrite Hh3 in Hs.
      pose proof (current_extends _ _ _ _ _ _ El) as [_ Hx]. rewrite Hx, (proj2 Ht).
      destruct go5; [|exact (Hlast _ Hs Hhi)].
      destruct Hs as (rest & R1 & R2 & R3). exists rest. split; [exact R1|]. split.
      * intros ->. exfalso. apply (Hg2 eq_refl). rewrite R1. apply app_nil_r.
      * intros l r Hlr. rewrite total_height_snoc, <- (hi_sum _ _ _ _ Hhi). exact (R3 l r Hlr).
  - injection E1 as <-. pose proof (parts_extends _ _ _ _ _ _ _ _ Ep) as [_ Hx]. rewrite Hx. cbn [init_run d_fin]. rewrite Hf.
    destruct (parts_loop c (d_part d) _ (seth (init_run d w h) h') _) as [[[go2 d4] cur2]|er] eqn:Ep2; [|discriminate]. cbn [bind] in E2.
    destruct (H _ _ _ eq_refl) as [Hs Hg]. destruct go2.
    + destruct (add_current_line c d4 cur2 true) as [[go5 d5]|er] eqn:El2; [|discriminate]. cbn [bind] in E2. injection E2 as <-.
      pose proof (current_extends _ _ _ _ _ _ El2) as He.
      assert (Hst : stopped_at c h d3 d5) by (eapply stopped_more; [exact Hs|exact He|left; now apply Hg]).
      destruct go5; [|exact (Hlast _ Hst Hhi)].
      destruct Hst as (rest & R1 & R2 & R3). exists rest. split; [exact R1|].
      split; [|intros l r Hlr; rewrite total_height_snoc, <- (hi_sum _ _ _ _ Hhi); exact (R3 l r Hlr)].
      intros ->. exfalso. apply (Hg eq_refl). rewrite app_nil_r in R1. destruct He as [[r2 He] _].
      cbn [set_fin d_lines] in R1. destruct Hs as (rest & Rs & _). rewrite Rs in He. rewrite R1 in He.
      rewrite <- (app_nil_r (d_lines d3)) in He at 1. rewrite <- app_assoc in He. apply app_inv_head in He.
      symmetry in He. apply app_eq_nil in He as [-> _]. rewrite Rs. apply app_nil_r.
    + injection E2 as <-. exact (Hlast _ Hs Hhi).
Qed.
End Fit.
