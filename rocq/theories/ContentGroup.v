(** Groups of a content box: the first pass, that measures, and the second, that
    places. *)
From Coq Require Import QArith ZArith Lia Lqa.
From Verif Require Import Py Table Content ContentFlow.
Open Scope list_scope.
Open Scope nat_scope.

Section Group.
Context {E O S P L : Type}.
Variable start : E -> res O.
Variable crun : O -> Q -> Q -> Q -> Q -> res (O * Q * bool * list P * list L).
Variable save : O -> S.
Variable restore : O -> S -> O.
(** What is finished takes room, and is finished with the same height wherever
    that height is free. *)
Hypothesis tall : forall o x y w h o' ht ps ls, crun o x y w h = Ok (o', ht, true, ps, ls) -> (0 < ht <= h)%Q.
Hypothesis snug : forall o x y w h o' ht ps ls y' h', crun o x y w h = Ok (o', ht, true, ps, ls) -> (ht <= h')%Q ->
  exists o2 ht2 ps2 ls2, crun o x y' w h' = Ok (o2, ht2, true, ps2, ls2) /\ (ht2 == ht)%Q.
Notation gelem := (@gelem E).
Notation part := (@part E S).
Notation glob := (@glob O P L).
Notation placed := (@placed O P).

(** A part that shows the whole of an element. *)
Definition whole (el : gelem) (p : placed) : Prop :=
  match el, p with
  | GLeaf s e, PlLeaf s' _ _ _ _ before _ _ fin _ => s' = s /\ start e = Ok before /\ fin = true
  | GImage s iw ih, PlImage s' _ _ _ _ iw' ih' => s' = s /\ iw' = iw /\ ih' = ih
  | _, _ => False
  end.
Definition gstyle (el : gelem) : style := match el with GLeaf s _ => s | GImage s _ _ => s | GBad => mkStyle 0 0 0 0 None false PNormal end.
(** Elements with margins that are not negative, images with a size and a
    minimum that is positive. *)
Definition good (W : Q) (el : gelem) : Prop :=
  let s := gstyle el in
  (0 <= s_mt s /\ 0 <= s_mb s)%Q /\
  match el with
  | GLeaf _ _ => True
  | GImage s iw ih => (0 < iw /\ 0 < ih /\ s_ml s + s_mr s < W)%Q /\ match s_min s with Some m => (0 < m)%Q | None => True end
  | GBad => False
  end.

Definition top_of (f : part) (s : style) (top : bool) : Q := let '(_, y, _, _) := space f s top in y.
(** The same place, but for what an element changes. *)
Definition twin (f1 f2 : part) : Prop := exists y st lb, f2 = with_y f1 y st lb.
Lemma space_twin f1 f2 s top x1 y1 w1 h1 x2 y2 w2 h2 : twin f1 f2 -> space f1 s top = (x1, y1, w1, h1) -> space f2 s top = (x2, y2, w2, h2) ->
  x2 = x1 /\ w2 = w1 /\ y1 = top_of f1 s top /\ y2 = top_of f2 s top /\ (y1 - f_maxy f1 <= h1 /\ y2 - f_maxy f1 <= h2)%Q /\
  ((0 < h1)%Q -> (h1 == y1 - f_maxy f1)%Q) /\ ((0 < h2)%Q -> (h2 == y2 - f_maxy f1)%Q) /\ w1 = (f_colw f1 - s_ml s - s_mr s)%Q.
Proof.
  intros (y & st & lb & ->) H1 H2. unfold top_of. rewrite H1, H2. unfold space in H1, H2. injection H1 as <- <- <- <-. injection H2 as <- <- <- <-.
  split; [reflexivity|]. split; [reflexivity|]. split; [reflexivity|]. split; [reflexivity|]. cbn [with_y f_starting f_lastbottom f_y f_maxy f_colw].
  set (a := (_ - f_maxy f1)%Q). set (b := (_ - f_maxy f1)%Q).
  assert (Ha : (a <= qmax 0 a)%Q) by (unfold qmax; destruct (Qle_bool a 0) eqn:E0; [apply Qle_bool_iff in E0; lra|lra]).
  assert (Hb : (b <= qmax 0 b)%Q) by (unfold qmax; destruct (Qle_bool b 0) eqn:E0; [apply Qle_bool_iff in E0; lra|lra]).
  split; [split; assumption|]. split; [|split; [|reflexivity]].
  - intros K. destruct (qmax_or 0 a) as [Hq|Hq]; rewrite Hq in *; [lra|reflexivity].
  - intros K. destruct (qmax_or 0 b) as [Hq|Hq]; rewrite Hq in *; [lra|reflexivity].
Qed.

(** *** The first pass *)
(** What an element takes in it, when it is all there. *)
Lemma try_one f g el top f' g' :
  good (f_colw f) el -> group_element start crun save restore f g el None false top = Done (true, f', g') ->
  g_parts g' = g_parts g /\ g_lines g' = g_lines g /\ exists a, (0 < a)%Q /\ f' = with_y f (top_of f (gstyle el) top - a)%Q false (s_mb (gstyle el)).
Proof.
  intros [_ Hg] H. destruct el as [s e|s iw ih|]; cbn [group_element gstyle] in *; [| |destruct Hg].
  - unfold process_leaf in H. unfold top_of. destruct (space f s top) as [[[x y] w] h] eqn:Es.
    destruct (start e) as [o|]; cbn [lift abind] in H; [|discriminate]. destruct (crun o x y w h) as [[[[[o' ht] fin] ps] ls]|] eqn:Ec; cbn [lift abind] in H; [|discriminate].
    destruct fin; cbn [r_delayed] in H; [|discriminate]. injection H as <- <-. destruct (tall _ _ _ _ _ _ _ _ _ Ec) as [H0 _]. split; [reflexivity|]. split; [reflexivity|]. exists ht. split; [exact H0|].
    apply qlt_spec in H0. rewrite H0. reflexivity.
  - unfold process_image in H. unfold top_of. destruct (space f s top) as [[[x y] w] h] eqn:Es. cbv zeta in H. destruct Hg as ((Hiw & Hih & Hw) & Hm).
    assert (Hw0 : (0 < w)%Q) by (unfold space in Es; injection Es as _ _ <- _; lra).
    assert (Hht : (0 < w * ih / iw)%Q) by (apply Qlt_shift_div_l; [exact Hiw|]; rewrite Qmult_0_l; apply Qmult_lt_0_compat; assumption).
    destruct (qlt (w * ih / iw) h).
    + injection H as <- <-. split; [reflexivity|]. split; [reflexivity|]. eexists. split; [exact Hht|reflexivity].
    + destruct (s_min s) as [m|]; [|discriminate]. destruct (Qle_bool m h); [|discriminate]. injection H as <- <-. split; [reflexivity|]. split; [reflexivity|]. exists m. split; [exact Hm|reflexivity].
Qed.
Lemma try_false f g el top f' g' : group_element start crun save restore f g el None false top = Done (false, f', g') -> g_parts g' = g_parts g /\ g_lines g' = g_lines g /\ exists y st lb, f' = with_y f y st lb.
Proof.
  intros H. destruct el as [s e|s iw ih|]; cbn [group_element] in H; [| |discriminate].
  - unfold process_leaf in H. destruct (space f s top) as [[[x y] w] h] eqn:Es.
    destruct (start e) as [o|]; cbn [lift abind] in H; [|discriminate]. destruct (crun o x y w h) as [[[[[o' ht] fin] ps] ls]|] eqn:Ec; cbn [lift abind] in H; [|discriminate].
    destruct fin; cbn [r_delayed] in H; [discriminate|]. injection H as <- <-. split; [reflexivity|]. split; [reflexivity|]. destruct (qlt 0 ht); eexists _, _, _; reflexivity.
  - unfold process_image in H. destruct (space f s top) as [[[x y] w] h] eqn:Es. cbv zeta in H.
    destruct (qlt (w * ih / iw) h); [discriminate|]. destruct (s_min s) as [m|]; [destruct (Qle_bool m h); [discriminate|]|]; injection H as <- <-; (split; [reflexivity|]); (split; [reflexivity|]); eexists _, _, _; reflexivity.
Qed.
Lemma top_low f s top : f_starting f = false -> (0 <= s_mt s)%Q -> (0 <= f_lastbottom f)%Q -> (top_of f s top <= f_y f)%Q.
Proof. intros H1 H2 H3. unfold top_of, space. rewrite H1. destruct top; cbn [negb andb]; lra. Qed.
Lemma try_all : forall l f g first ok f' g',
  Forall (good (f_colw f)) l -> group_try start crun save restore f g first l = Done (ok, f', g') ->
  g_parts g' = g_parts g /\ g_lines g' = g_lines g /\ (exists y st lb, f' = with_y f y st lb) /\
  (ok = true -> (f_starting f = false -> (0 <= f_lastbottom f)%Q -> (f_y f' <= f_y f)%Q) /\
     match l with [] => f' = f | _ => f_starting f' = false /\ exists el, last l el = el /\ In el l /\ f_lastbottom f' = s_mb (gstyle el) end).
Proof.
  induction l as [|el l IH]; intros f g first ok f' g' Hg; cbn [group_try].
  - intros H. injection H as <- <- <-. split; [reflexivity|]. split; [reflexivity|]. split; [exists (f_y f), (f_starting f), (f_lastbottom f); destruct f; reflexivity|]. intros _. split; [intros; lra|reflexivity].
  - inversion Hg as [|? ? Hg1 Hg2]; subst. destruct (group_element start crun save restore f g el None false (negb first)) as [[[ok1 f1] g1]| |] eqn:E1; cbn [abind]; try discriminate.
    destruct ok1.
    + destruct (try_one f g el _ f1 g1 Hg1 E1) as (P1 & P2 & a & Ha & ->). intros H. apply IH in H; [|exact Hg2]. destruct H as (Q1 & Q2 & (y & st & lb & ->) & Q4).
      split; [congruence|]. split; [congruence|]. split; [exists y, st, lb; reflexivity|]. intros Hok. destruct (Q4 Hok) as [Q5 Q6]. destruct Hg1 as ((M1 & M2) & _). cbn [with_y f_starting f_lastbottom f_y] in *. split.
      * intros K1 K2. specialize (Q5 eq_refl M2). pose proof (top_low f (gstyle el) (negb first) K1 M1 K2). lra.
      * destruct l as [|el2 l]; [|destruct Q6 as (Q7 & e & Q8 & Q9 & Q10); split; [exact Q7|]; exists e; split; [exact Q8|]; split; [right; exact Q9|exact Q10]].
        injection Q6 as Q7 Q8 Q9. split; [congruence|]. exists el. split; [reflexivity|]. split; [left; reflexivity|congruence].
    + intros H. injection H as <- <- <-. destruct (try_false f g el _ f1 g1 E1) as (P1 & P2 & P3). split; [exact P1|]. split; [exact P2|]. split; [exact P3|]. discriminate.
Qed.

(** The first pass places nothing. *)
Lemma element_none f g el min top ok f' g' : group_element start crun save restore f g el min false top = Done (ok, f', g') -> g_parts g' = g_parts g /\ g_lines g' = g_lines g.
Proof.
  intros H. destruct el as [s e|s iw ih|]; cbn [group_element] in H; [| |discriminate].
  - unfold process_leaf in H. destruct (space f s top) as [[[x y] w] h] eqn:Es.
    destruct (start e) as [o|]; cbn [lift abind] in H; [|discriminate]. destruct (crun o x y w h) as [[[[[o' ht] fin] ps] ls]|] eqn:Ec; cbn [lift abind] in H; [|discriminate].
    injection H as _ _ <-. split; reflexivity.
  - unfold process_image in H. destruct (space f s top) as [[[x y] w] h] eqn:Es. cbv zeta in H.
    destruct (qlt (w * ih / iw) h); [injection H as _ _ <-; split; reflexivity|]. destruct (match min with Some m => Some m | None => s_min s end) as [m|]; [destruct (Qle_bool m h)|]; injection H as _ _ <-; split; reflexivity.
Qed.
Lemma try_none : forall l f g first ok f' g', group_try start crun save restore f g first l = Done (ok, f', g') -> g_parts g' = g_parts g /\ g_lines g' = g_lines g.
Proof.
  induction l as [|el l IH]; intros f g first ok f' g'; cbn [group_try]; [intros H; injection H as _ _ <-; split; reflexivity|].
  destruct (group_element start crun save restore f g el None false (negb first)) as [[[ok1 f1] g1]| |] eqn:E1; cbn [abind]; try discriminate.
  destruct (element_none _ _ _ _ _ _ _ _ E1) as [P1 P2]. destruct ok1; intros H; [apply IH in H; destruct H; split; congruence|injection H as _ _ <-; split; assumption].
Qed.
(** It ends above the bottom. *)
Lemma try_floor : forall l f g first f' g', Forall (good (f_colw f)) l -> l <> [] -> group_try start crun save restore f g first l = Done (true, f', g') -> (f_maxy f <= f_y f')%Q.
Proof.
  assert (Hone : forall f g el top f' g', good (f_colw f) el -> group_element start crun save restore f g el None false top = Done (true, f', g') -> (f_maxy f <= f_y f')%Q).
  { intros f g el top f' g' [_ Hg] H.
    assert (Hsp : forall s x y w h, space f s top = (x, y, w, h) -> (0 < h)%Q -> (h == y - f_maxy f)%Q).
    { intros s x y w h Es. unfold space in Es. injection Es as _ <- _ <-. match goal with |- (0 < qmax 0 ?e)%Q -> _ => destruct (qmax_or 0 e) as [Hq|Hq]; rewrite Hq; intros; lra end. }
    destruct el as [s e|s iw ih|]; cbn [group_element gstyle] in *; [| |destruct Hg].
    - unfold process_leaf in H. destruct (space f s top) as [[[x y] w] h] eqn:Es.
      destruct (start e) as [o|]; cbn [lift abind] in H; [|discriminate]. destruct (crun o x y w h) as [[[[[o' ht] fin] ps] ls]|] eqn:Ec; cbn [lift abind] in H; [|discriminate].
      destruct fin; cbn [r_delayed] in H; [|discriminate]. injection H as <- <-. destruct (tall _ _ _ _ _ _ _ _ _ Ec) as [H0 H1]. pose proof (Hsp _ _ _ _ _ Es ltac:(lra)) as Hh.
      apply qlt_spec in H0. rewrite H0. cbn [with_y f_y]. lra.
    - unfold process_image in H. destruct (space f s top) as [[[x y] w] h] eqn:Es. cbv zeta in H. destruct Hg as ((Hiw & Hih & Hw) & Hm). 
      assert (Hw0 : (0 < w)%Q) by (unfold space in Es; injection Es as _ _ <- _; lra).
      assert (Hht : (0 < w * ih / iw)%Q) by (apply Qlt_shift_div_l; [exact Hiw|]; rewrite Qmult_0_l; apply Qmult_lt_0_compat; assumption).
      destruct (qlt (w * ih / iw) h) eqn:E0.
      + apply qlt_spec in E0. pose proof (Hsp _ _ _ _ _ Es ltac:(lra)) as Hh. injection H as <- <-. cbn [with_y f_y]. lra.
      + destruct (s_min s) as [m|]; [|discriminate]. destruct (Qle_bool m h) eqn:E1; [|discriminate]. apply Qle_bool_iff in E1. pose proof (Hsp _ _ _ _ _ Es ltac:(lra)) as Hh. injection H as <- <-. cbn [with_y f_y]. lra. }
  induction l as [|el l IH]; intros f g first f' g' Hg Hne; cbn [group_try]; [congruence|]. inversion Hg as [|? ? Hg1 Hg2]; subst.
  destruct (group_element start crun save restore f g el None false (negb first)) as [[[ok1 f1] g1]| |] eqn:E1; cbn [abind]; try discriminate. destruct ok1; [|discriminate].
  pose proof (Hone _ _ _ _ _ _ Hg1 E1) as H1. destruct (try_one f g el _ f1 g1 Hg1 E1) as (_ & _ & a & Ha & Hf1).
  intros H. destruct l as [|el2 l]; [cbn in H; injection H as <- _; exact H1|].
  assert (Hx : f_maxy f1 = f_maxy f) by (rewrite Hf1; reflexivity). rewrite <- Hx. apply (IH f1 g1 false f' g'); [rewrite Hf1; exact Hg2|discriminate|exact H].
Qed.

(** *** Both passes, side by side *)
Section Passes.
Variable k : Q.
Hypothesis k1 : (1 <= k)%Q.
Variable d : Q.
Hypothesis d0 : (0 <= d)%Q.
(** Either the images have no minimum, or the second pass starts where the first
    did; either nothing grows, or each image has a minimum. *)
Definition allowed (el : gelem) : Prop :=
  (has_min el = true -> (d == 0)%Q) /\ match el with GImage s _ _ => s_min s = None -> (k == 1)%Q | _ => True end.

Lemma min_ge W el : good W el -> (0 <= min_of el)%Q.
Proof. destruct el as [s e|s iw ih|]; cbn [min_of]; [lra| |lra]. intros (_ & _ & H). destruct (s_min s); lra. Qed.
Lemma mins_ge W l : Forall (good W) l -> (0 <= qsum (map min_of l))%Q.
Proof. induction 1 as [|el l H _ IH]; cbn [map qsum]; [lra|]. pose proof (min_ge _ _ H). lra. Qed.

Lemma pass_one f1 f2 g1 g2 el top D R f1' g1' :
  twin f1 f2 -> good (f_colw f1) el -> allowed el -> (0 <= R)%Q -> (0 <= D)%Q -> ((k == 1)%Q -> (D == 0)%Q) ->
  (top_of f1 (gstyle el) top - D <= top_of f2 (gstyle el) top <= top_of f1 (gstyle el) top + d)%Q ->
  group_element start crun save restore f1 g1 el None false top = Done (true, f1', g1') ->
  (f_maxy f1 + R <= f_y f1')%Q -> (D + min_of el * (k - 1) <= R)%Q ->
  exists f2' g2' p, group_element start crun save restore f2 g2 el (if has_min el then Some (min_of el * k)%Q else None) true top = Done (true, f2', g2') /\
    g_parts g2' = g_parts g2 ++ [p] /\ whole el p /\ twin f1' f2' /\ f_starting f1' = false /\ f_starting f2' = false /\ f_lastbottom f2' = f_lastbottom f1' /\
    (f_y f1' - (D + min_of el * (k - 1)) <= f_y f2' <= f_y f1' + d)%Q.
Proof.
  intros Htw Hg Hal HR HD0 HD Hal2 H1 Hroom Hgrow.
  destruct el as [s e|s iw ih|]; cbn [group_element gstyle min_of has_min] in *; [| |destruct Hg as [_ []]].
  - destruct (space f1 s top) as [[[x1 y1] w1] h1] eqn:E1. destruct (space f2 s top) as [[[x2 y2] w2] h2] eqn:E2.
    destruct (space_twin f1 f2 s top _ _ _ _ _ _ _ _ Htw E1 E2) as (-> & -> & T1 & T2 & [T3 T4] & T5 & T6 & T7).
    unfold process_leaf in *. rewrite E1 in H1. rewrite E2. destruct (start e) as [o|] eqn:Eo; cbn [lift abind] in *; [|discriminate].
    destruct (crun o x1 y1 w1 h1) as [[[[[o' ht] fin] ps] ls]|] eqn:Ec; cbn [lift abind] in H1; [|discriminate]. destruct fin; cbn [r_delayed] in H1; [|discriminate].
    destruct (tall _ _ _ _ _ _ _ _ _ Ec) as [Ht0 Ht1]. pose proof Ht0 as Hq. apply qlt_spec in Hq. rewrite Hq in H1. injection H1 as <- <-. cbn [with_y f_y f_starting f_lastbottom] in *.
    rewrite <- T1, <- T2 in *. assert (Hh : (ht <= h2)%Q) by lra.
    destruct (snug _ _ _ _ _ _ _ _ _ y2 h2 Ec Hh) as (o2 & ht2 & ps2 & ls2 & Ec2 & He). rewrite Ec2. cbn [lift abind r_delayed].
    assert (Hq2 : qlt 0 ht2 = true) by (apply qlt_spec; lra). rewrite Hq2. eexists _, _, _. split; [reflexivity|]. cbn [g_parts]. split; [reflexivity|]. split; [split; [reflexivity|split; [exact Eo|reflexivity]]|].
    cbn [with_y f_y f_starting f_lastbottom]. split; [destruct Htw as (y & st & lb & ->); eexists _, _, _; reflexivity|]. split; [reflexivity|]. split; [reflexivity|]. split; [reflexivity|]. lra.
  - destruct (space f1 s top) as [[[x1 y1] w1] h1] eqn:E1. destruct (space f2 s top) as [[[x2 y2] w2] h2] eqn:E2.
    destruct (space_twin f1 f2 s top _ _ _ _ _ _ _ _ Htw E1 E2) as (-> & -> & T1 & T2 & [T3 T4] & T5 & T6 & T7).
    destruct Hg as (_ & (Hiw & Hih & Hw) & Hm). unfold process_image in *. rewrite E1 in H1. rewrite E2. cbv zeta in *. set (full := (w1 * ih / iw)%Q) in *.
    assert (Hf0 : (0 < full)%Q) by (apply Qlt_shift_div_l; [exact Hiw|]; rewrite Qmult_0_l; apply Qmult_lt_0_compat; [rewrite T7; lra|exact Hih]).
    rewrite <- T1, <- T2 in *.
    assert (Hend : forall b x' w' (Hb : (f_y f1' - (D + match s_min s with Some m => m | None => 0 end * (k - 1)) <= y2 - b <= f_y f1' + d)%Q) (Hs : f1' = with_y f1 (f_y f1') false (s_mb s)),
      exists f2' g2' p, Done (true, with_y f2 (y2 - b)%Q false (s_mb s), with_parts g2 (g_parts g2 ++ [PlImage s x' (y2 - b)%Q w' b iw ih])) = Done (true, f2', g2') /\
        g_parts g2' = g_parts g2 ++ [p] /\ whole (GImage s iw ih) p /\ twin f1' f2' /\ f_starting f1' = false /\ f_starting f2' = false /\ f_lastbottom f2' = f_lastbottom f1' /\
        (f_y f1' - (D + match s_min s with Some m => m | None => 0 end * (k - 1)) <= f_y f2' <= f_y f1' + d)%Q).
    { intros b x' w' Hb Hs. eexists _, _, _. split; [reflexivity|]. split; [reflexivity|]. split; [repeat split|]. split; [destruct Htw as (y & st & lb & ->); rewrite Hs; eexists _, _, _; reflexivity|].
      split; [rewrite Hs; reflexivity|]. split; [reflexivity|]. split; [rewrite Hs; reflexivity|]. cbn [with_y f_y]. exact Hb. }
    destruct Hal as [Hal Hal3]. destruct (qlt full h1) eqn:Eq1.
    + apply qlt_spec in Eq1. injection H1 as <- <-. cbn [with_y f_y] in *. specialize (T5 ltac:(lra)).
      destruct (s_min s) as [m|] eqn:Em; cbn [has_min min_of] in *; rewrite ?Em in *.
      * specialize (Hal eq_refl). destruct (qlt full h2) eqn:Eq2.
        -- apply qlt_spec in Eq2. refine (Hend full x1 w1 _ eq_refl).
           assert (0 <= m * (k - 1))%Q by (apply Qmult_le_0_compat; lra). lra.
        -- apply qlt_false in Eq2. exfalso. assert (Hz : (0 <= m * (k - 1))%Q) by (apply Qmult_le_0_compat; lra).
           assert (Hz2 : (m * (k - 1) == 0)%Q) by lra. assert (Hk : (k == 1)%Q). { destruct (Qmult_integral _ _ Hz2); lra. } specialize (HD Hk). lra.
      * specialize (Hal3 eq_refl). specialize (HD Hal3). assert (Eq2 : qlt full h2 = true) by (apply qlt_spec; lra). rewrite Eq2. refine (Hend full x1 w1 _ eq_refl).
        rewrite Qmult_0_l. lra.
    + apply qlt_false in Eq1. destruct (s_min s) as [m|] eqn:Em; [|discriminate]. cbn [has_min min_of] in *. rewrite ?Em in *. specialize (Hal eq_refl).
      destruct (Qle_bool m h1) eqn:Eq3; [|discriminate]. apply Qle_bool_iff in Eq3. injection H1 as <- <-. cbn [with_y f_y] in *. specialize (T5 ltac:(lra)).
      assert (Hz : (0 <= m * (k - 1))%Q) by (apply Qmult_le_0_compat; lra).
      assert (Eh : (0 < h2)%Q) by lra. specialize (T6 Eh). assert (Eq2 : qlt full h2 = false).
      { destruct (qlt full h2) eqn:K; [|reflexivity]. apply qlt_spec in K. lra. }
      rewrite Eq2. assert (Hmk : (m * k == m + m * (k - 1))%Q) by ring.
      assert (Eq4 : Qle_bool (m * k) h2 = true) by (apply Qle_bool_iff; lra). rewrite Eq4. refine (Hend (m * k)%Q _ _ _ eq_refl). lra.
Qed.

Lemma pass_all : forall l f1 f2 g1 g2 first D R f1' g1',
  twin f1 f2 -> Forall (good (f_colw f1)) l -> Forall allowed l -> (0 <= D)%Q -> ((k == 1)%Q -> (D == 0)%Q) -> (0 <= R)%Q ->
  (forall el, In el l -> (top_of f1 (gstyle el) (negb first) - D <= top_of f2 (gstyle el) (negb first) <= top_of f1 (gstyle el) (negb first) + d)%Q) ->
  group_try start crun save restore f1 g1 first l = Done (true, f1', g1') ->
  (f_maxy f1 + R <= f_y f1')%Q -> (D + qsum (map min_of l) * (k - 1) <= R)%Q ->
  exists f2' g2' ps, group_add start crun save restore f2 g2 k first l = Done (f2', g2') /\ g_parts g2' = g_parts g2 ++ ps /\ Forall2 whole l ps.
Proof.
  induction l as [|el l IH]; intros f1 f2 g1 g2 first D R f1' g1' Htw Hg Hal HD0 HD HR Htop; cbn [group_try group_add].
  - intros _ _ _. eexists _, _, []. split; [reflexivity|]. split; [symmetry; apply app_nil_r|constructor].
  - inversion Hg as [|? ? Hg1 Hg2]; subst. inversion Hal as [|? ? Ha1 Ha2]; subst.
    destruct (group_element start crun save restore f1 g1 el None false (negb first)) as [[[ok1 fa] ga]| |] eqn:E1; cbn [abind]; try discriminate. destruct ok1; [|discriminate].
    intros H Hroom Hgrow. cbn [map qsum] in Hgrow. pose proof (min_ge _ _ Hg1) as Hm. pose proof (mins_ge _ _ Hg2) as Hms.
    destruct (try_one f1 g1 el _ fa ga Hg1 E1) as (_ & _ & a & Ha & Hfa). pose proof (proj1 Hg1) as [M1 M2].
    assert (Hcw : f_colw fa = f_colw f1) by (rewrite Hfa; reflexivity). assert (Hmx : f_maxy fa = f_maxy f1) by (rewrite Hfa; reflexivity).
    assert (Hsta : f_starting fa = false) by (rewrite Hfa; reflexivity). assert (Hlb : f_lastbottom fa = s_mb (gstyle el)) by (rewrite Hfa; reflexivity).
    assert (Hrest : (f_y f1' <= f_y fa)%Q).
    { rewrite <- Hcw in Hg2. destruct (try_all l fa ga false true f1' g1' Hg2 H) as (_ & _ & _ & K). destruct (K eq_refl) as [K1 _]. apply K1; [exact Hsta|rewrite Hlb; exact M2]. }
    assert (Hz : (0 <= min_of el * (k - 1))%Q) by (apply Qmult_le_0_compat; lra).
    assert (Hzs : (0 <= qsum (map min_of l) * (k - 1))%Q) by (apply Qmult_le_0_compat; lra).
    assert (Hsp : ((min_of el + qsum (map min_of l)) * (k - 1) == min_of el * (k - 1) + qsum (map min_of l) * (k - 1))%Q) by ring.
    destruct (pass_one f1 f2 g1 g2 el (negb first) D R fa ga Htw Hg1 Ha1 HR HD0 HD (Htop el (or_introl eq_refl)) E1 ltac:(lra) ltac:(lra)) as (fb & gb & p & E2 & P1 & P2 & P3 & P4 & P5 & P6 & P7).
    rewrite E2. cbn [abind].
    destruct (IH fa fb ga gb false (D + min_of el * (k - 1))%Q R f1' g1') as (f2' & g2' & ps & Q1 & Q2 & Q3).
    + exact P3.
    + rewrite Hcw. exact Hg2.
    + exact Ha2.
    + lra.
    + intros Hk. specialize (HD Hk). rewrite HD, Hk. ring.
    + exact HR.
    + intros e He. cbn [negb]. unfold top_of, space. rewrite P4, P5, P6. cbn [negb andb]. lra.
    + exact H.
    + rewrite Hmx. exact Hroom.
    + lra.
    + exists f2', g2', (p :: ps). split; [exact Q1|]. split; [rewrite Q2, P1, <- app_assoc; reflexivity|]. constructor; assumption.
Qed.
End Passes.
End Group.
