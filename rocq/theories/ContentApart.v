(** Elements in columns do not lie on each other: what a box has put so far is
    above the place where it goes on, or in other columns. *)
From Coq Require Import QArith ZArith Lia Lqa List.
From Verif Require Import Py Table Content ContentFlow ContentGeom.
Import ListNotations.
Open Scope list_scope.
Open Scope nat_scope.

Section Apart.
Context {E O S P L : Type}.
Variable start : E -> res O.
Variable crun : O -> Q -> Q -> Q -> Q -> res (O * Q * bool * list P * list L).
Variable save : O -> S.
Variable restore : O -> S -> O.
Hypothesis fits : forall o x y w h o' ht fin ps ls, crun o x y w h = Ok (o', ht, fin, ps, ls) -> (0 < ht)%Q -> (ht <= h)%Q.
Notation elem := (@elem E).
Notation delem := (@delem E S).
Notation gelem := (@gelem E).
Notation part := (@part E S).
Notation glob := (@glob O P L).
Notation placed := (@placed O P).
Variables (n0 : nat) (gap0 : option Q) (elems0 : list elem).
Variables X Y W B : Q.
Variable St : style -> Prop.
Hypothesis St_ok : forall s, St s -> (0 <= s_mt s /\ 0 <= s_mb s /\ match s_min s with Some m => 0 < m | None => True end)%Q.
Hypothesis St_side : forall s, St s -> (0 <= s_ml s /\ 0 <= s_mr s)%Q.
Hypothesis wide : forall l x w s, strip n0 gap0 elems0 X W l x w -> St s -> (s_ml s + s_mr s <= w)%Q.
Notation chain := (chain n0 gap0 elems0 X Y W B St False).
Notation inside := (@inside E O P n0 gap0 elems0 X Y W B St False).
Notation own := (own Y B St False).
Notation partial_ok := (partial_ok n0 gap0 elems0 X Y W B St False).

(** The sides of what was placed. *)
Definition p_left (p : placed) : Q := match p with PlLeaf _ x _ _ _ _ _ _ _ _ => x | PlImage _ x _ _ _ _ _ => x end.
Definition p_right (p : placed) : Q := match p with PlLeaf _ x _ w _ _ _ _ _ _ => (x + w)%Q | PlImage _ x _ w _ _ _ => (x + w)%Q end.
Definition p_bot (p : placed) : Q := (p_top p - p_height p)%Q.
(** The later one is below, or beside. *)
Definition after_it (a b : placed) : Prop :=
  (p_height a <= 0 \/ p_height b <= 0 \/ p_right a <= p_left b \/ p_right b <= p_left a \/ p_top b <= p_bot a)%Q.
Definition ordered (l : list placed) : Prop := ForallOrdPairs after_it l.

(** No box of several columns is inside another one, and gaps are not
    negative. *)
Definition gap_ok (g : option Q) : Prop := match g with Some q => (0 <= q)%Q | None => True end.
Fixpoint flatel (m : bool) (el : elem) : Prop :=
  match el with
  | Child _ n gap l => (m = true -> n = 1) /\ gap_ok gap /\ fold_right (fun e acc => flatel (m || (1 <? n)) e /\ acc) True l
  | _ => True
  end.
Definition flats (m : bool) (l : list elem) : Prop := fold_right (fun e acc => flatel m e /\ acc) True l.
Lemma flats_in m l el : flats m l -> In el l -> flatel m el.
Proof. induction l as [|a l IH]; intros H []; destruct H as [H1 H2]; [subst; exact H1|auto]. Qed.
Hypothesis gap0_ok : gap_ok gap0.

(** *** A column, from the top to the bottom *)
Inductive drops (x w m : Q) : Q -> list placed -> Q -> Prop :=
| drops_nil y y' : (y' <= y)%Q -> drops x w m y [] y'
| drops_low y p l y' : (p_height p <= 0)%Q -> drops x w m y l y' -> drops x w m y (p :: l) y'
| drops_put y p l y' : (x <= p_left p)%Q -> (p_right p <= x + w)%Q -> (p_top p <= y)%Q -> (m <= p_bot p)%Q -> (0 < p_height p)%Q ->
    drops x w m (p_bot p) l y' -> drops x w m y (p :: l) y'.
Lemma drops_le x w m y l y' : drops x w m y l y' -> (y' <= y)%Q.
Proof. induction 1; unfold p_bot in *; lra. Qed.
Lemma drops_start x w m y l y' : drops x w m y l y' -> forall z, (y <= z)%Q -> drops x w m z l y'.
Proof. induction 1; intros z Hz; [apply drops_nil; lra|apply drops_low; auto|apply drops_put; auto; lra]. Qed.
Lemma drops_app x w m y l y' l2 y2 : drops x w m y l y' -> drops x w m y' l2 y2 -> drops x w m y (l ++ l2) y2.
Proof.
  intros H. revert l2 y2. induction H; intros lx yx Hx; cbn [app].
  - apply (drops_start _ _ _ y'); assumption.
  - apply drops_low; auto.
  - apply drops_put; auto.
Qed.
Lemma drops_one x w m y p y' : (y' <= y)%Q -> (0 < p_height p -> x <= p_left p /\ p_right p <= x + w /\ p_top p <= y /\ m <= p_bot p /\ y' <= p_bot p)%Q -> drops x w m y [p] y'.
Proof.
  intros Hy H. destruct (Qlt_le_dec 0 (p_height p)) as [H0|H0].
  - destruct (H H0) as (H1 & H2 & H3 & H4 & H5). apply drops_put; auto. apply drops_nil. exact H5.
  - apply drops_low; [exact H0|]. apply drops_nil. exact Hy.
Qed.
Definition falls (f f' : part) (g g' : glob) : Prop :=
  exists new, g_parts g' = g_parts g ++ new /\ drops (left_edge f) (f_colw f) (f_maxy f) (f_y f) new (f_y f').
Lemma falls_none f f' (g g' : glob) : g_parts g' = g_parts g -> (f_y f' <= f_y f)%Q -> falls f f' g g'.
Proof. intros H Hy. exists []. split; [rewrite H; symmetry; apply app_nil_r|]. apply drops_nil. exact Hy. Qed.

Lemma leaf_falls f g s src add top r f' g' :
  own f -> St s -> process_leaf start crun save restore f g s src add top = Done (r, f', g') -> falls f f' g g' /\ (add = false -> g_parts g' = g_parts g).
Proof.
  intros Ho Hs. unfold process_leaf. destruct (space f s top) as [[[x y] w] h] eqn:Esp.
  destruct (space_ok Y B St False St_ok f s top Ho Hs x y w h Esp) as ((Hx & Hw) & Hy & Hh & Hh2). destruct (St_side s Hs) as [Hl Hr].
  destruct (match src with inl e => _ | inr _ => _ end) as [[ref o]| |]; cbn [abind]; try discriminate.
  destruct (crun o x y w h) as [[[[[o' ht] fin] parts] lines]|] eqn:Ec; cbn [lift abind]; try discriminate.
  intros Hd. injection Hd as <- <- <-.
  assert (Hfy : (f_y (if qlt 0 ht then with_y f (y - ht) false (s_mb s) else with_y f (f_y f) (f_starting f) (f_lastbottom f)) <= f_y f)%Q).
  { destruct (qlt 0 ht) eqn:E0; cbn [with_y f_y]; [|lra]. apply qlt_spec in E0. lra. }
  destruct add; [|split; [apply falls_none; [reflexivity|exact Hfy]|reflexivity]]. split; [|discriminate].
  exists [PlLeaf s x y w h o o' ht fin parts]. split; [reflexivity|]. apply drops_one; [exact Hfy|].
  cbn [p_height p_left p_right p_top]. unfold p_bot. cbn [p_height p_top]. intros H0. assert (E0 := proj2 (qlt_spec 0 ht) H0). rewrite E0. cbn [with_y f_y].
  pose proof (fits _ _ _ _ _ _ _ _ _ _ Ec H0) as Hf. specialize (Hh2 ltac:(lra)). do 4 (split; [lra|]). lra.
Qed.
Lemma image_falls f (g : glob) s min shrink iw ih add top ok f' (g' : glob) :
  own f -> St s -> (0 < iw /\ 0 < ih)%Q -> match min with Some m => (0 < m)%Q | None => True end ->
  (s_ml s + s_mr s <= f_colw f)%Q ->
  process_image f g s min shrink iw ih add top = (ok, f', g') -> falls f f' g g' /\ (add = false -> g_parts g' = g_parts g).
Proof.
  intros Ho Hs [Hiw Hih] Hmin Hwide. unfold process_image. destruct (space f s top) as [[[x y] w] h] eqn:Esp.
  destruct (space_ok Y B St False St_ok f s top Ho Hs x y w h Esp) as ((Hx & Hw) & Hy & Hh & Hh2). destruct (St_side s Hs) as [Hl Hr].
  assert (Hgo : forall x' w' ht, (0 <= ht)%Q -> (ht <= h)%Q -> (0 < h)%Q -> (w' <= w)%Q -> (x' - x == (x + w) - (x' + w'))%Q ->
    (true, with_y f (y - ht)%Q false (s_mb s), if add then with_parts g (g_parts g ++ [PlImage s x' (y - ht) w' ht iw ih]) else g) = (ok, f', g') ->
    falls f f' g g' /\ (add = false -> g_parts g' = g_parts g)).
  { intros x' w' ht H1 H2 H3 H4 H6 Heq. injection Heq as <- <- <-. specialize (Hh2 H3).
    destruct add; [|split; [apply falls_none; [reflexivity|cbn [with_y f_y]; lra]|reflexivity]]. split; [|discriminate].
    eexists [_]. split; [reflexivity|]. apply drops_one; cbn [with_y f_y]; [lra|].
    cbn [p_height p_left p_right p_top]. unfold p_bot. cbn [p_height p_top]. intros _. do 4 (split; [lra|]). lra. }
  assert (Hno : (false, with_y f (f_y f) (f_starting f) (f_lastbottom f), g) = (ok, f', g') -> falls f f' g g' /\ (add = false -> g_parts g' = g_parts g)).
  { intros Heq. injection Heq as <- <- <-. split; [apply falls_none; [reflexivity|cbn [with_y f_y]; lra]|reflexivity]. }
  assert (Hnat : (0 <= w * ih / iw)%Q) by (apply Qle_shift_div_l; [exact Hiw|]; nra).
  destruct (qlt (w * ih / iw) h) eqn:E1.
  - apply qlt_spec in E1. apply Hgo; [exact Hnat|lra|lra|lra|lra].
  - apply qlt_false in E1. destruct min as [m|]; [|exact Hno]. destruct (Qle_bool m h) eqn:E2; [|exact Hno]. apply Qle_bool_iff in E2.
    assert (Hht : (0 <= (if shrink then m else h) /\ (if shrink then m else h) <= h)%Q) by (destruct shrink; lra).
    destruct Hht as [Ht1 Ht2]. apply Hgo; [exact Ht1|exact Ht2|lra| |].
    + apply Qle_shift_div_r; [exact Hih|]. assert (Hk : (h * iw <= w * ih)%Q).
      { assert (Hz : (w * ih / iw * iw == w * ih)%Q) by (field; lra). nra. }
      nra.
    + field. lra.
Qed.

Lemma chain_wide (f : part) anc s : chain f anc -> St s -> (s_ml s + s_mr s <= f_colw f)%Q.
Proof. intros Hc Hs. apply (wide (f_elems f) (left_edge f)); [apply (chain_strip n0 gap0 elems0 X Y W B St False anc); exact Hc|exact Hs]. Qed.
Lemma falls_trans f f1 f2 (g g1 g2 : glob) : lower f f1 -> falls f f1 g g1 -> falls f1 f2 g1 g2 -> falls f f2 g g2.
Proof.
  intros (y & st & lb & -> & _) (n1 & H1 & H2) (n2 & K1 & K2). exists (n1 ++ n2). split; [rewrite K1, H1, app_assoc; reflexivity|].
  exact (drops_app _ _ _ _ _ _ _ _ H2 K2).
Qed.
Lemma group_element_falls f anc g el min add top ok f' g' :
  chain f anc -> okg St el -> match min with Some m => (0 < m)%Q | None => True end -> Forall inside (g_parts g) ->
  group_element start crun save restore f g el min add top = Done (ok, f', g') ->
  lower f f' /\ chain f' anc /\ Forall inside (g_parts g') /\ falls f f' g g' /\ (add = false -> g_parts g' = g_parts g).
Proof.
  intros Hc Hg Hmin Hp He. pose proof (group_element_geom start crun save restore fits n0 gap0 elems0 X Y W B St False St_ok wide f anc g el min add top ok f' g' Hc Hg Hmin Hp He) as (G1 & G2 & _).
  split; [apply moves_lower; exact G1|]. split; [exact (moves_chain _ _ _ _ _ _ _ _ _ _ _ _ Hc G1)|]. split; [exact G2|]. pose proof (chain_own _ _ _ _ _ _ _ _ _ _ _ Hc) as Ho.
  destruct el as [s e|s iw ih|]; cbn [group_element okg] in *; [| |discriminate].
  - destruct (process_leaf start crun save restore f g s (inl e) add top) as [[[r f1] g1]| |] eqn:El; cbn [abind] in He; try discriminate. injection He as <- <- <-.
    exact (leaf_falls f g s (inl e) add top r f1 g1 Ho Hg El).
  - destruct Hg as [Hs Hi]. injection He as He. refine (image_falls f g s _ true iw ih add top ok f' g' Ho Hs Hi _ (chain_wide f anc s Hc Hs) He).
    destruct min; [exact Hmin|]. apply (St_ok s Hs).
Qed.
Lemma group_try_falls : forall l f anc g first ok f' g',
  chain f anc -> Forall (okg St) l -> Forall inside (g_parts g) -> group_try start crun save restore f g first l = Done (ok, f', g') ->
  g_parts g' = g_parts g.
Proof.
  induction l as [|el l IH]; intros f anc g first ok f' g' Hc Hg Hp; cbn [group_try].
  - intros H. injection H as <- <- <-. reflexivity.
  - inversion Hg as [|a b Ha Hl]; subst.
    destruct (group_element start crun save restore f g el None false (negb first)) as [[[ok1 f1] g1]| |] eqn:Ee; cbn [abind]; try discriminate.
    destruct (group_element_falls f anc g el None false _ ok1 f1 g1 Hc Ha I Hp Ee) as (_ & H1 & H2 & _ & H3). specialize (H3 eq_refl). destruct ok1.
    + intros H. rewrite <- H3. exact (IH f1 anc g1 false ok f' g' H1 Hl H2 H).
    + intros H. injection H as <- <- <-. exact H3.
Qed.
Lemma lower_refl (f : part) : own f -> lower f f.
Proof. intros Ho. apply moves_lower. apply (moves_none Y B St False). exact Ho. Qed.
Lemma lower_trans (f f1 f2 : part) : lower f f1 -> lower f1 f2 -> lower f f2.
Proof. intros (y & st & lb & -> & H1 & H2) (y' & st' & lb' & -> & H3 & H4). cbn [with_y f_y] in *. exists y', st', lb'. split; [reflexivity|]. split; [lra|exact H4]. Qed.
Lemma group_add_falls : forall l f anc g ratio first f' g',
  chain f anc -> Forall (okg St) l -> (0 < ratio)%Q -> Forall inside (g_parts g) -> group_add start crun save restore f g ratio first l = Done (f', g') ->
  lower f f' /\ falls f f' g g'.
Proof.
  induction l as [|el l IH]; intros f anc g ratio first f' g' Hc Hg Hr Hp; cbn [group_add].
  - intros H. injection H as <- <-. split; [apply lower_refl; exact (chain_own _ _ _ _ _ _ _ _ _ _ _ Hc)|]. apply falls_none; [reflexivity|lra].
  - inversion Hg as [|a b Ha Hl]; subst.
    destruct (group_element start crun save restore f g el (if has_min el then Some (min_of el * ratio)%Q else None) true (negb first)) as [[[ok1 f1] g1]| |] eqn:Ee; cbn [abind]; try discriminate.
    assert (Hm : match (if has_min el then Some (min_of el * ratio)%Q else None) with Some m => (0 < m)%Q | None => True end).
    { destruct el as [s e|s iw ih|]; cbn [has_min min_of okg] in *; auto. destruct Ha as [Hs _]. destruct (St_ok s Hs) as (_ & _ & H0). destruct (s_min s); [nra|exact I]. }
    destruct (group_element_falls f anc g el _ true _ ok1 f1 g1 Hc Ha Hm Hp Ee) as (H1 & H2 & H3 & H4 & _).
    intros H. destruct (IH f1 anc g1 ratio false f' g' H2 Hl Hr H3 H) as (K1 & K2). split; [exact (lower_trans _ _ _ H1 K1)|exact (falls_trans _ _ _ _ _ _ H1 H4 K2)].
Qed.
Lemma group_falls f anc g s l tries r f' g' :
  chain f anc -> St s -> Forall (okg St) l -> Forall inside (g_parts g) -> process_group start crun save restore f g s l tries = Done (r, f', g') -> falls f f' g g'.
Proof.
  intros Hc Hs Hg Hp. unfold process_group. pose proof (chain_own _ _ _ _ _ _ _ _ _ _ _ Hc) as Ho. destruct (St_ok s Hs) as (Hmt & _ & _). pose proof (ow_lb _ _ _ _ f Ho) as Hlb.
  set (f0 := with_y f (if f_starting f then f_y f else (f_y f - s_mt s)%Q) (f_starting f) (f_lastbottom f)).
  assert (L0 : lower f f0) by (eexists _, _, _; split; [reflexivity|]; split; [destruct (f_starting f); lra|exact Hlb]).
  pose proof (lower_chain _ _ _ _ _ _ _ _ _ _ _ _ Hc L0) as Hc0.
  destruct (group_try start crun save restore f0 g true l) as [[[ok f1] g1]| |] eqn:Et; cbn [abind]; try discriminate.
  destruct (group_try_geom start crun save restore fits n0 gap0 elems0 X Y W B St False St_ok wide l f0 anc g true ok f1 g1 Hc0 Hg Hp Et) as (H1 & H2 & H3).
  pose proof (group_try_falls l f0 anc g true ok f1 g1 Hc0 Hg Hp Et) as Hsame.
  assert (Hf1 : exists y st lb, f1 = with_y f y st lb /\ (0 <= lb)%Q) by (destruct H1 as (y & st & lb & -> & _ & Hl & _); exists y, st, lb; split; [reflexivity|exact Hl]).
  destruct Hf1 as (y1 & st1 & lb1 & Hf1 & Hl1).
  assert (L2 : lower f (with_y f1 (f_y f) (f_starting f1) (f_lastbottom f1))) by (rewrite Hf1; eexists _, _, _; split; [reflexivity|]; split; [lra|exact Hl1]).
  destruct ok.
  - destruct (min_sum St St_ok l Hg) as [Hq1 Hq2].
    destruct (if existsb has_min l then if Qeq_bool (qsum (map min_of l)) 0 then Raise ZeroDivisionError else Done ((qsum (map min_of l) + f_y f1 - f_maxy f1) / qsum (map min_of l))%Q else Done 1%Q) as [ratio| |] eqn:Er; cbn [abind]; try discriminate.
    assert (Hr : (0 < ratio)%Q).
    { destruct (existsb has_min l); [|injection Er as <-; lra]. destruct (Qeq_bool (qsum (map min_of l)) 0); [discriminate|]. injection Er as <-.
      specialize (H3 eq_refl eq_refl). specialize (Hq2 eq_refl). assert (Hmx : f_maxy f0 = f_maxy f1) by (rewrite Hf1; reflexivity). rewrite Hmx in H3.
      apply Qlt_shift_div_l; lra. }
    destruct (group_add start crun save restore (with_y f1 (f_y f) (f_starting f1) (f_lastbottom f1)) g1 (if s_shrink s then 1%Q else ratio) true l) as [[f2 g2]| |] eqn:Ea; cbn [abind]; try discriminate.
    assert (Hr2 : (0 < (if s_shrink s then 1 else ratio))%Q) by (destruct (s_shrink s); lra).
    destruct (group_add_falls l _ anc g1 _ true f2 g2 (lower_chain _ _ _ _ _ _ _ _ _ _ _ _ Hc L2) Hg Hr2 H2 Ea) as (K1 & (new & K2 & K3)).
    intros H. injection H as <- <- <-. exists new. split; [rewrite K2, Hsame; reflexivity|]. subst f1. exact K3.
  - destruct (50 <=? tries); [discriminate|]. intros H. injection H as <- <- <-. apply falls_none; [exact Hsame|]. cbn [with_y f_y]. lra.
Qed.
Lemma delayed_falls f anc g d r f' g' :
  chain f anc -> okd St d -> Forall inside (g_parts g) -> process_delayed start crun save restore f g d = Done (r, f', g') -> falls f f' g g'.
Proof.
  intros Hc Hd Hp. pose proof (chain_own _ _ _ _ _ _ _ _ _ _ _ Hc) as Ho. destruct d as [s ref sv|s iw ih tries|s l tries]; cbn [process_delayed okd] in *.
  - intros H. apply (leaf_falls f g s _ true true r f' g' Ho Hd H).
  - destruct Hd as [Hs Hi]. destruct (process_image f g s (s_min s) (s_shrink s) iw ih true true) as [[ok f1] g1] eqn:Ei.
    destruct (image_falls f g s _ _ iw ih true true ok f1 g1 Ho Hs Hi ltac:(apply (St_ok s Hs)) (chain_wide f anc s Hc Hs) Ei) as (H1 & _). destruct ok.
    + intros H. injection H as <- <- <-. exact H1.
    + unfold image_ret. destruct (50 <=? tries); cbn [abind]; [discriminate|]. intros H. injection H as <- <- <-. exact H1.
  - destruct Hd as [Hs Hg]. apply (group_falls f anc); auto.
Qed.

(** *** Boxes inside boxes *)
Definition colx (f : part) (k : nat) : Q := (f_minx f + qn k * (f_colw f + f_gap f))%Q.
Definition some (o : option Q) : bool := match o with Some _ => true | None => false end.
(** The bottom of the columns of the box of several columns around, if there is
    one. *)
Fixpoint lim (f : part) (anc : list part) : option Q :=
  if 1 <? f_cols f then Some (f_maxy f) else match anc with [] => None | p :: rest => lim p rest end.
Definition flags (f : part) : Prop := f_will f || f_resetting f = true -> 1 < f_cols f.
Fixpoint tied (f : part) (anc : list part) : Prop :=
  flats (some (lim f anc)) (f_elems f) /\ flags f /\
  match anc with
  | [] => True
  | p :: rest => (f_y p == f_miny f)%Q /\ match lim p rest with Some m => f_cols f = 1 /\ f_maxy f = m | None => True end /\ tied p rest
  end.
(** What a box has placed is in its columns up to the present one, there above
    [y]. *)
Definition sits (f : part) (m : option Q) (y : option Q) (p : placed) : Prop :=
  (p_height p <= 0)%Q \/ exists k, k <= f_column f /\ (colx f k <= p_left p)%Q /\ (p_right p <= colx f k + f_colw f)%Q /\ (p_top p <= f_miny f)%Q /\
    match m with Some b => (b <= p_bot p)%Q | None => True end /\ (k = f_column f -> match y with Some q => (q <= p_bot p)%Q | None => True end).
(** The parts before the section of a box are those of its parent, above [b]. *)
Fixpoint lay (f : part) (y : option Q) (anc : list part) (bs : list Q) (parts : list placed) : Prop :=
  f_pindex f <= length parts /\ Forall (sits f (lim f anc) y) (skipn (f_pindex f) parts) /\
  match anc, bs with
  | [], [] => f_pindex f = 0
  | p :: rest, b :: bs' => (f_miny f <= b /\ b <= f_miny p)%Q /\ lay p (Some b) rest bs' (firstn (f_pindex f) parts)
  | _, _ => False
  end.

Definition shp (f f' : part) : Prop :=
  f_elems f' = f_elems f /\ f_cols f' = f_cols f /\ f_colw f' = f_colw f /\ f_gap f' = f_gap f /\ f_minx f' = f_minx f /\ f_miny f' = f_miny f /\
  f_maxy f' = f_maxy f /\ f_column f' = f_column f /\ f_pindex f' = f_pindex f.
Definition shq (f f' : part) : Prop := shp f f' /\ f_y f' = f_y f /\ flags f'.
Lemma shp_refl f : shp f f.
Proof. repeat split. Qed.
Lemma lim_shp : forall anc anc' f f', shp f f' -> Forall2 shp anc anc' -> lim f' anc' = lim f anc.
Proof.
  induction anc as [|p rest IH]; intros anc' f f' (_ & H2 & _ & _ & _ & _ & H7 & _) Ha; inversion Ha as [|a b c d Hp Hr]; subst; cbn [lim]; rewrite H2, H7; [reflexivity|].
  destruct (1 <? f_cols f); [reflexivity|]. apply IH; assumption.
Qed.
Lemma lay_shp : forall anc anc' f f' y bs parts, shp f f' -> Forall2 shp anc anc' -> lay f y anc bs parts -> lay f' y anc' bs parts.
Proof.
  induction anc as [|p rest IH]; intros anc' f f' y bs parts Hf Ha Hl; pose proof (lim_shp _ _ _ _ Hf Ha) as El; destruct Hf as (H1 & H2 & H3 & H4 & H5 & H6 & H7 & H8 & H9);
    inversion Ha as [|a b c d Hp Hr]; subst; cbn [lay] in *; cbn [lim] in El; destruct Hl as (L1 & L2 & L3).
  - split; [rewrite H9; exact L1|]. split; [|destruct bs; [rewrite H9; exact L3|destruct L3]]. rewrite H9. eapply Forall_impl; [|exact L2]. intros q [Hq|(k & K1 & K2 & K3 & K4 & K5 & K6)]; [left; exact Hq|].
    right. exists k. unfold colx in *. rewrite H3, H4, H5, H6, H8. cbn [lim]. rewrite El. auto 10.
  - split; [rewrite H9; exact L1|]. split.
    + rewrite H9. eapply Forall_impl; [|exact L2]. intros q [Hq|(k & K1 & K2 & K3 & K4 & K5 & K6)]; [left; exact Hq|].
      right. exists k. unfold colx in *. rewrite H3, H4, H5, H6, H8. cbn [lim]. rewrite El. auto 10.
    + destruct bs as [|b0 bs]; [destruct L3|]. destruct L3 as [L3 L4]. split; [|rewrite H9; exact (IH _ _ _ _ _ _ Hp Hr L4)].
      destruct Hp as (_ & _ & _ & _ & _ & Hm & _). rewrite H6, Hm. exact L3.
Qed.
Lemma shq_shp l l' : Forall2 shq l l' -> Forall2 shp l l'.
Proof. induction 1 as [|a b c d [H _]]; constructor; auto. Qed.
Lemma tied_shp : forall anc anc' f f', shp f f' -> flags f' -> Forall2 shq anc anc' -> tied f anc -> tied f' anc'.
Proof.
  induction anc as [|p rest IH]; intros anc' f f' Hf Hg Ha Hl; pose proof (lim_shp _ _ _ _ Hf (shq_shp _ _ Ha)) as El; destruct Hf as (H1 & H2 & H3 & H4 & H5 & H6 & H7 & H8 & H9);
    inversion Ha as [|a b c d Hp Hr]; subst; cbn [tied] in *; rewrite El, H1; destruct Hl as (L1 & L2 & L3).
  - auto.
  - destruct L3 as (L3 & L4 & L5). destruct Hp as (Hp & Hy & Hpg). split; [exact L1|]. split; [exact Hg|]. split; [rewrite Hy, H6; exact L3|].
    rewrite (lim_shp _ _ _ _ Hp (shq_shp _ _ Hr)), H2, H7. split; [exact L4|]. exact (IH _ _ _ Hp Hpg Hr L5).
Qed.
Lemma shq_refl f anc : tied f anc -> shq f f /\ Forall2 shq anc anc.
Proof.
  revert f. induction anc as [|p rest IH]; intros f Ht; cbn [tied] in Ht; destruct Ht as (_ & Hg & Ht); (split; [split; [apply shp_refl|split; [reflexivity|exact Hg]]|]); [constructor|].
  destruct Ht as (_ & _ & Ht). destruct (IH p Ht). constructor; assumption.
Qed.
Lemma shp_refls (l : list part) : Forall2 shp l l.
Proof. induction l; constructor; auto. apply shp_refl. Qed.
Lemma sits_less f m y y' p : sits f m y p -> match y' with Some q' => match y with Some q => (q' <= q)%Q | None => False end | None => True end -> sits f m y' p.
Proof.
  intros [H|(k & K1 & K2 & K3 & K4 & K5 & K6)] Hy; [left; exact H|]. right. exists k. do 5 (split; [assumption|]). intros Hk. specialize (K6 Hk). destruct y' as [q'|]; [|exact I]. destruct y as [q|]; [lra|destruct Hy].
Qed.
Lemma lay_less f y y' anc bs parts : lay f y anc bs parts -> match y' with Some q' => match y with Some q => (q' <= q)%Q | None => False end | None => True end -> lay f y' anc bs parts.
Proof. intros Hl Hy. destruct anc; cbn [lay] in *; destruct Hl as (L1 & L2 & L3); (split; [exact L1|]); (split; [|exact L3]); (eapply Forall_impl; [|exact L2]); intros q Hq; exact (sits_less _ _ _ _ _ Hq Hy). Qed.

Lemma qn_le a b : a <= b -> (qn a <= qn b)%Q.
Proof. intros H. unfold qn. rewrite <- Zle_Qle. lia. Qed.
Lemma qn_S a : (qn (Datatypes.S a) == qn a + 1)%Q.
Proof. unfold qn. rewrite Nat2Z.inj_succ, <- Z.add_1_r, inject_Z_plus. reflexivity. Qed.
Lemma gap_pos g w : gap_ok g -> (0 <= gap_of g w)%Q.
Proof. destruct g as [q|]; cbn [gap_ok gap_of]; [auto|]. intros _. pose proof (proj2 (qmax_le (w / 25) 7)). lra. Qed.
Lemma sizes f anc s : chain f anc -> tied f anc -> St s -> (0 <= f_colw f)%Q /\ (0 <= f_gap f)%Q.
Proof.
  intros Hc Ht Hs. split.
  - pose proof (chain_wide f anc s Hc Hs). destruct (St_side s Hs). lra.
  - destruct anc as [|p rest]; cbn [ContentGeom.chain tied] in *.
    + destruct Hc as (_ & _ & _ & _ & _ & -> & _). apply gap_pos. exact gap0_ok.
    + destruct Hc as (_ & ((s1 & Hin) & _ & -> & _) & _). destruct Ht as (_ & _ & _ & _ & Ht). apply gap_pos.
      assert (Hf : flats (some (lim p rest)) (f_elems p)) by (destruct rest; cbn [tied] in Ht; apply Ht).
      pose proof (flats_in _ _ _ Hf Hin) as H. cbn [flatel] in H. apply H.
Qed.
Lemma contains f p rest s k : chain f (p :: rest) -> tied f (p :: rest) -> St s -> k <= f_column f ->
  (left_edge p <= colx f k)%Q /\ (colx f k + f_colw f <= left_edge p + f_colw p)%Q.
Proof.
  intros Hc Ht Hs Hk. destruct (sizes f (p :: rest) s Hc Ht Hs) as [Hw Hg]. pose proof (ow_col _ _ _ _ _ (chain_own _ _ _ _ _ _ _ _ _ _ _ Hc)) as Hcol.
  cbn [ContentGeom.chain] in Hc. destruct Hc as (_ & (_ & Hx & Hgap & Hcw & _) & _). unfold colx. rewrite Hx.
  assert (H0 : (0 <= qn k)%Q) by (apply (qn_le 0 k); lia).
  assert (Hn : (qn k + 1 <= qn (f_cols f))%Q) by (rewrite <- qn_S; apply qn_le; lia).
  assert (Hfill : (f_colw f * qn (f_cols f) == f_colw p - f_gap f * (qn (f_cols f) - 1))%Q).
  { rewrite Hcw, Hgap. unfold col_of. field. intros Hz. lra. }
  split; nra.
Qed.
Lemma beside f anc s k k' : chain f anc -> tied f anc -> St s -> k < k' -> (colx f k + f_colw f <= colx f k')%Q.
Proof.
  intros Hc Ht Hs Hk. destruct (sizes f anc s Hc Ht Hs) as [Hw Hg]. unfold colx.
  assert (H1 : (qn k + 1 <= qn k')%Q) by (rewrite <- qn_S; apply qn_le; lia). nra.
Qed.
Lemma inside_style p : inside p -> exists s, St s.
Proof. destruct p; intros (? & ? & ? & _ & Hs & _); eauto. Qed.
Lemma chain_up (f p : part) rest : chain f (p :: rest) -> chain p rest.
Proof. cbn [ContentGeom.chain]. tauto. Qed.
Lemma tied_up (f p : part) rest : tied f (p :: rest) -> tied p rest.
Proof. cbn [tied]. tauto. Qed.
Lemma in_firstn {A} (x : A) n l : In x (firstn n l) -> In x l.
Proof. intros H. rewrite <- (firstn_skipn n l). apply in_or_app. left. exact H. Qed.

(** Everything is above the place where the box goes on, or beside it. *)
Lemma avoid : forall anc f y bs parts q,
  chain f anc -> tied f anc -> lay f (Some y) anc bs parts -> (y <= f_miny f)%Q -> In q parts -> inside q -> (0 < p_height q)%Q ->
  (p_right q <= left_edge f \/ left_edge f + f_colw f <= p_left q \/ y <= p_bot q)%Q.
Proof.
  induction anc as [|p rest IH]; intros f y bs parts q Hc Ht Hl Hy Hq Hi H0; destruct (inside_style q Hi) as [s Hs].
  - cbn [lay] in Hl. destruct Hl as (_ & L2 & L3). destruct bs; [|destruct L3]. rewrite L3 in L2. cbn [skipn] in L2.
    destruct (proj1 (Forall_forall _ _) L2 q Hq) as [Hz|(k & K1 & K2 & K3 & K4 & K5 & K6)]; [lra|].
    destruct (Nat.eq_dec k (f_column f)) as [->|Hk]; [right; right; exact (K6 eq_refl)|]. left.
    pose proof (beside f [] s k (f_column f) Hc Ht Hs ltac:(lia)) as Hb. change (colx f (f_column f)) with (left_edge f) in Hb. lra.
  - pose proof Hl as Hl'. cbn [lay] in Hl. destruct Hl as (L1 & L2 & L3). destruct bs as [|b bs]; [destruct L3|]. destruct L3 as [[B1 B2] L3].
    rewrite <- (firstn_skipn (f_pindex f) parts) in Hq. apply in_app_or in Hq. destruct Hq as [Hq|Hq].
    + destruct (IH p b bs _ q (chain_up _ _ _ Hc) (tied_up _ _ _ Ht) L3 B2 Hq Hi H0) as [A|[A|A]].
      * left. destruct (contains f p rest s (f_column f) Hc Ht Hs ltac:(lia)) as [C1 C2]. change (colx f (f_column f)) with (left_edge f) in C1. lra.
      * right. left. destruct (contains f p rest s (f_column f) Hc Ht Hs ltac:(lia)) as [C1 C2]. change (colx f (f_column f)) with (left_edge f) in C2. lra.
      * right. right. lra.
    + destruct (proj1 (Forall_forall _ _) L2 q Hq) as [Hz|(k & K1 & K2 & K3 & K4 & K5 & K6)]; [lra|].
      destruct (Nat.eq_dec k (f_column f)) as [->|Hk]; [right; right; exact (K6 eq_refl)|]. left.
      pose proof (beside f (p :: rest) s k (f_column f) Hc Ht Hs ltac:(lia)) as Hb. change (colx f (f_column f)) with (left_edge f) in Hb. lra.
Qed.

Lemma ordered_snoc l p : ordered l -> Forall (fun a => after_it a p) l -> ordered (l ++ [p]).
Proof.
  intros H. induction H as [|a l Ha Hl IH]; intros Hp; cbn [app]; [constructor; constructor|]. inversion Hp as [|b c Hb Hc]; subst. constructor; [|exact (IH Hc)].
  apply Forall_app. split; [exact Ha|]. constructor; [exact Hb|constructor].
Qed.
Lemma ordered_firstn n l : ordered l -> ordered (firstn n l).
Proof.
  intros H. revert n. induction H as [|a l Ha Hl IH]; intros [|n]; cbn [firstn]; try constructor; [|apply IH].
  apply Forall_forall. intros q Hq. apply (proj1 (Forall_forall _ _) Ha). exact (in_firstn _ _ _ Hq).
Qed.
Lemma lim_maxy f anc b : tied f anc -> lim f anc = Some b -> b = f_maxy f.
Proof.
  destruct anc as [|p rest]; cbn [tied lim]; intros Ht; (destruct (1 <? f_cols f); [intros H; injection H; auto|]); [discriminate|]. intros H. destruct Ht as (_ & _ & _ & Ht & _). rewrite H in Ht. symmetry. apply Ht.
Qed.
Lemma lay_snoc f y anc bs parts q y' : lay f (Some y) anc bs parts -> (y' <= y)%Q -> sits f (lim f anc) (Some y') q -> lay f (Some y') anc bs (parts ++ [q]).
Proof.
  intros Hl Hy Hq. pose proof (lay_less _ _ (Some y') _ _ _ Hl Hy) as Hl'. clear Hl.
  assert (Hlen : f_pindex f <= length parts) by (destruct anc; cbn [lay] in Hl'; apply Hl').
  destruct anc; cbn [lay] in *; destruct Hl' as (L1 & L2 & L3); (split; [rewrite app_length; lia|]); rewrite skipn_app, ?firstn_app; replace (f_pindex f - length parts) with 0 by lia; cbn [skipn firstn];
    rewrite ?app_nil_r; (split; [apply Forall_app; split; [exact L2|constructor; [exact Hq|constructor]]|exact L3]).
Qed.
Lemma drops_lay f anc bs : chain f anc -> tied f anc -> forall x w m y new y', drops x w m y new y' -> x = left_edge f -> w = f_colw f -> m = f_maxy f -> forall parts,
  lay f (Some y) anc bs parts -> (y <= f_miny f)%Q -> Forall inside (parts ++ new) -> ordered parts -> lay f (Some y') anc bs (parts ++ new) /\ ordered (parts ++ new).
Proof.
  intros Hc Ht x w m y new y' H Hx Hw Hm. induction H as [y y' Hy|y p l y' H0 H IH|y p l y' H1 H2 H3 H4 H5 H IH]; intros parts Hl Hmy Hi Ho.
  - rewrite app_nil_r. split; [exact (lay_less _ _ (Some y') _ _ _ Hl Hy)|exact Ho].
  - replace (parts ++ p :: l) with ((parts ++ [p]) ++ l) in * by (rewrite <- app_assoc; reflexivity). apply IH; [|exact Hmy|exact Hi|].
    + apply (lay_snoc _ y); [exact Hl|lra|left; exact H0].
    + apply ordered_snoc; [exact Ho|]. apply Forall_forall. intros q _. right. left. exact H0.
  - replace (parts ++ p :: l) with ((parts ++ [p]) ++ l) in * by (rewrite <- app_assoc; reflexivity).
    assert (Hb : (p_bot p <= y)%Q) by (unfold p_bot; lra). apply IH; [|lra|exact Hi|].
    + apply (lay_snoc _ y); [exact Hl|exact Hb|]. right. exists (f_column f). split; [lia|]. change (colx f (f_column f)) with (left_edge f). rewrite <- Hx, <- Hw. do 2 (split; [assumption|]). split; [lra|].
      split; [|lra]. destruct (lim f anc) as [b|] eqn:El; [|exact I]. rewrite (lim_maxy _ _ _ Ht El), <- Hm. exact H4.
    + apply ordered_snoc; [exact Ho|]. apply Forall_forall. intros q Hq. destruct (Qlt_le_dec 0 (p_height q)) as [K|K]; [|left; exact K]. right. right.
      assert (Hiq : inside q) by (apply (proj1 (Forall_forall _ _) Hi); apply in_or_app; left; apply in_or_app; left; exact Hq).
      destruct (avoid anc f y bs parts q Hc Ht Hl Hmy Hq Hiq K) as [A|[A|A]]; [left; subst; lra|right; left; subst; lra|right; right; lra].
Qed.

Definition lies (f : part) (anc : list part) (bs : list Q) (parts : list placed) : Prop :=
  tied f anc /\ lay f (Some (f_y f)) anc bs parts /\ ordered parts.
Lemma falls_lies f f' anc bs (g g' : glob) : chain f anc -> lies f anc bs (g_parts g) -> lower f f' -> falls f f' g g' -> Forall inside (g_parts g') -> lies f' anc bs (g_parts g').
Proof.
  intros Hc (Ht & Hl & Ho) (y & st & lb & -> & Hy & Hlb) (new & Hn & Hd) Hi. rewrite Hn in *. cbn [with_y f_y] in Hd.
  pose proof (ow_y _ _ _ _ _ (chain_own _ _ _ _ _ _ _ _ _ _ _ Hc)) as Hmy.
  destruct (drops_lay f anc bs Hc Ht _ _ _ _ _ _ Hd eq_refl eq_refl eq_refl _ Hl Hmy Hi Ho) as [H1 H2]. split; [|split; [|exact H2]].
  - destruct (shq_refl f anc Ht) as ((_ & _ & Hf) & Hs). apply (tied_shp anc anc f); [repeat split|exact Hf|exact Hs|exact Ht].
  - cbn [with_y f_y]. apply (lay_shp anc anc f); [repeat split|apply shp_refls|exact H1].
Qed.
Lemma lies_todo f anc bs parts i d : lies f anc bs parts -> lies (with_todo f i d) anc bs parts.
Proof.
  intros (Ht & Hl & Ho). split; [|split; [|exact Ho]].
  - destruct (shq_refl f anc Ht) as ((_ & _ & Hf) & Hs). apply (tied_shp anc anc f); [repeat split|exact Hf|exact Hs|exact Ht].
  - cbn [with_todo f_y]. apply (lay_shp anc anc f); [repeat split|apply shp_refls|exact Hl].
Qed.
Lemma add_delayed_lies anc bs : forall fuel n f g a f' g',
  chain f anc -> Forall inside (g_parts g) -> lies f anc bs (g_parts g) -> add_delayed start crun save restore fuel n f g = Done (a, f', g') -> lies f' anc bs (g_parts g').
Proof.
  induction fuel as [|fuel IH]; intros n f g a f' g' Hc Hp Hl; [discriminate|]. cbn [add_delayed].
  destruct (nth_error (f_delayed f) n) as [d|] eqn:En; [|intros H; injection H as <- <- <-; exact Hl].
  destruct (process_delayed start crun save restore f g d) as [[[r f1] g1]| |] eqn:Ep; cbn [abind]; try discriminate.
  pose proof (chain_own _ _ _ _ _ _ _ _ _ _ _ Hc) as Ho. pose proof (proj1 (Forall_forall _ _) (ow_del _ _ _ _ f Ho) d (nth_error_In _ _ En)) as Hd.
  destruct (delayed_geom start crun save restore fits n0 gap0 elems0 X Y W B St False St_ok wide f anc g d r f1 g1 Hc Hd Hp Ep) as (H1 & H2 & H3). pose proof (lower_chain _ _ _ _ _ _ _ _ _ _ _ _ Hc H1) as Hc1.
  pose proof (falls_lies f f1 anc bs g g1 Hc Hl H1 (delayed_falls f anc g d r f1 g1 Hc Hd Hp Ep) H2) as Hl1.
  assert (Hc2 : chain (with_todo f1 (f_index f1) (replace_nth n (r_delayed r) (f_delayed f1))) anc).
  { apply todo_chain; [exact Hc1|]. apply Forall_replace; [apply (ow_del _ _ _ _ f1 (chain_own _ _ _ _ _ _ _ _ _ _ _ Hc1))|exact H3]. }
  destruct (r_next r).
  - intros H. injection H as <- <- <-. apply lies_todo. exact Hl1.
  - intros H. exact (IH _ _ _ _ _ _ Hc2 H2 (lies_todo _ _ _ _ _ _ Hl1) H).
Qed.

(** *** Sections *)
Lemma skipn_split {A} a b (l : list A) : a <= b -> skipn a l = skipn a (firstn b l) ++ skipn b l.
Proof.
  intros H. rewrite <- (firstn_skipn b l) at 1. rewrite skipn_app. f_equal. destruct (Nat.le_gt_cases b (length l)) as [Hb|Hb].
  - rewrite firstn_length_le by exact Hb. replace (a - b) with 0 by lia. reflexivity.
  - rewrite (skipn_all2 (n := b)) by lia. apply skipn_nil.
Qed.
(** A box after the one inside it. *)
Lemma lay_done f p rest y b bs parts y' : chain f (p :: rest) -> tied f (p :: rest) -> Forall inside parts -> lay f y (p :: rest) (b :: bs) parts ->
  match y' with Some q => (q <= b)%Q | None => True end ->
  (forall q, In q (skipn (f_pindex f) parts) -> (0 < p_height q)%Q -> match y' with Some z => (z <= p_bot q)%Q | None => True end) -> lay p y' rest bs parts.
Proof.
  intros Hc Ht Hi Hl Hb Hq. cbn [lay] in Hl. destruct Hl as (L1 & L2 & [B1 B2] & L3).
  assert (Hpi : f_pindex p <= f_pindex f) by (assert (H : f_pindex p <= length (firstn (f_pindex f) parts)) by (destruct rest; cbn [lay] in L3; apply L3); rewrite firstn_length_le in H by exact L1; exact H).
  pose proof (lay_less _ _ y' _ _ _ L3 ltac:(destruct y'; exact Hb)) as L4.
  assert (Hs : Forall (sits p (lim p rest) y') (skipn (f_pindex f) parts)).
  { apply Forall_forall. intros q Hin. destruct (Qlt_le_dec 0 (p_height q)) as [H0|H0]; [|left; exact H0]. right.
    destruct (proj1 (Forall_forall _ _) L2 q Hin) as [Hz|(k & K1 & K2 & K3 & K4 & K5 & K6)]; [lra|].
    assert (Hiq : inside q) by (apply (proj1 (Forall_forall _ _) Hi); rewrite <- (firstn_skipn (f_pindex f) parts); apply in_or_app; right; exact Hin).
    destruct (inside_style q Hiq) as [s Hst]. destruct (contains f p rest s k Hc Ht Hst K1) as [C1 C2].
    exists (f_column p). split; [lia|]. change (colx p (f_column p)) with (left_edge p). split; [lra|]. split; [lra|]. split; [lra|]. split; [|intros _; exact (Hq q Hin H0)].
    destruct (lim p rest) as [m|] eqn:El; [|exact I]. cbn [tied lim] in Ht, K5. rewrite El in Ht, K5. destruct Ht as (_ & _ & _ & (Hn & _) & _). rewrite Hn in K5. exact K5. }
  destruct rest as [|p2 rest]; cbn [lay] in *; destruct L4 as (M1 & M2 & M3); (split; [lia|]); rewrite (skipn_split _ _ parts Hpi); (split; [apply Forall_app; split; assumption|]); try (rewrite firstn_firstn, Nat.min_l in M3 by exact Hpi); exact M3.
Qed.
Lemma lay_up f p rest y b bs parts : chain f (p :: rest) -> tied f (p :: rest) -> Forall inside parts -> lay f y (p :: rest) (b :: bs) parts -> lay p None rest bs parts.
Proof. intros Hc Ht Hi Hl. apply (lay_done f p rest y b bs parts None); auto. Qed.

Fixpoint plo (anc : list part) (bs : list Q) (parts : list placed) : Prop :=
  match anc, bs with
  | p :: rest, _ :: bs' => (f_partial p <> None /\ tied p rest /\ lay p (Some (f_y p)) rest bs' parts) \/ (f_partial p = None /\ plo rest bs' parts)
  | _, _ => False
  end.
Lemma Qles_refl bs : Forall2 Qle bs bs.
Proof. induction bs; constructor; auto. lra. Qed.
Lemma Qles_trans a b c : Forall2 Qle a b -> Forall2 Qle b c -> Forall2 Qle a c.
Proof. intros H. revert c. induction H as [|x y a b Hxy Hab IH]; intros c Hc; inversion Hc as [|u v w z Huv Hwz]; subst; constructor; [lra|auto]. Qed.

(** The next column of a box. *)
Lemma column_lies f anc bs parts cmem : tied f anc -> lay f None anc bs parts ->
  tied (with_partial (with_column f (Datatypes.S (f_column f))) cmem) anc /\ lay (with_partial (with_column f (Datatypes.S (f_column f))) cmem) (Some (f_miny f)) anc bs parts.
Proof.
  intros Ht Hl.
  assert (Hlim : lim (with_partial (with_column f (Datatypes.S (f_column f))) cmem) anc = lim f anc) by (destruct anc; reflexivity).
  split.
  - destruct anc; cbn [tied] in *; rewrite Hlim; exact Ht.
  - assert (Hs : forall q, sits f (lim f anc) None q -> sits (with_partial (with_column f (Datatypes.S (f_column f))) cmem) (lim f anc) (Some (f_miny f)) q).
    { intros q [H|(k & K1 & K2 & K3 & K4 & K5 & _)]; [left; exact H|]. right. exists k. cbn [with_partial with_column f_column f_miny f_colw]. split; [lia|]. do 4 (split; [assumption|]). intros ->. lia. }
    destruct anc; cbn [lay] in *; rewrite Hlim; destruct Hl as (L1 & L2 & L3); (split; [exact L1|]); (split; [eapply Forall_impl; [exact Hs|exact L2]|exact L3]).
Qed.
Lemma with_partial_same (f : part) : with_partial f (f_partial f) = f.
Proof. destruct f; reflexivity. Qed.
Lemma column_lies' f anc bs parts : tied f anc -> lay f None anc bs parts ->
  tied (with_column f (Datatypes.S (f_column f))) anc /\ lay (with_column f (Datatypes.S (f_column f))) (Some (f_miny f)) anc bs parts.
Proof. intros Ht Hl. rewrite <- (with_partial_same (with_column f (Datatypes.S (f_column f)))). apply column_lies; assumption. Qed.

Lemma lay_pindex f y anc bs parts : lay f y anc bs parts -> f_pindex f <= length parts.
Proof. destruct anc; cbn [lay]; tauto. Qed.
Lemma next_apart parts : Forall inside parts -> forall anc f cm r st bs,
  chain f anc -> tied f anc -> lay f None anc bs parts -> next_section (length parts) cm (f :: anc) = (r, st) ->
  exists f' anc', st = f' :: anc' /\
  match r with
  | SInterrupt | SBreak => shq f f' /\ Forall2 shq anc anc'
  | SPartial => exists bs', Forall2 Qle bs bs' /\
      ((cm <> None /\ f_partial f' <> None /\ tied f' anc' /\ lay f' (Some (f_y f')) anc' bs' parts) \/ (f_partial f' = f_partial f /\ plo anc' bs' parts))
  | SRetry => exists bs', Forall2 Qle bs bs' /\ tied f' anc' /\ lay f' (Some (f_y f')) anc' bs' parts /\ f_y f' = f_miny f' /\ (f_miny f <= f_miny f')%Q /\ lim f' anc' = lim f anc /\ f_elems f' = f_elems f
  | SPos _ y => exists bs', Forall2 Qle bs bs' /\ tied f' anc' /\ lay f' (Some (f_y f')) anc' bs' parts /\ f_y f' = f_miny f' /\ (f_miny f <= f_miny f')%Q /\ lim f' anc' = lim f anc /\ f_elems f' = f_elems f /\ y = f_y f'
  end.
Proof.
  intros Hi. induction anc as [|p rest IH]; intros f cm r st bs Hc Ht Hl; rewrite next_section_cons.
  - destruct (shq_refl f [] Ht) as ((S1 & S2 & S3) & _). destruct (Datatypes.S (f_column f) =? f_cols f) eqn:El; [destruct (f_resetting f) eqn:Er|]; cbv zeta.
    + intros H. injection H as <- <-. eexists _, []. split; [reflexivity|]. split; [|constructor]. split; [repeat split|]. split; [reflexivity|]. unfold flags in *. cbn [with_reset f_will f_resetting f_cols]. rewrite Er in S3. exact S3.
    + intros H. injection H as <- <-. eexists _, []. split; [reflexivity|]. split; [|constructor]. split; [repeat split|]. split; [reflexivity|exact S3].
    + destruct (column_lies' f [] bs parts Ht Hl) as [T1 L1].
      destruct cm as [c|]; [destruct (f_delayed f) as [|d ds]|]; intros H; injection H as <- <-; eexists _, []; (split; [reflexivity|]).
      * exists bs. split; [apply Qles_refl|]. split; [exact T1|]. split; [exact L1|]. split; [reflexivity|]. split; [cbn; lra|]. split; [reflexivity|]. split; reflexivity.
      * exists bs. split; [apply Qles_refl|]. left. split; [discriminate|]. split; [discriminate|]. apply column_lies; assumption.
      * exists bs. split; [apply Qles_refl|]. split; [exact T1|]. split; [exact L1|]. split; [reflexivity|]. split; [cbn; lra|]. split; reflexivity.
  - destruct (shq_refl f (p :: rest) Ht) as ((S1 & S2 & S3) & S4). destruct (Datatypes.S (f_column f) =? f_cols f) eqn:El; [destruct (f_resetting f) eqn:Er|]; cbv zeta.
    + intros H. injection H as <- <-. eexists _, _. split; [reflexivity|]. split; [|exact S4]. split; [repeat split|]. split; [reflexivity|]. unfold flags in *. cbn [with_reset f_will f_resetting f_cols]. rewrite Er in S3. exact S3.
    + set (f1 := with_section f (f_index f) (f_delayed f) (below cm)).
      destruct (next_section (length parts) (Some (below cm ++ [(f_index f, f_delayed f)])) (p :: rest)) as [r0 st0] eqn:En.
      destruct bs as [|b bs]; [cbn [lay] in Hl; destruct Hl as (_ & _ & []) |].
      pose proof (lay_up f p rest _ b bs parts Hc Ht Hi Hl) as Hlp.
      destruct (IH p _ r0 st0 bs (chain_up _ _ _ Hc) (tied_up _ _ _ Ht) Hlp En) as (p' & rest' & -> & HR). clear IH.
      assert (Hpp : f_partial p = None) by (cbn [ContentGeom.chain] in Hc; apply Hc).
      assert (Hsq : shq f f1) by (split; [repeat split|]; split; [reflexivity|exact S3]).
      cbn [lay] in Hl. destruct Hl as (L1 & L2 & [B1 B2] & L3).
      assert (Hmv : forall x y bs', tied p' rest' -> lay p' (Some (f_y p')) rest' bs' parts -> f_y p' = f_miny p' -> (f_miny p <= f_miny p')%Q -> lim p' rest' = lim p rest -> f_elems p' = f_elems p -> y = f_y p' ->
        tied (moved f1 x y (length parts)) (p' :: rest') /\ lay (moved f1 x y (length parts)) (Some y) (p' :: rest') (f_miny p' :: bs') parts /\ lim (moved f1 x y (length parts)) (p' :: rest') = lim f (p :: rest)).
      { intros x y bs' P1 P2 P3 P4 P5 P6 P7.
        assert (Hlim : lim (moved f1 x y (length parts)) (p' :: rest') = lim f (p :: rest)) by (cbn [lim moved f1 with_section f_cols f_maxy]; rewrite P5; reflexivity).
        split; [|split; [|exact Hlim]].
        - cbn [tied] in Ht |- *. rewrite Hlim, P5. destruct Ht as (T1 & T2 & T3 & T4 & T5). split; [exact T1|]. split; [exact T2|]. split; [cbn [moved f_miny]; rewrite P7; lra|]. split; [exact T4|exact P1].
        - cbn [lay moved f_pindex f_miny]. split; [lia|]. rewrite skipn_all, firstn_all. split; [constructor|]. split; [rewrite P7, P3; lra|]. rewrite <- P3. exact P2. }
      destruct r0 as [| | | |x y].
      * intros H. injection H as <- <-. exists f1, (p' :: rest'). destruct HR as [HR1 HR2]. split; [reflexivity|]. split; [exact Hsq|]. constructor; assumption.
      * intros H. injection H as <- <-. exists f1, (p' :: rest'). destruct HR as [HR1 HR2]. split; [reflexivity|]. split; [exact Hsq|]. constructor; assumption.
      * intros H. injection H as <- <-. exists f1, (p' :: rest'). destruct HR as (bs' & Hle & HR). split; [reflexivity|]. exists (b :: bs'). split; [constructor; [lra|exact Hle]|].
        right. split; [reflexivity|]. cbn [plo]. destruct HR as [(_ & R1 & R2 & R3)|(R1 & R2)]; [left; auto|right; split; [rewrite R1; exact Hpp|exact R2]].
      * intros H. injection H as <- <-. destruct HR as (bs' & Hle & R1 & R2 & R3 & R4 & R5 & R6). exists f1, (p' :: rest'). split; [reflexivity|]. exfalso.
        assert (Hno : forall (st : list part) (c : @cmem E S) (p : part) n, fst (next_section n (Some c) (p :: st)) <> SRetry).
        { clear. induction st as [|q st IH]; intros c p n; rewrite next_section_cons; (destruct (Datatypes.S (f_column p) =? f_cols p); [destruct (f_resetting p)|]); cbv zeta; try discriminate;
            try (destruct (f_delayed p); discriminate).
          specialize (IH (below (Some c) ++ [(f_index p, f_delayed p)]) q n). destruct (next_section n _ (q :: st)) as [r1 st1]. cbn [fst] in IH. destruct r1; cbn [fst]; congruence. }
        exact (Hno rest _ p _ (f_equal fst En)).
      * destruct HR as (bs' & Hle & R1 & R2 & R3 & R4 & R5 & R6 & R7). destruct (Hmv x y bs' R1 R2 R3 R4 R5 R6 R7) as (M1 & M2 & M3). intros H.
        assert (Hle2 : Forall2 Qle (b :: bs) (f_miny p' :: bs')) by (constructor; [lra|exact Hle]). assert (Hup : (f_miny f <= y)%Q) by (rewrite R7, R3; lra).
        exists (moved f1 x y (length parts)), (p' :: rest'). destruct cm; injection H as <- <-; (split; [reflexivity|]); exists (f_miny p' :: bs').
        -- do 3 (split; [assumption|]). split; [reflexivity|]. split; [exact Hup|]. split; [exact M3|]. split; reflexivity.
        -- do 3 (split; [assumption|]). split; [reflexivity|]. split; [exact Hup|]. split; [exact M3|]. reflexivity.
    + destruct (column_lies' f (p :: rest) bs parts Ht Hl) as [T1 L1].
      destruct cm as [c|]; [destruct (f_delayed f) as [|d ds]|]; intros H; injection H as <- <-; eexists _, (p :: rest); (split; [reflexivity|]).
      * exists bs. split; [apply Qles_refl|]. split; [exact T1|]. split; [exact L1|]. split; [reflexivity|]. split; [cbn; lra|]. split; [reflexivity|]. split; reflexivity.
      * exists bs. split; [apply Qles_refl|]. left. split; [discriminate|]. split; [discriminate|]. apply column_lies; assumption.
      * exists bs. split; [apply Qles_refl|]. split; [exact T1|]. split; [exact L1|]. split; [reflexivity|]. split; [cbn; lra|]. split; reflexivity.
Qed.

(** *** Trying again *)
Lemma reset_lies f anc bs (g : glob) go f' g' : 1 < f_cols f -> lies f anc bs (g_parts g) -> reset f g = (go, f', g') -> lies f' anc bs (g_parts g').
Proof.
  intros Hn (Ht & Hl & Ho). unfold reset. cbv zeta.
  match goal with |- (if ?c && _ then _ else _) = _ -> _ => set (stop := c) end.
  destruct (stop && negb (f_forward f)); [intros H; injection H as <- <- <-; split; [exact Ht|split; assumption]|].
  match goal with |- match ?e with _ => _ end = _ -> _ => destruct e as [[maxy dl] d] end.
  intros H. injection H as <- <- <-. apply Nat.ltb_lt in Hn. pose proof (lay_pindex _ _ _ _ _ Hl) as Hpi. cbn [with_parts g_parts].
  split; [|split; [|apply ordered_firstn; exact Ho]].
  - destruct anc as [|p rest]; cbn [tied lim with_todo with_reset moved f_cols f_elems f_will f_resetting f_miny f_maxy] in *; rewrite Hn in *.
    + destruct Ht as (T1 & T2 & _). split; [exact T1|]. split; [|exact I]. intros _. cbn. apply Nat.ltb_lt. exact Hn.
    + destruct Ht as (T1 & T2 & T3 & T4 & T5). split; [exact T1|]. split; [intros _; cbn; apply Nat.ltb_lt; exact Hn|]. split; [exact T3|]. split; [|exact T5].
      destruct (lim p rest); [|exact I]. destruct T4 as [T4 _]. rewrite T4 in Hn. discriminate.
  - destruct anc as [|p rest]; cbn [lay with_todo with_reset moved f_pindex f_miny] in *; rewrite firstn_length_le by exact Hpi; (split; [lia|]); rewrite skipn_all2 by (rewrite firstn_length_le by exact Hpi; lia); (split; [constructor|]).
    + apply Hl.
    + destruct Hl as (_ & _ & Hl). destruct bs; [exact Hl|]. rewrite firstn_firstn, Nat.min_id. exact Hl.
Qed.
Lemma lies_tied f anc bs parts : lies f anc bs parts -> tied f anc.
Proof. intros (H & _). exact H. Qed.
Lemma tied_flags f anc : tied f anc -> flags f.
Proof. destruct anc; cbn [tied]; tauto. Qed.
Lemma resetting_lies f anc bs (g : glob) s f' g' : lies f anc bs (g_parts g) -> if_resetting f g = (s, f', g') -> lies f' anc bs (g_parts g').
Proof.
  intros Hl. unfold if_resetting. destruct (f_will f || f_resetting f) eqn:E0.
  - pose proof (tied_flags _ _ (lies_tied _ _ _ _ Hl) E0) as Hn. destruct (reset f g) as [[go f1] g1] eqn:Er. intros H. injection H as <- <- <-. exact (reset_lies f anc bs g go f1 g1 Hn Hl Er).
  - intros H. injection H as <- <- <-. exact Hl.
Qed.
Lemma shq_lies f f' anc anc' bs parts : shq f f' -> Forall2 shq anc anc' -> lies f anc bs parts -> lies f' anc' bs parts.
Proof.
  intros (H1 & H2 & H3) Ha (Ht & Hl & Ho). split; [exact (tied_shp _ _ _ _ H1 H3 Ha Ht)|]. split; [|exact Ho]. rewrite H2. exact (lay_shp _ _ _ _ _ _ _ H1 (shq_shp _ _ Ha) Hl).
Qed.
Lemma start_shq : forall anc f st, 1 < f_cols f -> tied f anc -> start_resetting (f :: anc) = st -> exists f' anc', st = f' :: anc' /\ shq f f' /\ Forall2 shq anc anc' /\ f_cols f' = f_cols f.
Proof.
  induction anc as [|p rest IH]; intros f st Hn Ht H; destruct (shq_refl _ _ Ht) as (S1 & S2).
  - cbn [start_resetting] in H. subst st. eexists _, []. split; [reflexivity|]. split; [|split; [constructor|reflexivity]]. split; [repeat split|]. split; [reflexivity|]. intros _. exact Hn.
  - change (start_resetting (f :: p :: rest)) with (if f_last f && (1 <? f_cols p) then f :: start_resetting (p :: rest) else with_reset f true (f_resetting f) (f_maxy f) (f_difflast f) (f_diff f) (f_forward f) :: p :: rest) in H.
    destruct (f_last f && (1 <? f_cols p)) eqn:E0.
    + apply Bool.andb_true_iff in E0. destruct E0 as [_ E0]. apply Nat.ltb_lt in E0. destruct (IH p _ E0 (tied_up _ _ _ Ht) eq_refl) as (p' & rest' & E1 & H1 & H2 & _). rewrite E1 in H. subst st.
      exists f, (p' :: rest'). split; [reflexivity|]. split; [exact S1|]. split; [constructor; assumption|reflexivity].
    + subst st. eexists _, (p :: rest). split; [reflexivity|]. split; [|split; [exact S2|reflexivity]]. split; [repeat split|]. split; [reflexivity|]. intros _. exact Hn.
Qed.
Lemma after_apart a f anc bs (g : glob) s f' anc' g' :
  chain f anc \/ a = Stop PartialNext -> Forall inside (g_parts g) -> ordered (g_parts g) ->
  match a with Stop PartialNext => exists b, plo (f :: anc) (b :: bs) (g_parts g) | _ => lies f anc bs (g_parts g) end ->
  after a f anc g = Done (s, (f', anc', g')) ->
  ordered (g_parts g') /\ exists bs', Forall2 Qle bs bs' /\ match s with Return PartialNext => plo anc' bs' (g_parts g') | _ => lies f' anc' bs' (g_parts g') end.
Proof.
  intros Hc Hi Ho Ha. destruct a as [[| |]| |]; cbn [after].
  - intros H. injection H as <- <- <- <-. split; [exact Ho|]. exists bs. split; [apply Qles_refl|exact Ha].
  - destruct (if_resetting f g) as [[s1 f1] g1] eqn:Er. intros H. injection H as <- <- <- <-. pose proof (resetting_lies f anc bs g s1 f1 g1 Ha Er) as Hl. split; [apply Hl|]. exists bs. split; [apply Qles_refl|].
    destruct s1 as [[| |]| |]; try exact Hl. exfalso. clear - Er. unfold if_resetting in Er. destruct (f_will f || f_resetting f); [destruct (reset f g) as [[[|] ?] ?]|]; discriminate.
  - destruct Ha as (b & Ha). cbn [plo] in Ha. destruct (f_partial f) eqn:E0; intros H; injection H as <- <- <- <-; (split; [exact Ho|]); exists bs; (split; [apply Qles_refl|]); destruct Ha as [(A1 & A2)|(A1 & A2)]; try congruence.
    split; [apply A2|]. split; [apply A2|exact Ho].
  - destruct Hc as [Hc|Hc]; [|discriminate]. destruct Ha as (Ht & Hl & _). destruct (next_section (length (g_parts g)) None (f :: anc)) as [r st] eqn:En.
    destruct (next_apart (g_parts g) Hi anc f None r st bs Hc Ht (lay_less _ _ None _ _ _ Hl I) En) as (f1 & anc1 & -> & HR).
    destruct r as [| | | |x y].
    + intros H. injection H as <- <- <- <-. split; [exact Ho|]. exists bs. split; [apply Qles_refl|]. destruct HR as [R1 R2]. apply (shq_lies f f1 anc anc1); [exact R1|exact R2|]. split; [exact Ht|]. split; assumption.
    + destruct (if_resetting f1 g) as [[s1 f2] g1] eqn:Er. intros H. injection H as <- <- <- <-. destruct HR as [R1 R2].
      assert (Hl1 : lies f1 anc1 bs (g_parts g)) by (apply (shq_lies f f1 anc anc1); [exact R1|exact R2|]; split; [exact Ht|]; split; assumption).
      pose proof (resetting_lies f1 anc1 bs g s1 f2 g1 Hl1 Er) as Hl2. split; [apply Hl2|]. exists bs. split; [apply Qles_refl|].
      destruct s1 as [[| |]| |]; try exact Hl2. exfalso. clear - Er. unfold if_resetting in Er. destruct (f_will f1 || f_resetting f1); [destruct (reset f1 g) as [[[|] ?] ?]|]; discriminate.
    + intros H. injection H as <- <- <- <-. split; [exact Ho|]. destruct HR as (bs' & Hle & [(HR & _)|(_ & HR)]); [congruence|]. exists bs'. split; [exact Hle|exact HR].
    + intros H. injection H as <- <- <- <-. split; [exact Ho|]. destruct HR as (bs' & Hle & R1 & R2 & _). exists bs'. split; [exact Hle|]. split; [exact R1|]. split; [exact R2|exact Ho].
    + intros H. injection H as <- <- <- <-. split; [exact Ho|]. destruct HR as (bs' & Hle & R1 & R2 & _). exists bs'. split; [exact Hle|]. split; [exact R1|]. split; [exact R2|exact Ho].
  - intros H. injection H as <- <- <- <-. split; [exact Ho|]. exists bs. split; [apply Qles_refl|exact Ha].
Qed.

(** *** The boxes *)
Notation fine2 := (@fine2 E O S P L n0 gap0 elems0 X Y W B St False).
Definition fine3 (rec : @runner E O S P L) : Prop :=
  forall f anc bs g act f' anc' g', chain f anc -> Forall inside (g_parts g) -> lies f anc bs (g_parts g) -> rec f anc g = Done (act, (f', anc', g')) ->
  ordered (g_parts g') /\ exists bs', Forall2 Qle bs bs' /\ match act with Some PartialNext => plo anc' bs' (g_parts g') | _ => lies f' anc' bs' (g_parts g') end.

Lemma flats_elems f anc : tied f anc -> flats (some (lim f anc)) (f_elems f).
Proof. destruct anc; cbn [tied]; tauto. Qed.
Lemma child_apart rec f anc bs g s n gap l lst r f' anc' g' :
  fine2 rec -> fine3 rec -> chain f anc -> Forall inside (g_parts g) -> lies f anc bs (g_parts g) -> In (Child s n gap l) (f_elems f) -> okel St False (Child s n gap l) ->
  process_child rec f anc g s n gap l lst = Done (r, (f', anc', g')) ->
  ordered (g_parts g') /\ exists bs', Forall2 Qle bs bs' /\ match r with inl PartialNext => exists b, plo (f' :: anc') (b :: bs') (g_parts g') | _ => lies f' anc' bs' (g_parts g') end.
Proof.
  intros Hrec Hrec3 Hc Hp Hli Hin Hel. cbn [okel] in Hel. destruct Hel as (Hs & Hn1 & Hl). change (okels St False l) in Hl. unfold process_child.
  pose proof (chain_own _ _ _ _ _ _ _ _ _ _ _ Hc) as Ho. destruct (space f s true) as [[[x y] w] h] eqn:Esp. destruct (space_ok Y B St False St_ok f s true Ho Hs x y w h Esp) as (_ & Hy & _).
  destruct (St_ok s Hs) as (_ & Hmb & _). pose proof (ow_y _ _ _ _ f Ho) as Hoy. pose proof (ow_top _ _ _ _ f Ho) as Hot. destruct Hli as (Ht & Hlay & Hord).
  destruct (shq_refl f anc Ht) as ((_ & _ & Hflags) & Hshq).
  set (f1 := with_y f y (f_starting f) (f_lastbottom f)).
  assert (Hc1 : chain f1 anc) by (apply (lower_chain _ _ _ _ _ _ _ _ _ f f1 anc Hc); eexists _, _, _; split; [reflexivity|]; split; [lra|apply (ow_lb _ _ _ _ f Ho)]).
  destruct (new_part l n gap lst (left_edge f) (f_colw f) y (f_maxy f) (length (g_parts g))) as [c0| |] eqn:Ec0; cbn [abind]; try discriminate.
  unfold new_part, setup in Ec0. cbn [f_cols f_gapspec f_sindex f_sdelayed f_memory f_partial f_elems f_last] in Ec0. destruct n as [|n]; [discriminate|]. injection Ec0 as Ec0.
  assert (Hc0 : forall i d m f2, Forall (okd St) d -> okm St m -> chain f2 anc -> f_partial f2 = None -> f_elems f2 = f_elems f -> f_colw f2 = f_colw f -> left_edge f2 = left_edge f -> f_miny f2 = f_miny f ->
     chain (with_todo (with_section c0 i d m) i d) (f2 :: anc)).
  { intros i d m f2 Hd Hm Hcf Hpf He Hw Hx Hmy. cbn [ContentGeom.chain]. split.
    - subst c0. constructor; cbn [with_todo with_section f_column f_cols f_lastbottom f_y f_miny f_elems f_delayed f_sdelayed f_memory f_partial f_maxy f_resetting f_will]; try assumption; try lra; try lia; auto.
    - split; [|split; [exact Hpf|exact Hcf]]. unfold link. subst c0. cbn [with_todo with_section f_elems f_cols f_gapspec f_minx f_gap f_colw f_miny]. rewrite He, Hw, Hx, Hmy.
      split; [exists s; exact Hin|]. split; [reflexivity|]. split; [destruct gap; reflexivity|]. split; [reflexivity|lra]. }
  assert (Hl0 : forall i d m f2, shp f f2 -> flags f2 -> f_y f2 = y -> lies (with_todo (with_section c0 i d m) i d) (f2 :: anc) (f_y f :: bs) (g_parts g)).
  { intros i d m f2 Hsh Hfl Hfy. pose proof (flats_in _ _ _ (flats_elems _ _ Ht) Hin) as (F1 & F2 & F3).
    pose proof (lim_shp anc anc f f2 Hsh (shp_refls anc)) as Elim.
    assert (Hcm : match lim f2 anc with Some b => Datatypes.S n = 1 /\ f_maxy f = b | None => True end).
    { rewrite Elim. destruct (lim f anc) as [b|] eqn:El; [|exact I]. split; [apply F1; reflexivity|symmetry; exact (lim_maxy _ _ _ Ht El)]. }
    split; [|split; [|exact Hord]].
    - cbn [tied]. split; [|split; [|split; [|split; [|apply (tied_shp anc anc f); assumption]]]].
      + subst c0. cbn [lim with_todo with_section f_cols f_elems f_maxy]. rewrite Elim. unfold flats.
        replace (some (if 1 <? Datatypes.S n then Some (f_maxy f) else lim f anc)) with (some (lim f anc) || (1 <? Datatypes.S n)); [exact F3|].
        destruct (1 <? Datatypes.S n); [apply Bool.orb_true_r|apply Bool.orb_false_r].
      + subst c0. intros H. discriminate.
      + rewrite Hfy. subst c0. cbn [with_todo with_section f_miny]. lra.
      + subst c0. cbn [with_todo with_section f_cols f_maxy]. exact Hcm.
    - subst c0. cbn [lay with_todo with_section f_pindex f_miny f_y]. split; [lia|]. rewrite skipn_all, firstn_all. split; [constructor|].
      split; [destruct Hsh as (_ & _ & _ & _ & _ & -> & _); lra|]. exact (lay_shp anc anc f f2 _ _ _ Hsh (shp_refls anc) Hlay). }
  assert (Hzz : c0 = with_todo (with_section c0 0 [] []) 0 []) by (subst c0; reflexivity). clear Ec0 Hord Hlay.
  set (mem := if match f_memory f with [] => false | _ => f_index f =? f_sindex f end then Some (f_memory f) else f_partial f).
  assert (Hmem : match mem with Some m => okm St m | None => f_partial f = None end).
  { unfold mem. destruct (match f_memory f with [] => false | _ => f_index f =? f_sindex f end); [apply (ow_mem _ _ _ _ f Ho)|]. pose proof (ow_par _ _ _ _ f Ho) as H1. destruct (f_partial f); auto. }
  assert (Hstep : forall c1 f2, chain c1 (f2 :: anc) -> lies c1 (f2 :: anc) (f_y f :: bs) (g_parts g) ->
    abind (rec c1 (f2 :: anc) g) (fun v => match v with (act, (c, anc1, g1)) =>
      match anc1 with
      | [] => Raise PyException
      | f3 :: anc2 =>
          let height := (f_miny c - (if 1 <? f_cols c then f_maxy c else f_y c))%Q in
          let f4 := match act with
                    | Some PartialNext => f3
                    | _ => if qlt 0 height then with_y f3 (f_y f3 - height)%Q false (s_mb s) else with_y f3 (f_y f) (f_starting f3) (f_lastbottom f3)
                    end in
          match act with
          | Some a => Done (inl a, (f4, anc2, g1))
          | None => Done (inr (mkRet None false false), (with_y f4 (f_y f4) false (f_lastbottom f4), anc2, g1))
          end
      end end) = Done (r, (f', anc', g')) ->
    ordered (g_parts g') /\ exists bs', Forall2 Qle bs bs' /\ match r with inl PartialNext => exists b, plo (f' :: anc') (b :: bs') (g_parts g') | _ => lies f' anc' bs' (g_parts g') end).
  { intros c1 f2 Hcc Hlc. destruct (rec c1 (f2 :: anc) g) as [[act [[c anc1] g1]]| |] eqn:Er; cbn [abind]; try discriminate.
    destruct (Hrec _ _ _ _ _ _ _ Hcc Hp Er) as (H1 & _ & H3). destruct (Hrec3 _ _ _ _ _ _ _ _ Hcc Hp Hlc Er) as (K1 & bs1 & K2 & K3).
    inversion K2 as [|q1 b1 q2 bs2 Hb1 Hb2]; subst. destruct anc1 as [|f3 anc2]; [discriminate|].
    set (height := (f_miny c - (if 1 <? f_cols c then f_maxy c else f_y c))%Q). cbv zeta.
    assert (Hfin : chain c (f3 :: anc2) -> lies c (f3 :: anc2) (b1 :: bs2) (g_parts g1) -> forall st lb, lies (with_y f3 (if qlt 0 height then (f_y f3 - height)%Q else f_y f) st lb) anc2 bs2 (g_parts g1)).
    { intros Hcc' (T1 & T2 & T3) st lb. pose proof T1 as T1'. cbn [tied] in T1'. destruct T1' as (_ & _ & Y1 & _ & T4). destruct (shq_refl _ _ T4) as ((_ & _ & T5) & T6). split; [|split; [|exact T3]].
      - apply (tied_shp anc2 anc2 f3); [repeat split|exact T5|exact T6|exact T4].
      - cbn [with_y f_y]. apply (lay_shp anc2 anc2 f3); [repeat split|apply shp_refls|].
        pose proof T2 as T2'. cbn [lay] in T2'. destruct T2' as (U1 & U2 & [U3 U4] & _). pose proof (ow_col _ _ _ _ _ (chain_own _ _ _ _ _ _ _ _ _ _ _ Hcc')) as Hcol.
        assert (Hnow : forall q, In q (skipn (f_pindex c) (g_parts g1)) -> (0 < p_height q)%Q -> (f_miny c - height <= p_bot q /\ p_top q <= f_miny c)%Q).
        { intros q Hq H0. destruct (proj1 (Forall_forall _ _) U2 q Hq) as [Hz|(k & A1 & A2 & A3 & A4 & A5 & A6)]; [lra|]. split; [|exact A4].
          unfold height. destruct (1 <? f_cols c) eqn:En; [cbn [lim] in A5; rewrite En in A5; lra|]. apply Nat.ltb_ge in En. specialize (A6 ltac:(lia)). lra. }
        apply (lay_done c f3 anc2 (Some (f_y c)) b1 bs2 _ _ Hcc' T1 H1 T2).
        + destruct (qlt 0 height) eqn:E0; [apply qlt_spec in E0; lra|exact Hb1].
        + intros q Hq H0. destruct (Hnow q Hq H0) as [N1 N2]. destruct (qlt 0 height) eqn:E0; [lra|]. apply qlt_false in E0. unfold p_bot in N1. lra. }
    destruct act as [[| |]|]; intros H; injection H as <- <- <- <-; (split; [exact K1|]); exists bs2; (split; [exact Hb2|]).
    - specialize (Hfin H3 K3). destruct (qlt 0 height); apply Hfin.
    - specialize (Hfin H3 K3). destruct (qlt 0 height); apply Hfin.
    - exists b1. exact K3.
    - specialize (Hfin H3 K3). destruct (qlt 0 height); exact (Hfin false _). }
  destruct mem as [m|].
  - destruct (rev m) as [|[i d] upm] eqn:Erv; cbn [abind]; [discriminate|]. destruct (Forall_rev_cons _ m (i, d) upm Hmem Erv) as [Hd Hm].
    apply Hstep; [|apply Hl0; [repeat split|exact Hflags|reflexivity]]. apply Hc0; auto.
    apply (chain_fixed _ _ _ _ _ _ _ _ _ f1 _ anc Hc1); [|repeat split]. destruct (chain_own _ _ _ _ _ _ _ _ _ _ _ Hc1) as [q1 q2 q3 q4 q5 q6 q7 q8 q9 q10]. constructor; try assumption. exact I.
  - cbn [abind]. apply Hstep; rewrite Hzz; [apply Hc0; auto; constructor|]. apply Hl0; [repeat split|exact Hflags|reflexivity].
Qed.

Lemma elements_apart rec : fine2 rec -> fine3 rec -> forall fuel f anc bs g a f' anc' g',
  chain f anc -> Forall inside (g_parts g) -> lies f anc bs (g_parts g) -> add_elements start crun save restore rec fuel f anc g = Done (a, (f', anc', g')) ->
  ordered (g_parts g') /\ exists bs', Forall2 Qle bs bs' /\ match a with Stop PartialNext => exists b, plo (f' :: anc') (b :: bs') (g_parts g') | _ => lies f' anc' bs' (g_parts g') end.
Proof.
  intros Hrec Hrec3. induction fuel as [|fuel IH]; intros f anc bs g a f' anc' g' Hc Hp Hl; [discriminate|]. cbn [add_elements].
  destruct (nth_error (f_elems f) (f_index f)) as [el|] eqn:En.
  2:{ intros H. injection H as <- <- <- <-. split; [apply Hl|]. exists bs. split; [apply Qles_refl|exact Hl]. }
  destruct (process start crun save restore rec f anc g el (Datatypes.S (f_index f) =? length (f_elems f))) as [[r [[f1 anc1] g1]]| |] eqn:Ep; cbn [abind]; try discriminate.
  pose proof (chain_own _ _ _ _ _ _ _ _ _ _ _ Hc) as Ho. pose proof (okels_nth _ _ _ _ _ (ow_els _ _ _ _ f Ho) En) as Hel.
  assert (Hpr : Forall inside (g_parts g1) /\ match r with inr q => match r_delayed q with Some d => okd St d | None => True end /\ chain f1 anc1 | _ => True end /\
     ordered (g_parts g1) /\ exists bs', Forall2 Qle bs bs' /\ match r with inl PartialNext => exists b, plo (f1 :: anc1) (b :: bs') (g_parts g1) | _ => lies f1 anc1 bs' (g_parts g1) end).
  { assert (Hfl : forall q d f0 (g0 : glob), inr (A := action) q = r -> f0 = f1 -> anc = anc1 -> g0 = g1 -> lower f f0 -> falls f f0 g g0 -> Forall inside (g_parts g0) -> match d with Some d => okd St d | None => True end -> r_delayed q = d ->
      Forall inside (g_parts g1) /\ match r with inr q => match r_delayed q with Some d => okd St d | None => True end /\ chain f1 anc1 | _ => True end /\
      ordered (g_parts g1) /\ exists bs', Forall2 Qle bs bs' /\ match r with inl PartialNext => exists b, plo (f1 :: anc1) (b :: bs') (g_parts g1) | _ => lies f1 anc1 bs' (g_parts g1) end).
    { intros q d f0 g0 <- <- <- <- Hlow Hfa Hi Hd <-. pose proof (falls_lies f f0 anc bs g g0 Hc Hl Hlow Hfa Hi) as Hl1. split; [exact Hi|]. split; [split; [exact Hd|exact (lower_chain _ _ _ _ _ _ _ _ _ _ _ _ Hc Hlow)]|].
      split; [apply Hl1|]. exists bs. split; [apply Qles_refl|exact Hl1]. }
    destruct el as [s e|s id iw ih|s id l|s n gap l]; cbn [process okel] in *.
    - destruct (process_leaf start crun save restore f g s (inl e) true true) as [[[q f0] g0]| |] eqn:El; cbn [abind] in Ep; try discriminate. injection Ep as E1 E2 E3 E4.
      destruct (leaf_geom start crun save restore fits n0 gap0 elems0 X Y W B St False St_ok f anc g s (inl e) true true q f0 g0 Hc Hel Hp El) as (H1 & H2 & H3).
      apply (Hfl q (r_delayed q) f0 g0 E1 E2 E3 E4 (moves_lower _ _ H1)); auto. apply (leaf_falls f g s (inl e) true true q f0 g0 Ho Hel El).
    - destruct Hel as [Hs Hi]. destruct (process_image f g s (s_min s) (s_shrink s) iw ih true true) as [[ok f0] g0] eqn:Ei.
      assert (Hm : match s_min s with Some m => (0 < m)%Q | None => True end) by apply (St_ok s Hs).
      destruct (image_geom n0 gap0 elems0 X Y W B St False St_ok wide f anc g s _ _ iw ih true true ok f0 g0 Hc Hs Hi Hm Hp Ei) as (H1 & H2 & _).
      destruct (image_falls f g s _ _ iw ih true true ok f0 g0 Ho Hs Hi Hm (chain_wide f anc s Hc Hs) Ei) as (H3 & _). destruct ok.
      + injection Ep as E1 E2 E3 E4. apply (Hfl _ None f0 g0 E1 E2 E3 E4 (moves_lower _ _ H1)); auto.
      + unfold image_ret in Ep. destruct (50 <=? g_tries g id); cbn [abind] in Ep; [discriminate|]. injection Ep as E1 E2 E3 E4. eapply (Hfl _ _ f0 (bump g0 id) E1 E2 E3 E4 (moves_lower _ _ H1)); auto. split; [exact Hs|exact Hi].
    - destruct Hel as [Hs Hg]. destruct (process_group start crun save restore f g s l (g_tries g id)) as [[[q f0] g0]| |] eqn:Eg; cbn [abind] in Ep; try discriminate. injection Ep as E1 E2 E3 E4.
      destruct (group_geom start crun save restore fits n0 gap0 elems0 X Y W B St False St_ok wide f anc g s l _ q f0 g0 Hc Hs Hg Hp Eg) as (H1 & H2 & H3).
      pose proof (group_falls f anc g s l _ q f0 g0 Hc Hs Hg Hp Eg) as H4.
      refine (Hfl q (r_delayed q) f0 _ E1 E2 E3 E4 H1 _ _ H3 eq_refl); destruct (r_delayed q); assumption.
    - destruct (child_geom n0 gap0 elems0 X Y W B St False St_ok rec f anc g s n gap l _ r f1 anc1 g1 Hrec Hc Hp (nth_error_In _ _ En) Hel Ep) as (H1 & H2 & H3 & H4).
      destruct (child_apart rec f anc bs g s n gap l _ r f1 anc1 g1 Hrec Hrec3 Hc Hp Hl (nth_error_In _ _ En) Hel Ep) as (K1 & K2). split; [exact H1|]. split; [|split; [exact K1|exact K2]].
      destruct r as [q|q]; [exact I|]. destruct H4 as [-> H4]. split; [exact I|exact H4]. }
  destruct Hpr as (P1 & P2 & P3 & bs1 & P4 & P5). destruct r as [q|q].
  - intros H. injection H as <- <- <- <-. split; [exact P3|]. exists bs1. split; [exact P4|exact P5].
  - destruct P2 as [P2 P6]. set (f2 := with_todo f1 (Datatypes.S (f_index f1)) (f_delayed f1 ++ match r_delayed q with Some d => [d] | None => [] end)).
    assert (Hc2 : chain f2 anc1).
    { apply todo_chain; [exact P6|]. apply Forall_app. split; [apply (ow_del _ _ _ _ f1 (chain_own _ _ _ _ _ _ _ _ _ _ _ P6))|]. destruct (r_delayed q); constructor; auto. }
    pose proof (lies_todo f1 anc1 bs1 (g_parts g1) (Datatypes.S (f_index f1)) (f_delayed f1 ++ match r_delayed q with Some d => [d] | None => [] end) P5) as Hl2. fold f2 in Hl2.
    destruct (r_next q).
    + intros H. injection H as <- <- <- <-. split; [exact P3|]. exists bs1. split; [exact P4|exact Hl2].
    + intros H. destruct (IH f2 anc1 bs1 g1 a f' anc' g' Hc2 P1 Hl2 H) as (Q1 & bs2 & Q2 & Q3). split; [exact Q1|]. exists bs2. split; [exact (Qles_trans _ _ _ P4 Q2)|exact Q3].
Qed.

Lemma loop_apart rec : fine2 rec -> fine3 rec -> forall fuel, fine3 (loop start crun save restore rec fuel).
Proof.
  intros Hrec Hrec3. induction fuel as [|fuel IH]; intros f anc bs g act f' anc' g' Hc Hp Hl; [discriminate|]. cbn [loop].
  destruct (add_delayed start crun save restore fuel 0 f g) as [[[a1 f1] g1]| |] eqn:E1; cbn [abind]; try discriminate.
  destruct (add_delayed_geom start crun save restore fits n0 gap0 elems0 X Y W B St False St_ok wide anc fuel 0 f g a1 f1 g1 Hc Hp E1) as (D1 & D2 & D3 & D4 & D5 & D6).
  pose proof (add_delayed_lies anc bs fuel 0 f g a1 f1 g1 Hc Hp Hl E1) as DL.
  destruct (after a1 f1 anc g1) as [[s1 [[f2 anc2] g2]]| |] eqn:E2; cbn [abind]; try discriminate.
  assert (Hpre1 : match a1 with Stop PartialNext => partial_ok (f1 :: anc) | _ => chain f1 anc end) by (destruct a1 as [[| |]| |]; try exact D1; destruct (D6 PartialNext eq_refl)).
  assert (Hpre2 : match a1 with Stop PartialNext => exists b, plo (f1 :: anc) (b :: bs) (g_parts g1) | _ => lies f1 anc bs (g_parts g1) end) by (destruct a1 as [[| |]| |]; try exact DL; destruct (D6 PartialNext eq_refl)).
  destruct (after_geom n0 gap0 elems0 X Y W B St False a1 f1 anc g1 s1 f2 anc2 g2 Hpre1 D2 E2) as (A1 & A2 & A3 & A4).
  destruct (after_apart a1 f1 anc bs g1 s1 f2 anc2 g2 (or_introl D1) D2 ltac:(apply DL) Hpre2 E2) as (AL1 & bs1 & AL2 & AL3).
  assert (Hgo : forall fx ax bx gx, Forall2 Qle bs bx -> chain fx ax -> Forall inside (g_parts gx) -> lies fx ax bx (g_parts gx) -> loop start crun save restore rec fuel fx ax gx = Done (act, (f', anc', g')) ->
    ordered (g_parts g') /\ exists bs', Forall2 Qle bs bs' /\ match act with Some PartialNext => plo anc' bs' (g_parts g') | _ => lies f' anc' bs' (g_parts g') end).
  { intros fx ax bx gx U1 U2 U3 U4 U5. destruct (IH fx ax bx gx act f' anc' g' U2 U3 U4 U5) as (V1 & bs' & V2 & V3). split; [exact V1|]. exists bs'. split; [exact (Qles_trans _ _ _ U1 V2)|exact V3]. }
  destruct s1 as [a| |].
  - intros H. injection H as <- <- <- <-. split; [exact AL1|]. exists bs1. split; [exact AL2|exact AL3].
  - apply (Hgo _ _ bs1); assumption.
  - destruct (add_elements start crun save restore rec fuel f2 anc2 g2) as [[a2 [[f3 anc3] g3]]| |] eqn:E3; cbn [abind]; try discriminate.
    destruct (elements_geom start crun save restore fits n0 gap0 elems0 X Y W B St False St_ok wide rec Hrec fuel f2 anc2 g2 a2 f3 anc3 g3 A4 A1 E3) as (B1 & B2 & B3 & B4).
    destruct (elements_apart rec Hrec Hrec3 fuel f2 anc2 bs1 g2 a2 f3 anc3 g3 A4 A1 AL3 E3) as (BL1 & bs2 & BL2 & BL3).
    destruct (after a2 f3 anc3 g3) as [[s2 [[f4 anc4] g4]]| |] eqn:E4; cbn [abind]; try discriminate.
    destruct (after_geom n0 gap0 elems0 X Y W B St False a2 f3 anc3 g3 s2 f4 anc4 g4 B4 B1 E4) as (C1 & C2 & C3 & C4).
    assert (Hor : chain f3 anc3 \/ a2 = Stop PartialNext) by (destruct a2 as [[| |]| |]; auto).
    destruct (after_apart a2 f3 anc3 bs2 g3 s2 f4 anc4 g4 Hor B1 BL1 BL3 E4) as (CL1 & bs3 & CL2 & CL3).
    pose proof (Qles_trans _ _ _ AL2 (Qles_trans _ _ _ BL2 CL2)) as HU.
    destruct s2 as [a| |].
    + intros H. injection H as <- <- <- <-. split; [exact CL1|]. exists bs3. split; [exact HU|exact CL3].
    + apply (Hgo _ _ bs3); assumption.
    + destruct (f_delayed f4); [|apply (Hgo _ _ bs3); assumption].
      destruct (negb (f_resetting f4) && (1 <? f_cols f4)) eqn:E5.
      * destruct (last_child f4 anc4); [intros H; injection H as <- <- <- <-; split; [exact CL1|]; exists bs3; split; [exact HU|exact CL3]|].
        apply Bool.andb_true_iff in E5. destruct E5 as [_ E5]. apply Nat.ltb_lt in E5.
        destruct (start_geom n0 gap0 elems0 X Y W B St False (fun x => x) anc4 f4 _ C4 eq_refl) as (f5 & anc5 & Es & S1 & S2 & S3 & _).
        destruct (start_shq anc4 f4 _ E5 (lies_tied _ _ _ _ CL3) eq_refl) as (f5' & anc5' & Es' & SL1 & SL2 & SL3). rewrite Es in Es'. injection Es' as <- <-. rewrite Es.
        pose proof (shq_lies _ _ _ _ _ _ SL1 SL2 CL3) as SL. destruct (f_will f5).
        -- destruct (reset f5 g4) as [[go f6] g6] eqn:Er. destruct (reset_geom n0 gap0 elems0 X Y W B St False f5 anc5 g4 go f6 g6 (fun x => x) S1 C1 Er) as (R1 & R2 & R3).
           apply (Hgo _ _ bs3); auto. apply (reset_lies f5 anc5 bs3 g4 go f6 g6); [rewrite SL3; exact E5|exact SL|exact Er].
        -- intros H. injection H as <- <- <- <-. split; [exact CL1|]. exists bs3. split; [exact HU|exact SL].
      * destruct (f_resetting f4) eqn:E6.
        -- assert (Hn : 1 < f_cols f4) by (apply (tied_flags f4 anc4 (lies_tied _ _ _ _ CL3)); rewrite E6; apply Bool.orb_true_r).
           set (f5 := with_reset f4 (f_will f4) true (f_maxy f4) (f_difflast f4) (f_diff f4) false).
           assert (S1 : chain f5 anc4).
           { apply (chain_fixed _ _ _ _ _ _ _ _ _ f4 _ anc4 C4); [|repeat split]. destruct (chain_own _ _ _ _ _ _ _ _ _ _ _ C4) as [q1 q2 q3 q4 q5 q6 q7 q8 q9 q10]. constructor; try assumption. intros []. }
           assert (SL : lies f5 anc4 bs3 (g_parts g4)).
           { destruct (shq_refl f4 anc4 (lies_tied _ _ _ _ CL3)) as (_ & Q2). apply (shq_lies f4 f5 anc4 anc4); [|exact Q2|exact CL3]. split; [repeat split|]. split; [reflexivity|]. intros _. exact Hn. }
           cbv zeta. destruct (reset f5 g4) as [[go f6] g6] eqn:Er. destruct (reset_geom n0 gap0 elems0 X Y W B St False f5 anc4 g4 go f6 g6 (fun x => x) S1 C1 Er) as (R1 & R2 & R3).
           pose proof (reset_lies f5 anc4 bs3 g4 go f6 g6 Hn SL Er) as RL. destruct go; [apply (Hgo _ _ bs3); assumption|].
           intros H. injection H as <- <- <- <-. split; [apply RL|]. exists bs3. split; [exact HU|exact RL].
        -- intros H. injection H as <- <- <- <-. split; [exact CL1|]. exists bs3. split; [exact HU|exact CL3].
Qed.
Lemma run_part_apart : forall fuel, fine3 (run_part start crun save restore fuel).
Proof.
  induction fuel as [|fuel IH]; [intros ? ? ? ? ? ? ? ? _ _ _ H; discriminate|]. cbn [run_part]. apply loop_apart; [|exact IH].
  apply (run_part_geom start crun save restore fits n0 gap0 elems0 X Y W B St False St_ok wide).
Qed.
End Apart.
