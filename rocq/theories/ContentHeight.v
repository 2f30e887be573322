(** The height that a content reports after a run. *)
From Coq Require Import QArith ZArith Lia Lqa List.
From Verif Require Import Py Table Content ContentFlow ContentGeom ContentApart.
Import ListNotations.
Open Scope list_scope.
Open Scope nat_scope.

Section Height.
Context {E O S P L : Type}.
Variable start : E -> res O.
Variable crun : O -> Q -> Q -> Q -> Q -> res (O * Q * bool * list P * list L).
Variable save : O -> S.
Variable restore : O -> S -> O.
Notation elem := (@elem E).
Notation delem := (@delem E S).
Notation gelem := (@gelem E).
Notation part := (@part E S).
Notation glob := (@glob O P L).
Notation placed := (@placed O P).
Notation runner := (@runner E O S P L).

(** *** The top of the outermost box does not move *)
Definition top_of (f : part) (anc : list part) : Q := f_miny (last anc f).
Lemma top_cons f p anc : top_of f (p :: anc) = top_of p anc.
Proof.
  unfold top_of. cbn [last]. destruct anc as [|q anc]; [reflexivity|].
  assert (H : forall (l : list part) a b d, last (a :: l) b = last (a :: l) d) by (induction l as [|x l IH]; intros a b d; [reflexivity|]; cbn [last] in *; destruct l; [reflexivity|apply (IH x)]).
  rewrite (H anc q f p). reflexivity.
Qed.
Lemma top_nil f : top_of f [] = f_miny f.
Proof. reflexivity. Qed.
Lemma top_same f f' anc : f_miny f' = f_miny f -> top_of f' anc = top_of f anc.
Proof. destruct anc; [intros H; exact H|]. intros _. rewrite !top_cons. reflexivity. Qed.

Lemma leaf_top f g s src add top r f' g' : process_leaf start crun save restore f g s src add top = Done (r, f', g') -> f_miny f' = f_miny f.
Proof.
  unfold process_leaf. destruct (space f s top) as [[[x y] w] h]. destruct (match src with inl e => _ | inr _ => _ end) as [[ref o]| |]; cbn [abind]; try discriminate.
  destruct (crun o x y w h) as [[[[[o' ht] fin] parts] lines]|]; cbn [lift abind]; try discriminate. intros H. injection H as <- <- <-. destruct (qlt 0 ht); reflexivity.
Qed.
Lemma image_top (f : part) (g : glob) s min shrink iw ih add top ok f' g' : process_image f g s min shrink iw ih add top = (ok, f', g') -> f_miny f' = f_miny f.
Proof.
  unfold process_image. destruct (space f s top) as [[[x y] w] h]. cbv zeta. destruct (qlt _ _); [intros H; injection H as <- <- <-; reflexivity|].
  destruct min as [m|]; [destruct (Qle_bool m h)|]; intros H; injection H as <- <- <-; reflexivity.
Qed.
Lemma gel_top f g el min add top ok f' g' : group_element start crun save restore f g el min add top = Done (ok, f', g') -> f_miny f' = f_miny f.
Proof.
  destruct el as [s e|s iw ih|]; cbn [group_element]; [| |discriminate].
  - destruct (process_leaf start crun save restore f g s (inl e) add top) as [[[r f1] g1]| |] eqn:El; cbn [abind]; try discriminate. intros H. injection H as <- <- <-. exact (leaf_top _ _ _ _ _ _ _ _ _ El).
  - intros H. injection H as H. exact (image_top _ _ _ _ _ _ _ _ _ _ _ _ H).
Qed.
Lemma try_top : forall l f g first ok f' g', group_try start crun save restore f g first l = Done (ok, f', g') -> f_miny f' = f_miny f.
Proof.
  induction l as [|el l IH]; intros f g first ok f' g'; cbn [group_try].
  - intros H. injection H as <- <- <-. reflexivity.
  - destruct (group_element start crun save restore f g el None false (negb first)) as [[[ok1 f1] g1]| |] eqn:Ee; cbn [abind]; try discriminate.
    pose proof (gel_top _ _ _ _ _ _ _ _ _ Ee) as H1. destruct ok1; intros H; [rewrite <- H1; exact (IH _ _ _ _ _ _ H)|injection H as <- <- <-; exact H1].
Qed.
Lemma add_top : forall l f g ratio first f' g', group_add start crun save restore f g ratio first l = Done (f', g') -> f_miny f' = f_miny f.
Proof.
  induction l as [|el l IH]; intros f g ratio first f' g'; cbn [group_add].
  - intros H. injection H as <- <-. reflexivity.
  - destruct (group_element start crun save restore f g el (if has_min el then Some (min_of el * ratio)%Q else None) true (negb first)) as [[[ok1 f1] g1]| |] eqn:Ee; cbn [abind]; try discriminate.
    intros H. rewrite <- (gel_top _ _ _ _ _ _ _ _ _ Ee). exact (IH _ _ _ _ _ _ H).
Qed.
Lemma group_top f g s l tries r f' g' : process_group start crun save restore f g s l tries = Done (r, f', g') -> f_miny f' = f_miny f.
Proof.
  unfold process_group. cbv zeta. set (f0 := with_y f _ _ _).
  destruct (group_try start crun save restore f0 g true l) as [[[ok f1] g1]| |] eqn:Et; cbn [abind]; try discriminate. pose proof (try_top _ _ _ _ _ _ _ Et) as H1. change (f_miny f0) with (f_miny f) in H1.
  destruct ok.
  - match goal with |- abind ?e _ = _ -> _ => destruct e as [ratio| |]; cbn [abind]; try discriminate end.
    match goal with |- abind ?e _ = _ -> _ => destruct e as [[f2 g2]| |] eqn:Ea; cbn [abind]; try discriminate end.
    intros H. injection H as <- <- <-. rewrite (add_top _ _ _ _ _ _ _ Ea). exact H1.
  - destruct (50 <=? tries); [discriminate|]. intros H. injection H as <- <- <-. exact H1.
Qed.
Lemma delayed_top f g d r f' g' : process_delayed start crun save restore f g d = Done (r, f', g') -> f_miny f' = f_miny f.
Proof.
  destruct d as [s ref sv|s iw ih tries|s l tries]; cbn [process_delayed].
  - apply leaf_top.
  - destruct (process_image f g s (s_min s) (s_shrink s) iw ih true true) as [[ok f1] g1] eqn:Ei. pose proof (image_top _ _ _ _ _ _ _ _ _ _ _ _ Ei) as H1.
    destruct ok; [intros H; injection H as <- <- <-; exact H1|]. destruct (image_ret s iw ih tries); cbn [abind]; try discriminate. intros H. injection H as <- <- <-. exact H1.
  - apply group_top.
Qed.
Lemma delayeds_top : forall fuel n f g a f' g', add_delayed start crun save restore fuel n f g = Done (a, f', g') -> f_miny f' = f_miny f.
Proof.
  induction fuel as [|fuel IH]; intros n f g a f' g'; [discriminate|]. cbn [add_delayed]. destruct (nth_error (f_delayed f) n) as [d|]; [|intros H; injection H as <- <- <-; reflexivity].
  destruct (process_delayed start crun save restore f g d) as [[[r f1] g1]| |] eqn:Ep; cbn [abind]; try discriminate. pose proof (delayed_top _ _ _ _ _ _ Ep) as H1.
  destruct (r_next r); intros H; [injection H as <- <- <-; exact H1|]. rewrite <- H1. exact (IH _ _ _ _ _ _ H).
Qed.

Definition keeps_top (rec : runner) : Prop := forall f anc g act f' anc' g', rec f anc g = Done (act, (f', anc', g')) -> top_of f' anc' = top_of f anc.
Lemma elements_top rec : keeps_top rec -> forall fuel f anc g a f' anc' g', add_elements start crun save restore rec fuel f anc g = Done (a, (f', anc', g')) -> top_of f' anc' = top_of f anc.
Proof.
  intros Hrec. induction fuel as [|fuel IH]; intros f anc g a f' anc' g'; [discriminate|]. cbn [add_elements].
  destruct (nth_error (f_elems f) (f_index f)) as [el|]; [|intros H; injection H as <- <- <- <-; reflexivity].
  destruct (process start crun save restore rec f anc g el (Datatypes.S (f_index f) =? length (f_elems f))) as [[r [[f1 anc1] g1]]| |] eqn:Ep; cbn [abind]; try discriminate.
  assert (H1 : top_of f1 anc1 = top_of f anc).
  { destruct el as [s e|s id iw ih|s id l|s n gap l]; cbn [process] in Ep.
    - destruct (process_leaf start crun save restore f g s (inl e) true true) as [[[q f0] g0]| |] eqn:El; cbn [abind] in Ep; try discriminate. injection Ep as <- <- <- <-. apply top_same. exact (leaf_top _ _ _ _ _ _ _ _ _ El).
    - destruct (process_image f g s (s_min s) (s_shrink s) iw ih true true) as [[ok f0] g0] eqn:Ei. pose proof (image_top _ _ _ _ _ _ _ _ _ _ _ _ Ei) as H1.
      destruct ok; [injection Ep as <- <- <- <-; apply top_same; exact H1|]. destruct (image_ret s iw ih (g_tries g id)); cbn [abind] in Ep; try discriminate. injection Ep as <- <- <- <-. apply top_same. exact H1.
    - destruct (process_group start crun save restore f g s l (g_tries g id)) as [[[q f0] g0]| |] eqn:Eg; cbn [abind] in Ep; try discriminate. injection Ep as <- <- <- <-. apply top_same. exact (group_top _ _ _ _ _ _ _ _ Eg).
    - unfold process_child in Ep. destruct (space f s true) as [[[x y] w] h]. cbv zeta in Ep. set (fy := with_y f y (f_starting f) (f_lastbottom f)) in *.
      destruct (new_part l n gap _ (left_edge f) (f_colw f) y (f_maxy f) (length (g_parts g))) as [c0| |]; cbn [abind] in Ep; try discriminate.
      match type of Ep with abind ?e _ = _ => destruct e as [[c1 f2]| |] eqn:Em; cbn [abind] in Ep; try discriminate end.
      assert (Hf2 : f_miny f2 = f_miny f).
      { destruct (if match f_memory f with [] => false | _ => f_index f =? f_sindex f end then Some (f_memory f) else f_partial f) as [m|]; [destruct (rev m) as [|[i d] up]; [discriminate|]|]; injection Em as <- <-; reflexivity. }
      destruct (rec c1 (f2 :: anc) g) as [[act [[c ancc] gc]]| |] eqn:Er; cbn [abind] in Ep; try discriminate. pose proof (Hrec _ _ _ _ _ _ _ Er) as Ht. rewrite top_cons in Ht.
      destruct ancc as [|f3 anc2]; [discriminate|]. rewrite top_cons in Ht.
      assert (Hfin : top_of f3 anc2 = top_of f anc) by (rewrite Ht; apply top_same; exact Hf2).
      destruct act as [[| |]|]; injection Ep as <- <- <- <-; rewrite <- Hfin; apply top_same; try reflexivity; destruct (qlt 0 _); reflexivity. }
  destruct r as [q|q]; [intros H; injection H as <- <- <- <-; exact H1|].
  destruct (r_next q); intros H; [injection H as <- <- <- <-; rewrite <- H1; apply top_same; reflexivity|].
  rewrite (IH _ _ _ _ _ _ _ H), <- H1. apply top_same. reflexivity.
Qed.
Lemma next_top n : forall (anc : list part) f cm r f' anc', next_section n cm (f :: anc) = (r, f' :: anc') -> top_of f' anc' = top_of f anc.
Proof.
  induction anc as [|p rest IH]; intros f cm r f' anc'; rewrite next_section_cons; cbv zeta.
  - destruct (Datatypes.S (f_column f) =? f_cols f); [destruct (f_resetting f)|].
    + intros H. injection H as <- <- <-. reflexivity.
    + intros H. injection H as <- <- <-. reflexivity.
    + destruct cm as [c|]; [destruct (f_delayed f)|]; intros H; injection H as <- <- <-; reflexivity.
  - destruct (Datatypes.S (f_column f) =? f_cols f); [destruct (f_resetting f)|].
    + intros H. injection H as <- <- <-. rewrite !top_cons. reflexivity.
    + destruct (next_section n (Some (below cm ++ [(f_index f, f_delayed f)])) (p :: rest)) as [r0 st0] eqn:En.
      destruct st0 as [|p' rest'].
      { exfalso. rewrite next_section_cons in En. cbv zeta in En. destruct (Datatypes.S (f_column p) =? f_cols p); [destruct (f_resetting p); [discriminate|]|destruct (f_delayed p); discriminate].
        destruct rest; [discriminate|]. destruct (next_section n _ (_ :: rest)) as [[| | | |x y] st]; discriminate. }
      pose proof (IH p _ _ _ _ En) as H1. destruct r0; intros H; injection H as <- <- <-; rewrite !top_cons; exact H1.
    + destruct cm as [c|]; [destruct (f_delayed f)|]; intros H; injection H as <- <- <-; rewrite !top_cons; reflexivity.
Qed.
Lemma reset_top (f : part) (g : glob) go f' g' : reset f g = (go, f', g') -> f_miny f' = f_miny f.
Proof.
  unfold reset. cbv zeta. match goal with |- (if ?c && _ then _ else _) = _ -> _ => set (stop := c) end.
  destruct (stop && negb (f_forward f)); [intros H; injection H as <- <- <-; reflexivity|].
  match goal with |- match ?e with _ => _ end = _ -> _ => destruct e as [[maxy dl] d] end. intros H. injection H as <- <- <-. reflexivity.
Qed.
Lemma resetting_top (f : part) (g : glob) s f' g' : if_resetting f g = (s, f', g') -> f_miny f' = f_miny f.
Proof.
  unfold if_resetting. destruct (f_will f || f_resetting f); [|intros H; injection H as <- <- <-; reflexivity].
  destruct (reset f g) as [[go f1] g1] eqn:Er. intros H. injection H as <- <- <-. exact (reset_top _ _ _ _ _ Er).
Qed.
Lemma after_top a (f : part) anc (g : glob) s f' anc' g' : after a f anc g = Done (s, (f', anc', g')) -> top_of f' anc' = top_of f anc.
Proof.
  destruct a as [[| |]| |]; cbn [after]; try (intros H; injection H as <- <- <- <-; reflexivity).
  - destruct (if_resetting f g) as [[s1 f1] g1] eqn:Er. intros H. injection H as <- <- <- <-. apply top_same. exact (resetting_top _ _ _ _ _ Er).
  - destruct (next_section (length (g_parts g)) None (f :: anc)) as [r [|f1 anc1]] eqn:En; [discriminate|]. pose proof (next_top _ _ _ _ _ _ _ En) as H1.
    destruct r; try (intros H; injection H as <- <- <- <-; exact H1).
    destruct (if_resetting f1 g) as [[s1 f2] g1] eqn:Er. intros H. injection H as <- <- <- <-. rewrite <- H1. apply top_same. exact (resetting_top _ _ _ _ _ Er).
Qed.
Lemma start_top : forall (anc : list part) f f' anc', start_resetting (f :: anc) = f' :: anc' -> top_of f' anc' = top_of f anc.
Proof.
  induction anc as [|p rest IH]; intros f f' anc' H.
  - cbn [start_resetting] in H. injection H as <- <-. reflexivity.
  - change (start_resetting (f :: p :: rest)) with (if f_last f && (1 <? f_cols p) then f :: start_resetting (p :: rest) else with_reset f true (f_resetting f) (f_maxy f) (f_difflast f) (f_diff f) (f_forward f) :: p :: rest) in H.
    destruct (f_last f && (1 <? f_cols p)); [|injection H as <- <-; rewrite !top_cons; reflexivity].
    destruct (start_resetting (p :: rest)) as [|p' rest'] eqn:Es.
    + exfalso. destruct rest as [|q rest]; cbn [start_resetting] in Es; [discriminate|]. destruct (f_last p && (1 <? f_cols q)); discriminate.
    + injection H as <- <-. rewrite !top_cons. exact (IH p _ _ Es).
Qed.
Lemma loop_top rec : keeps_top rec -> forall fuel, keeps_top (loop start crun save restore rec fuel).
Proof.
  intros Hrec. induction fuel as [|fuel IH]; intros f anc g act f' anc' g'; [discriminate|]. cbn [loop].
  destruct (add_delayed start crun save restore fuel 0 f g) as [[[a1 f1] g1]| |] eqn:E1; cbn [abind]; try discriminate.
  pose proof (top_same _ _ anc (delayeds_top _ _ _ _ _ _ _ E1)) as H1.
  destruct (after a1 f1 anc g1) as [[s1 [[f2 anc2] g2]]| |] eqn:E2; cbn [abind]; try discriminate. pose proof (after_top _ _ _ _ _ _ _ _ E2) as H2.
  destruct s1 as [a| |].
  - intros H. injection H as <- <- <- <-. congruence.
  - intros H. rewrite (IH _ _ _ _ _ _ _ H). congruence.
  - destruct (add_elements start crun save restore rec fuel f2 anc2 g2) as [[a2 [[f3 anc3] g3]]| |] eqn:E3; cbn [abind]; try discriminate. pose proof (elements_top rec Hrec _ _ _ _ _ _ _ _ E3) as H3.
    destruct (after a2 f3 anc3 g3) as [[s2 [[f4 anc4] g4]]| |] eqn:E4; cbn [abind]; try discriminate. pose proof (after_top _ _ _ _ _ _ _ _ E4) as H4.
    destruct s2 as [a| |].
    + intros H. injection H as <- <- <- <-. congruence.
    + intros H. rewrite (IH _ _ _ _ _ _ _ H). congruence.
    + destruct (f_delayed f4); [|intros H; rewrite (IH _ _ _ _ _ _ _ H); congruence].
      destruct (negb (f_resetting f4) && (1 <? f_cols f4)).
      * destruct (last_child f4 anc4); [intros H; injection H as <- <- <- <-; congruence|].
        destruct (start_resetting (f4 :: anc4)) as [|f5 anc5] eqn:Es; [discriminate|]. pose proof (start_top _ _ _ _ Es) as H5. destruct (f_will f5).
        -- destruct (reset f5 g4) as [[go f6] g6] eqn:Er. intros H. rewrite (IH _ _ _ _ _ _ _ H), (top_same _ _ anc5 (reset_top _ _ _ _ _ Er)). congruence.
        -- intros H. injection H as <- <- <- <-. congruence.
      * destruct (f_resetting f4); [|intros H; injection H as <- <- <- <-; congruence]. cbv zeta.
        match goal with |- context [reset ?f5 g4] => destruct (reset f5 g4) as [[go f6] g6] eqn:Er end. assert (H6 : top_of f6 anc4 = top_of f4 anc4) by (apply top_same; exact (reset_top _ _ _ _ _ Er)).
        destruct go; [intros H; rewrite (IH _ _ _ _ _ _ _ H); congruence|intros H; injection H as <- <- <- <-; congruence].
Qed.
Lemma run_part_top : forall fuel, keeps_top (run_part start crun save restore fuel).
Proof. induction fuel as [|fuel IH]; [intros ? ? ? ? ? ? ? H; discriminate|]. cbn [run_part]. apply loop_top. exact IH. Qed.

(** *** One column: the cursor is at the bottom of something that was shown *)
Inductive ones : list elem -> Prop :=
| ones_all l : (forall s n gap l', In (Child s n gap l') l -> n = 1) -> (forall s n gap l', In (Child s n gap l') l -> ones l') -> ones l.
Definition quiet1 (p : part) : Prop := f_cols p = 1 /\ f_column p = 0 /\ f_resetting p = false /\ f_will p = false.
Definition hold (f f' : part) : Prop := f_miny f' = f_miny f /\ f_elems f' = f_elems f /\ (quiet1 f -> quiet1 f').
Definition hold_y (f f' : part) : Prop := hold f f' /\ f_y f' = f_y f.
Definition reach (f f' : part) (g g' : glob) : Prop :=
  exists new, g_parts g' = g_parts g ++ new /\ ((f_y f' == f_y f)%Q \/ exists p, In p new /\ (p_bot p == f_y f')%Q).
Definition ystep (f f' : part) : Prop := exists y st lb, f' = with_y f y st lb.
Lemma hold_refl f : hold f f.
Proof. repeat split; auto; apply H. Qed.
Lemma hold_trans f f1 f2 : hold f f1 -> hold f1 f2 -> hold f f2.
Proof. intros (A1 & A2 & A3) (B1 & B2 & B3). split; [congruence|]. split; [congruence|auto]. Qed.
Lemma ystep_hold f f' : ystep f f' -> hold f f'.
Proof. intros (y & st & lb & ->). split; [reflexivity|]. split; [reflexivity|]. intros H. exact H. Qed.
Lemma ystep_trans f f1 f2 : ystep f f1 -> ystep f1 f2 -> ystep f f2.
Proof. intros (y & st & lb & ->) (y' & st' & lb' & ->). exists y', st', lb'. reflexivity. Qed.
Lemma ystep_y f y st lb : ystep f (with_y f y st lb).
Proof. exists y, st, lb. reflexivity. Qed.
Lemma ystep_refl f : ystep f f.
Proof. exists (f_y f), (f_starting f), (f_lastbottom f). destruct f; reflexivity. Qed.
Lemma reach_same f f' (g g' : glob) : g_parts g' = g_parts g -> f_y f' = f_y f -> reach f f' g g'.
Proof. intros H Hy. exists []. split; [rewrite H; symmetry; apply app_nil_r|]. left. rewrite Hy. reflexivity. Qed.
Lemma reach_trans f f1 f2 (g g1 g2 : glob) : reach f f1 g g1 -> reach f1 f2 g1 g2 -> reach f f2 g g2.
Proof.
  intros (n1 & H1 & H2) (n2 & K1 & K2). exists (n1 ++ n2). split; [rewrite K1, H1, app_assoc; reflexivity|].
  destruct K2 as [K2|(p & P1 & P2)]; [|right; exists p; split; [apply in_or_app; right; exact P1|exact P2]].
  destruct H2 as [H2|(p & P1 & P2)]; [left; rewrite K2; exact H2|right]. exists p. split; [apply in_or_app; left; exact P1|]. rewrite K2. exact P2.
Qed.

Lemma leaf_reach f g s src add top r f' g' : process_leaf start crun save restore f g s src add top = Done (r, f', g') ->
  ystep f f' /\ (add = true -> reach f f' g g') /\ (add = false -> g_parts g' = g_parts g).
Proof.
  unfold process_leaf. destruct (space f s top) as [[[x y] w] h]. destruct (match src with inl e => _ | inr _ => _ end) as [[ref o]| |]; cbn [abind]; try discriminate.
  destruct (crun o x y w h) as [[[[[o' ht] fin] parts] lines]|]; cbn [lift abind]; try discriminate. intros H. injection H as <- <- <-.
  split; [destruct (qlt 0 ht); apply ystep_y|]. split; [intros ->|intros ->; reflexivity].
  exists [PlLeaf s x y w h o o' ht fin parts]. split; [reflexivity|]. destruct (qlt 0 ht); cbn [with_y f_y]; [right|left; reflexivity].
  eexists. split; [left; reflexivity|]. unfold p_bot. cbn [p_top p_height]. reflexivity.
Qed.
Lemma image_reach (f : part) (g : glob) s min shrink iw ih add top ok f' g' : process_image f g s min shrink iw ih add top = (ok, f', g') ->
  ystep f f' /\ (add = true -> reach f f' g g') /\ (add = false -> g_parts g' = g_parts g).
Proof.
  unfold process_image. destruct (space f s top) as [[[x y] w] h]. cbv zeta.
  assert (Hno : (false, with_y f (f_y f) (f_starting f) (f_lastbottom f), g) = (ok, f', g') -> ystep f f' /\ (add = true -> reach f f' g g') /\ (add = false -> g_parts g' = g_parts g)).
  { intros H. injection H as <- <- <-. split; [apply ystep_y|]. split; [intros _; apply reach_same; reflexivity|reflexivity]. }
  assert (Hgo : forall x w ht, (true, with_y f (y - ht)%Q false (s_mb s), if add then with_parts g (g_parts g ++ [PlImage s x (y - ht) w ht iw ih]) else g) = (ok, f', g') ->
    ystep f f' /\ (add = true -> reach f f' g g') /\ (add = false -> g_parts g' = g_parts g)).
  { intros x0 w0 ht H. injection H as <- <- <-. split; [apply ystep_y|]. split; [intros ->|intros ->; reflexivity]. eexists [_]. split; [reflexivity|]. right. eexists. split; [left; reflexivity|].
    unfold p_bot. cbn [p_top p_height with_y f_y]. lra. }
  destruct (qlt _ _); [apply Hgo|]. destruct min as [m|]; [|exact Hno]. destruct (Qle_bool m h); [apply Hgo|exact Hno].
Qed.
Lemma gel_reach f g el min add top ok f' g' : group_element start crun save restore f g el min add top = Done (ok, f', g') ->
  ystep f f' /\ (add = true -> reach f f' g g') /\ (add = false -> g_parts g' = g_parts g).
Proof.
  destruct el as [s e|s iw ih|]; cbn [group_element]; [| |discriminate].
  - destruct (process_leaf start crun save restore f g s (inl e) add top) as [[[r f1] g1]| |] eqn:El; cbn [abind]; try discriminate. intros H. injection H as <- <- <-. exact (leaf_reach _ _ _ _ _ _ _ _ _ El).
  - intros H. injection H as H. exact (image_reach _ _ _ _ _ _ _ _ _ _ _ _ H).
Qed.
Lemma try_reach : forall l f g first ok f' g', group_try start crun save restore f g first l = Done (ok, f', g') -> ystep f f' /\ g_parts g' = g_parts g.
Proof.
  induction l as [|el l IH]; intros f g first ok f' g'; cbn [group_try].
  - intros H. injection H as <- <- <-. split; [apply ystep_refl|reflexivity].
  - destruct (group_element start crun save restore f g el None false (negb first)) as [[[ok1 f1] g1]| |] eqn:Ee; cbn [abind]; try discriminate.
    destruct (gel_reach _ _ _ _ _ _ _ _ _ Ee) as (H1 & _ & H2). specialize (H2 eq_refl). destruct ok1; intros H; [|injection H as <- <- <-; auto].
    destruct (IH _ _ _ _ _ _ H) as [K1 K2]. split; [exact (ystep_trans _ _ _ H1 K1)|congruence].
Qed.
Lemma add_reach : forall l f g ratio first f' g', group_add start crun save restore f g ratio first l = Done (f', g') -> ystep f f' /\ reach f f' g g'.
Proof.
  induction l as [|el l IH]; intros f g ratio first f' g'; cbn [group_add].
  - intros H. injection H as <- <-. split; [apply ystep_refl|apply reach_same; reflexivity].
  - destruct (group_element start crun save restore f g el (if has_min el then Some (min_of el * ratio)%Q else None) true (negb first)) as [[[ok1 f1] g1]| |] eqn:Ee; cbn [abind]; try discriminate.
    destruct (gel_reach _ _ _ _ _ _ _ _ _ Ee) as (H1 & H2 & _). intros H. destruct (IH _ _ _ _ _ _ H) as [K1 K2]. split; [exact (ystep_trans _ _ _ H1 K1)|exact (reach_trans _ _ _ _ _ _ (H2 eq_refl) K2)].
Qed.
Lemma group_reach f g s l tries r f' g' : process_group start crun save restore f g s l tries = Done (r, f', g') -> ystep f f' /\ reach f f' g g'.
Proof.
  unfold process_group. cbv zeta. set (f0 := with_y f _ _ _).
  destruct (group_try start crun save restore f0 g true l) as [[[ok f1] g1]| |] eqn:Et; cbn [abind]; try discriminate. destruct (try_reach _ _ _ _ _ _ _ Et) as [(y & st & lb & H1) H2]. subst f1.
  destruct ok.
  - match goal with |- abind ?e _ = _ -> _ => destruct e as [ratio| |]; cbn [abind]; try discriminate end.
    match goal with |- abind ?e _ = _ -> _ => destruct e as [[f2 g2]| |] eqn:Ea; cbn [abind]; try discriminate end.
    intros H. injection H as <- <- <-. destruct (add_reach _ _ _ _ _ _ _ Ea) as [(y' & st' & lb' & K1) (new & K2 & K3)]. subst f2. split; [exists y', st', lb'; reflexivity|].
    exists new. split; [rewrite K2, H2; reflexivity|exact K3].
  - destruct (50 <=? tries); [discriminate|]. intros H. injection H as <- <- <-. split; [eexists _, _, _; reflexivity|]. apply reach_same; [exact H2|reflexivity].
Qed.
Lemma delayed_reach f g d r f' g' : process_delayed start crun save restore f g d = Done (r, f', g') -> ystep f f' /\ reach f f' g g'.
Proof.
  destruct d as [s ref sv|s iw ih tries|s l tries]; cbn [process_delayed].
  - intros H. destruct (leaf_reach _ _ _ _ _ _ _ _ _ H) as (H1 & H2 & _). auto.
  - destruct (process_image f g s (s_min s) (s_shrink s) iw ih true true) as [[ok f1] g1] eqn:Ei. destruct (image_reach _ _ _ _ _ _ _ _ _ _ _ _ Ei) as (H1 & H2 & _). specialize (H2 eq_refl).
    destruct ok; [intros H; injection H as <- <- <-; auto|]. destruct (image_ret s iw ih tries); cbn [abind]; try discriminate. intros H. injection H as <- <- <-. auto.
  - apply group_reach.
Qed.
Lemma todo_hold f i d : hold f (with_todo f i d).
Proof. split; [reflexivity|]. split; [reflexivity|]. intros H. exact H. Qed.
Lemma delayeds_reach : forall fuel n f g a f' g', add_delayed start crun save restore fuel n f g = Done (a, f', g') -> hold f f' /\ reach f f' g g' /\ (a = Goon \/ a = Next).
Proof.
  induction fuel as [|fuel IH]; intros n f g a f' g'; [discriminate|]. cbn [add_delayed].
  destruct (nth_error (f_delayed f) n) as [d|].
  2:{ intros H. injection H as <- <- <-. split; [apply hold_refl|]. split; [apply reach_same; reflexivity|]. destruct (f_delayed f); [auto|]. destruct (_ <=? _); auto. }
  destruct (process_delayed start crun save restore f g d) as [[[r f1] g1]| |] eqn:Ep; cbn [abind]; try discriminate. destruct (delayed_reach _ _ _ _ _ _ Ep) as (H1 & H2). apply ystep_hold in H1.
  destruct (r_next r); intros H.
  - injection H as <- <- <-. split; [exact (hold_trans _ _ _ H1 (todo_hold _ _ _))|]. split; [exact H2|auto].
  - destruct (IH _ _ _ _ _ _ H) as (K1 & K2 & K3). split; [exact (hold_trans _ _ _ (hold_trans _ _ _ H1 (todo_hold _ _ _)) K1)|]. split; [|exact K3]. exact (reach_trans _ _ _ _ _ _ H2 K2).
Qed.

Definition fine_one (rec : runner) : Prop := forall f anc g act f' anc' g', ones (f_elems f) -> quiet1 f -> Forall quiet1 anc -> rec f anc g = Done (act, (f', anc', g')) ->
  (act = None \/ act = Some Interrupt) /\ hold f f' /\ reach f f' g g' /\ Forall2 hold_y anc anc'.
Lemma holds_refl (l : list part) : Forall2 hold_y l l.
Proof. induction l; constructor; auto. split; [apply hold_refl|reflexivity]. Qed.
Lemma holds_trans (l l1 l2 : list part) : Forall2 hold_y l l1 -> Forall2 hold_y l1 l2 -> Forall2 hold_y l l2.
Proof.
  intros H. revert l2. induction H as [|a b l l1 [H1 H1'] H IH]; intros l2 K; inversion K as [|c d e k [K1 K1'] K2]; subst; constructor; auto. split; [exact (hold_trans _ _ _ H1 K1)|congruence].
Qed.
Lemma holds_quiet (l l1 : list part) : Forall2 hold_y l l1 -> Forall quiet1 l -> Forall quiet1 l1.
Proof. intros H. induction H as [|a b l l1 [(_ & _ & H1) _] H IH]; intros K; inversion K; subst; constructor; auto. Qed.
Lemma next_one n : forall anc f cm r st, quiet1 f -> Forall quiet1 anc -> next_section n cm (f :: anc) = (r, st) ->
  r = SInterrupt /\ exists f' anc', st = f' :: anc' /\ hold_y f f' /\ Forall2 hold_y anc anc'.
Proof.
  induction anc as [|p rest IH]; intros f cm r st Hf Ha; rewrite next_section_cons; cbv zeta; destruct Hf as (F1 & F2 & F3 & F4) eqn:Ef; rewrite F1, F2, F3; cbn [Nat.eqb].
  - intros H. injection H as <- <-. split; [reflexivity|]. eexists _, []. split; [reflexivity|]. split; [|constructor]. split; [|reflexivity]. split; [reflexivity|]. split; [reflexivity|]. intros K. exact K.
  - inversion Ha as [|a b Hp Hr]; subst. destruct (next_section n (Some (below cm ++ [(f_index f, f_delayed f)])) (p :: rest)) as [r0 st0] eqn:En.
    destruct (IH p _ _ _ Hp Hr En) as (-> & p' & rest' & -> & K1 & K2). intros H. injection H as <- <-. split; [reflexivity|]. eexists _, _. split; [reflexivity|].
    split; [|constructor; assumption]. split; [|reflexivity]. split; [reflexivity|]. split; [reflexivity|]. intros K. exact K.
Qed.
Lemma elements_one rec : fine_one rec -> forall fuel f anc g a f' anc' g', ones (f_elems f) -> quiet1 f -> Forall quiet1 anc ->
  add_elements start crun save restore rec fuel f anc g = Done (a, (f', anc', g')) ->
  (a = Goon \/ a = Next \/ a = Stop Interrupt) /\ hold f f' /\ reach f f' g g' /\ Forall2 hold_y anc anc'.
Proof.
  intros Hrec. induction fuel as [|fuel IH]; intros f anc g a f' anc' g' He Hf Ha; [discriminate|]. cbn [add_elements].
  destruct (nth_error (f_elems f) (f_index f)) as [el|] eqn:En; [|intros H; injection H as <- <- <- <-; split; [auto|]; split; [apply hold_refl|]; split; [apply reach_same; reflexivity|apply holds_refl]].
  destruct (process start crun save restore rec f anc g el (Datatypes.S (f_index f) =? length (f_elems f))) as [[r [[f1 anc1] g1]]| |] eqn:Ep; cbn [abind]; try discriminate.
  assert (H1 : hold f f1 /\ reach f f1 g g1 /\ Forall2 hold_y anc anc1 /\ match r with inl q => q = Interrupt | inr _ => True end).
  { destruct el as [s e|s id iw ih|s id l|s n gap l]; cbn [process] in Ep.
    - destruct (process_leaf start crun save restore f g s (inl e) true true) as [[[q f0] g0]| |] eqn:El; cbn [abind] in Ep; try discriminate. injection Ep as <- <- <- <-.
      destruct (leaf_reach _ _ _ _ _ _ _ _ _ El) as (K1 & K2 & _). split; [apply ystep_hold; exact K1|]. split; [auto|]. split; [apply holds_refl|exact I].
    - destruct (process_image f g s (s_min s) (s_shrink s) iw ih true true) as [[ok f0] g0] eqn:Ei. destruct (image_reach _ _ _ _ _ _ _ _ _ _ _ _ Ei) as (K1 & K2 & _). specialize (K2 eq_refl). apply ystep_hold in K1.
      destruct ok; [injection Ep as <- <- <- <-; split; [exact K1|]; split; [exact K2|]; split; [apply holds_refl|exact I]|]. destruct (image_ret s iw ih (g_tries g id)); cbn [abind] in Ep; try discriminate. injection Ep as <- <- <- <-.
      split; [exact K1|]. split; [exact K2|]. split; [apply holds_refl|exact I].
    - destruct (process_group start crun save restore f g s l (g_tries g id)) as [[[q f0] g0]| |] eqn:Eg; cbn [abind] in Ep; try discriminate. injection Ep as <- <- <- <-.
      destruct (group_reach _ _ _ _ _ _ _ _ Eg) as (K1 & K2). split; [apply ystep_hold; exact K1|]. split; [destruct (r_delayed q); exact K2|]. split; [apply holds_refl|exact I].
    - inversion He as [ll Hone Hin]; subst ll. pose proof (nth_error_In _ _ En) as Hi. pose proof (Hone _ _ _ _ Hi) as Hn. pose proof (Hin _ _ _ _ Hi) as Hl. subst n.
      unfold process_child in Ep. destruct (space f s true) as [[[x y] w] h]. cbv zeta in Ep. set (fy := with_y f y (f_starting f) (f_lastbottom f)) in *.
      destruct (new_part l 1 gap _ (left_edge f) (f_colw f) y (f_maxy f) (length (g_parts g))) as [c0| |] eqn:E0; cbn [abind] in Ep; try discriminate.
      match type of Ep with abind ?e _ = _ => destruct e as [[c1 f2]| |] eqn:Em; cbn [abind] in Ep; try discriminate end.
      assert (Hc0 : f_elems c0 = l /\ quiet1 c0 /\ f_y c0 = y /\ f_miny c0 = y) by (cbv [new_part setup f_cols] in E0; injection E0 as <-; repeat split).
      assert (Hc1 : f_elems c1 = l /\ quiet1 c1 /\ f_y c1 = y /\ f_miny c1 = y /\ f_y f2 = y /\ f_miny f2 = f_miny f /\ f_elems f2 = f_elems f /\ quiet1 f2).
      { destruct (if match f_memory f with [] => false | _ => f_index f =? f_sindex f end then Some (f_memory f) else f_partial f) as [m|]; [destruct (rev m) as [|[i d] up]; [discriminate|]|]; injection Em as <- <-;
          (split; [apply Hc0|]); (split; [apply Hc0|]); (split; [apply Hc0|]); (split; [apply Hc0|]); repeat split; apply Hf. }
      destruct Hc1 as (C1 & C2 & C3 & C4 & C5 & C6 & C7 & C8).
      destruct (rec c1 (f2 :: anc) g) as [[act [[c ancc] gc]]| |] eqn:Er; cbn [abind] in Ep; try discriminate.
      destruct (Hrec c1 (f2 :: anc) g act c ancc gc ltac:(rewrite C1; exact Hl) C2 ltac:(constructor; assumption) Er) as (R1 & (R2 & _ & R3) & (new & R4 & R5) & R6).
      inversion R6 as [|a1 b1 l1 l2 [(F1 & F2 & F3) F4] R7]; subst ancc. subst a1 l1. specialize (R3 C2). destruct R3 as (Rc & _). rewrite Rc in Ep. cbn [Nat.ltb Nat.leb] in Ep.
      set (f4 := if qlt 0 (f_miny c - f_y c) then with_y b1 (f_y b1 - (f_miny c - f_y c))%Q false (s_mb s) else with_y b1 (f_y f) (f_starting b1) (f_lastbottom b1)).
      assert (Hf4 : hold f f4).
      { split; [unfold f4; destruct (qlt _ _); cbn [with_y f_miny]; congruence|]. split; [unfold f4; destruct (qlt _ _); cbn [with_y f_elems]; congruence|]. intros _. unfold f4. specialize (F3 C8). destruct (qlt _ _); exact F3. }
      assert (Hr : reach f f4 g gc).
      { exists new. split; [exact R4|]. unfold f4. destruct (qlt 0 (f_miny c - f_y c)) eqn:Eq; cbn [with_y f_y]; [right|left; reflexivity]. apply qlt_spec in Eq.
        rewrite F4, C5, R2, C4 in *. rewrite C3 in R5. destruct R5 as [R5|(p & P1 & P2)]; [lra|]. exists p. split; [exact P1|]. lra. }
      destruct R1 as [-> | ->]; cbn [abind] in Ep; injection Ep as <- <- <- <-; fold f4.
      + split; [exact Hf4|]. split; [exact Hr|]. split; [exact R7|exact I].
      + split; [exact Hf4|]. split; [exact Hr|]. split; [exact R7|reflexivity]. }
  destruct H1 as (K1 & K2 & K3 & K4). destruct r as [q|q].
  - subst q. intros H. injection H as <- <- <- <-. auto.
  - destruct (r_next q); intros H.
    + injection H as <- <- <- <-. split; [auto|]. split; [exact (hold_trans _ _ _ K1 (todo_hold _ _ _))|]. split; [exact K2|exact K3].
    + pose proof (hold_trans _ _ _ K1 (todo_hold f1 (Datatypes.S (f_index f1)) (f_delayed f1 ++ match r_delayed q with Some d => [d] | None => [] end))) as K5. destruct K1 as (_ & K1e & K1q).
      destruct (IH (with_todo f1 (Datatypes.S (f_index f1)) (f_delayed f1 ++ match r_delayed q with Some d => [d] | None => [] end)) anc1 g1 a f' anc' g' ltac:(cbn [with_todo f_elems]; rewrite K1e; exact He) (proj2 (proj2 K5) Hf) (holds_quiet _ _ K3 Ha) H) as (L1 & L2 & L3 & L4).
      split; [exact L1|]. split; [exact (hold_trans _ _ _ K5 L2)|]. split; [exact (reach_trans _ _ _ _ _ _ K2 L3)|exact (holds_trans _ _ _ K3 L4)].
Qed.
Lemma after_one a (f : part) anc (g : glob) s f' anc' g' : quiet1 f -> Forall quiet1 anc -> a = Goon \/ a = Next \/ a = Stop Interrupt -> after a f anc g = Done (s, (f', anc', g')) ->
  (s = Proceed \/ s = Return Interrupt) /\ hold_y f f' /\ Forall2 hold_y anc anc' /\ g' = g.
Proof.
  intros Hf Ha [->|[->| ->]]; cbn [after].
  - intros H. injection H as <- <- <- <-. split; [auto|]. split; [split; [apply hold_refl|reflexivity]|]. split; [apply holds_refl|reflexivity].
  - destruct (next_section (length (g_parts g)) None (f :: anc)) as [r st] eqn:En. destruct (next_one _ _ _ _ _ _ Hf Ha En) as (-> & f1 & anc1 & -> & K1 & K2).
    intros H. injection H as <- <- <- <-. auto.
  - intros H. injection H as <- <- <- <-. split; [auto|]. split; [split; [apply hold_refl|reflexivity]|]. split; [apply holds_refl|reflexivity].
Qed.
Lemma reach_y f f1 f2 (g g1 : glob) : reach f f1 g g1 -> f_y f2 = f_y f1 -> reach f f2 g g1.
Proof. intros (new & H1 & H2) Hy. exists new. rewrite Hy. auto. Qed.
Lemma loop_one rec : fine_one rec -> forall fuel, fine_one (loop start crun save restore rec fuel).
Proof.
  intros Hrec. induction fuel as [|fuel IH]; intros f anc g act f' anc' g' He Hf Ha; [discriminate|]. cbn [loop].
  destruct (add_delayed start crun save restore fuel 0 f g) as [[[a1 f1] g1]| |] eqn:E1; cbn [abind]; try discriminate. destruct (delayeds_reach _ _ _ _ _ _ _ E1) as (D1 & D2 & D3).
  destruct (after a1 f1 anc g1) as [[s1 [[f2 anc2] g2]]| |] eqn:E2; cbn [abind]; try discriminate.
  destruct (after_one a1 f1 anc g1 s1 f2 anc2 g2 (proj2 (proj2 D1) Hf) Ha ltac:(destruct D3; auto) E2) as (A1 & [A2 A3] & A4 & ->).
  pose proof (hold_trans _ _ _ D1 A2) as B1. pose proof (reach_y _ _ _ _ _ D2 A3) as B2. pose proof (holds_quiet _ _ A4 Ha) as Ha2.
  destruct A1 as [-> | ->]; [|intros H; injection H as <- <- <- <-; auto].
  destruct (add_elements start crun save restore rec fuel f2 anc2 g1) as [[a2 [[f3 anc3] g3]]| |] eqn:E3; cbn [abind]; try discriminate.
  destruct (elements_one rec Hrec fuel f2 anc2 g1 a2 f3 anc3 g3 ltac:(rewrite (proj1 (proj2 B1)); exact He) (proj2 (proj2 B1) Hf) Ha2 E3) as (C1 & C2 & C3 & C4).
  pose proof (hold_trans _ _ _ B1 C2) as B3. pose proof (reach_trans _ _ _ _ _ _ B2 C3) as B4. pose proof (holds_trans _ _ _ A4 C4) as B5. pose proof (holds_quiet _ _ B5 Ha) as Ha3.
  destruct (after a2 f3 anc3 g3) as [[s2 [[f4 anc4] g4]]| |] eqn:E4; cbn [abind]; try discriminate.
  destruct (after_one a2 f3 anc3 g3 s2 f4 anc4 g4 (proj2 (proj2 B3) Hf) Ha3 C1 E4) as (F1 & [F2 F3] & F4 & ->).
  pose proof (hold_trans _ _ _ B3 F2) as B6. pose proof (reach_y _ _ _ _ _ B4 F3) as B7. pose proof (holds_trans _ _ _ B5 F4) as B8. pose proof (holds_quiet _ _ B8 Ha) as Ha4.
  destruct F1 as [-> | ->]; [|intros H; injection H as <- <- <- <-; auto].
  destruct (proj2 (proj2 B6) Hf) as (Q1 & Q2 & Q3 & Q4).
  destruct (f_delayed f4).
  - rewrite Q1, Q3. cbn [negb andb Nat.ltb Nat.leb]. intros H. injection H as <- <- <- <-. auto.
  - intros H. destruct (IH f4 anc4 g3 act f' anc' g' ltac:(rewrite (proj1 (proj2 B6)); exact He) ltac:(repeat split; assumption) Ha4 H) as (G1 & G2 & G3 & G4).
    split; [exact G1|]. split; [exact (hold_trans _ _ _ B6 G2)|]. split; [exact (reach_trans _ _ _ _ _ _ B7 G3)|exact (holds_trans _ _ _ B8 G4)].
Qed.
Lemma run_part_one : forall fuel, fine_one (run_part start crun save restore fuel).
Proof. induction fuel as [|fuel IH]; [intros ? ? ? ? ? ? ? ? ? ? H; discriminate|]. cbn [run_part]. apply loop_one. exact IH. Qed.
End Height.
