(** Boxes of several columns: the search for a common height of the columns
    never goes below the bottom of the rectangle. *)
From Coq Require Import QArith ZArith Lia Lqa.
From Verif Require Import Py Table Content ContentFlow ContentState.
Open Scope list_scope.
Open Scope nat_scope.

Section Balance.
Context {E O S P L K : Type}.
Variable start : E -> res O.
Variable crun : O -> Q -> Q -> Q -> Q -> res (O * Q * bool * list P * list L).
Variable save : O -> S.
Variable restore : O -> S -> O.
Variable kind : O -> K.
(** What has a height is not higher than the room. *)
Hypothesis fits : forall o x y w h o' ht fin ps ls, crun o x y w h = Ok (o', ht, fin, ps, ls) -> (0 < ht)%Q -> (ht <= h)%Q.
Hypothesis kind_run : forall o x y w h o' ht fin ps ls, crun o x y w h = Ok (o', ht, fin, ps, ls) -> kind o' = kind o.
Hypothesis kind_restore : forall o sv, kind (restore o sv) = kind o.
Hypothesis same_restore : forall o o' sv, kind o = kind o' -> restore o sv = restore o' sv.
(** Equal numbers, written in another way, give the same. *)
Hypothesis run_same : forall o x y y' w h h' o1 ht fin ps ls o1' ht' fin' ps' ls', (y' == y)%Q -> (h' == h)%Q ->
  crun o x y w h = Ok (o1, ht, fin, ps, ls) -> crun o x y' w h' = Ok (o1', ht', fin', ps', ls') -> (ht' == ht)%Q /\ fin' = fin /\ save o1' = save o1.
Notation gelem := (@gelem E).
Notation elem := (@elem E).
Notation delem := (@delem E S).
Notation part := (@part E S).
Notation glob := (@glob O P L).
Notation placed := (@placed O P).
Notation runner := (@runner E O S P L).
Notation ext := (ext kind).
Notation rd := (rd (E := E) (S := S) kind false).
Notation rret := (rret kind false).
Notation rsrc := (rsrc (E := E) (S := S) kind).
Notation leaf := (process_leaf start crun save restore).

(** Two boxes at the same place of a pass, up to the way numbers are written. *)
Record rp (h h' : list O) (f f' : part) : Prop := {
  rp_elems : f_elems f' = f_elems f; rp_cols : f_cols f' = f_cols f; rp_minx : f_minx f' = f_minx f; rp_miny : f_miny f' = f_miny f;
  rp_column : f_column f' = f_column f; rp_start : f_starting f' = f_starting f; rp_gap : f_gap f' = f_gap f; rp_colw : f_colw f' = f_colw f;
  rp_index : f_index f' = f_index f; rp_lb : f_starting f = false -> f_lastbottom f' = f_lastbottom f;
  rp_maxy : (f_maxy f' == f_maxy f)%Q; rp_y : (f_y f' == f_y f)%Q; rp_del : Forall2 (rd h h') (f_delayed f) (f_delayed f') }.
Lemma rp_ext h h' h1 h1' f f' : ext h h1 -> ext h' h1' -> rp h h' f f' -> rp h1 h1' f f'.
Proof. intros X1 X2 []. constructor; auto. eapply rds_ext; eassumption. Qed.
Lemma rp_with_y h h' f f' y y' st lb lb' : rp h h' f f' -> (y' == y)%Q -> (st = false -> lb' = lb) -> rp h h' (with_y f y st lb) (with_y f' y' st lb').
Proof. intros [] H1 H2. constructor; auto. Qed.
Lemma rp_todo h h' f f' i d d' : rp h h' f f' -> Forall2 (rd h h') d d' -> rp h h' (with_todo f i d) (with_todo f' i d').
Proof. intros [] H1. constructor; auto. Qed.
Lemma rp_next h h' f f' n : rp h h' f f' -> rp h h' (with_column f n) (with_column f' n).
Proof. intros []. constructor; auto; cbn [with_column f_starting f_y]; [discriminate|]. rewrite rp_miny0. reflexivity. Qed.

Lemma qmax_eq a b : (a == b)%Q -> (qmax 0 a == qmax 0 b)%Q.
Proof.
  intros H. unfold qmax. destruct (Qle_bool a 0) eqn:E1, (Qle_bool b 0) eqn:E2; try reflexivity; try exact H.
  - apply Qle_bool_iff in E1. rewrite H in E1. apply Qle_bool_iff in E1. congruence.
  - apply Qle_bool_iff in E2. rewrite <- H in E2. apply Qle_bool_iff in E2. congruence.
Qed.
Lemma qlt_eq a a' b b' : (a' == a)%Q -> (b' == b)%Q -> qlt a' b' = qlt a b.
Proof.
  intros H1 H2. destruct (qlt a b) eqn:E1.
  - apply qlt_spec in E1. apply qlt_spec. rewrite H1, H2. exact E1.
  - apply qlt_false in E1. apply qlt_false. rewrite H1, H2. exact E1.
Qed.
Lemma Qle_bool_eq a a' b b' : (a' == a)%Q -> (b' == b)%Q -> Qle_bool a' b' = Qle_bool a b.
Proof.
  intros H1 H2. destruct (Qle_bool a b) eqn:E1.
  - apply Qle_bool_iff in E1. apply Qle_bool_iff. rewrite H1, H2. exact E1.
  - destruct (Qle_bool a' b') eqn:E2; [|reflexivity]. apply Qle_bool_iff in E2. rewrite H1, H2 in E2. apply Qle_bool_iff in E2. congruence.
Qed.
Lemma rp_space h h' f f' s top x y w ht : rp h h' f f' -> space f s top = (x, y, w, ht) ->
  exists y' ht', space f' s top = (x, y', w, ht') /\ (y' == y)%Q /\ (ht' == ht)%Q.
Proof.
  intros R. unfold space, left_edge. rewrite (rp_minx _ _ _ _ R), (rp_column _ _ _ _ R), (rp_colw _ _ _ _ R), (rp_gap _ _ _ _ R), (rp_start _ _ _ _ R).
  intros H. injection H as <- <- <- <-. eexists _, _. split; [reflexivity|].
  pose proof (rp_y _ _ _ _ R) as H1. pose proof (rp_maxy _ _ _ _ R) as H2. pose proof (rp_lb _ _ _ _ R) as H3.
  match goal with |- (?a == ?b)%Q /\ _ => assert (Hy : (a == b)%Q) end.
  { destruct (f_starting f); cbn [negb andb]; [exact H1|]. rewrite (H3 eq_refl). destruct top; rewrite H1; reflexivity. }
  split; [exact Hy|]. apply qmax_eq. rewrite Hy, H2. reflexivity.
Qed.

(** *** One element: what does not change, and what is drawn *)
Definition low (b : Q) (p : placed) : Prop := (0 < p_height p)%Q -> (b <= p_top p - p_height p)%Q.
Definition adds (b : Q) (g g1 : glob) : Prop := (exists new, g_parts g1 = g_parts g ++ new /\ Forall (low b) new) /\ ext (g_heap g) (g_heap g1).
Definition still (f f1 : part) : Prop := exists y st lb, f1 = with_y f y st lb.
Lemma adds_refl b g : adds b g g.
Proof. split; [exists []; split; [rewrite app_nil_r; reflexivity|constructor]|]. apply ext_refl. Qed.
Lemma adds_trans b g g1 g2 : adds b g g1 -> adds b g1 g2 -> adds b g g2.
Proof.
  intros [(n1 & A1 & A2) A3] [(n2 & B1 & B2) B3]. split; [|eapply ext_trans; eassumption].
  exists (n1 ++ n2). split; [rewrite B1, A1, app_assoc; reflexivity|]. apply Forall_app. auto.
Qed.
Lemma adds_low b g g1 : adds b g g1 -> Forall (low b) (g_parts g) -> Forall (low b) (g_parts g1).
Proof. intros [(n & -> & A) _] H. apply Forall_app. auto. Qed.
Lemma still_refl f : still f f.
Proof. exists (f_y f), (f_starting f), (f_lastbottom f). destruct f; reflexivity. Qed.
Lemma still_y f y st lb : still f (with_y f y st lb).
Proof. eexists _, _, _. reflexivity. Qed.
Lemma still_trans f f1 f2 : still f f1 -> still f1 f2 -> still f f2.
Proof. intros (y & st & lb & ->) (y' & st' & lb' & ->). eexists _, _, _. reflexivity. Qed.
Lemma still_maxy f f1 : still f f1 -> f_maxy f1 = f_maxy f.
Proof. intros (y & st & lb & ->). reflexivity. Qed.

Lemma space_room (f : part) s top x y w h : space f s top = (x, y, w, h) -> (0 < h)%Q -> (h == y - f_maxy f)%Q.
Proof.
  unfold space. intros H. injection H as _ <- _ <-. intros H.
  match goal with |- (qmax 0 ?a == ?b)%Q => destruct (qmax_or 0 a) as [Hq|Hq]; rewrite Hq in *; [lra|reflexivity] end.
Qed.
(** How an object is run. *)
Lemma leaf_inv f g s src add top r f1 g1 : leaf f g s src add top = Done (r, f1, g1) ->
  exists ref o x y w h o' ht fin ps ls,
    space f s top = (x, y, w, h) /\
    match src with inl e => start e = Ok o /\ ref = length (g_heap g) | inr (r0, sv) => ref = r0 /\ exists o0, nth_error (g_heap g) r0 = Some o0 /\ o = restore o0 sv end /\
    crun o x y w h = Ok (o', ht, fin, ps, ls) /\
    r = (if fin then mkRet None false false else mkRet (Some (DLeaf s ref (save o'))) true false) /\
    f1 = (if qlt 0 ht then with_y f (y - ht)%Q false (s_mb s) else with_y f (f_y f) (f_starting f) (f_lastbottom f)) /\
    g_parts g1 = (if add then g_parts g ++ [PlLeaf s x y w h o o' ht fin ps] else g_parts g) /\
    ext (g_heap g) (g_heap g1) /\ nth_error (g_heap g1) ref = Some o' /\ g_tries g1 = g_tries g.
Proof.
  unfold process_leaf. destruct (space f s top) as [[[x y] w] h]. destruct (match src with inl e => _ | inr _ => _ end) as [[ref o]| |] eqn:Es; cbn [abind]; try discriminate.
  destruct (crun o x y w h) as [[[[[o' ht] fin] ps] ls]|] eqn:Ec; cbn [lift abind]; try discriminate. intros H. injection H as <- <- <-.
  exists ref, o, x, y, w, h, o', ht, fin, ps, ls. split; [reflexivity|].
  assert (Hs : match src with inl e => start e = Ok o /\ ref = length (g_heap g) | inr (r0, sv) => ref = r0 /\ exists o0, nth_error (g_heap g) r0 = Some o0 /\ o = restore o0 sv end).
  { destruct src as [e|[r0 sv]].
    - destruct (start e); cbn [lift abind] in Es; [|discriminate]. injection Es as <- <-. auto.
    - destruct (nth_error (g_heap g) r0) as [o0|]; [|discriminate]. injection Es as <- <-. split; [reflexivity|]. exists o0. auto. }
  split; [exact Hs|]. split; [exact Ec|]. split; [reflexivity|]. split; [reflexivity|]. split; [reflexivity|]. cbn [g_heap].
  pose proof (kind_run _ _ _ _ _ _ _ _ _ _ Ec) as Hk. split; [|split; [|reflexivity]].
  - destruct (Nat.eqb_spec ref (length (g_heap g))) as [->|Hne]; [apply ext_snoc|]. destruct src as [e|[r0 sv]]; [destruct Hs; congruence|].
    destruct Hs as [-> (o0 & H1 & ->)]. eapply ext_hset; [exact H1|]. rewrite Hk. apply kind_restore.
  - destruct (Nat.eqb_spec ref (length (g_heap g))) as [->|Hne]; [apply nth_snoc|]. destruct src as [e|[r0 sv]]; [destruct Hs; congruence|].
    destruct Hs as [-> (o0 & H1 & _)]. apply nth_hset. apply nth_error_Some. congruence.
Qed.
Lemma leaf_one f g s src add top r f1 g1 : leaf f g s src add top = Done (r, f1, g1) -> still f f1 /\ adds (f_maxy f) g g1.
Proof.
  intros H. destruct (leaf_inv _ _ _ _ _ _ _ _ _ H) as (ref & o & x & y & w & h & o' & ht & fin & ps & ls & H1 & _ & H3 & _ & -> & H6 & H7 & _).
  split; [destruct (qlt 0 ht); apply still_y|]. split; [|exact H7]. rewrite H6. destruct add; [|exists []; split; [rewrite app_nil_r; reflexivity|constructor]].
  eexists. split; [reflexivity|]. constructor; [|constructor]. intros Hh. cbn [p_height p_top] in *. pose proof (fits _ _ _ _ _ _ _ _ _ _ H3 Hh) as Hf.
  rewrite (space_room _ _ _ _ _ _ _ H1) in Hf by lra. lra.
Qed.
Lemma leaf_two f f' g g' s src src' add top r f1 g1 r' f1' g1' :
  rp (g_heap g) (g_heap g') f f' -> rsrc (g_heap g) (g_heap g') src src' ->
  leaf f g s src add top = Done (r, f1, g1) -> leaf f' g' s src' add top = Done (r', f1', g1') ->
  rret (g_heap g1) (g_heap g1') r r' /\ rp (g_heap g1) (g_heap g1') f1 f1'.
Proof.
  intros R Hs H H'.
  destruct (leaf_inv _ _ _ _ _ _ _ _ _ H) as (ref & o & x & y & w & h & o1 & ht & fin & ps & ls & H1 & H2 & H3 & -> & -> & _ & H7 & H8 & _).
  destruct (leaf_inv _ _ _ _ _ _ _ _ _ H') as (ref' & o' & x' & y' & w' & h' & o1' & ht' & fin' & ps' & ls' & H1' & H2' & H3' & -> & -> & _ & H7' & H8' & _).
  destruct (rp_space _ _ _ _ s top _ _ _ _ R H1) as (y2 & h2 & H9 & Hy & Hh). rewrite H9 in H1'. injection H1' as <- <- <- <-.
  assert (Ho : o' = o).
  { destruct src as [e|[r0 sv]], src' as [e'|[r0' sv']]; cbn [ContentState.rsrc] in Hs; try contradiction.
    - subst e'. destruct H2, H2'. congruence.
    - destruct Hs as [-> (a & b & A1 & A2 & A3)]. destruct H2 as [_ (c & B1 & ->)]. destruct H2' as [_ (d & B2 & ->)].
      rewrite A1 in B1. rewrite A2 in B2. injection B1 as <-. injection B2 as <-. symmetry. apply same_restore. exact A3. }
  subst o'. destruct (run_same _ _ _ _ _ _ _ _ _ _ _ _ _ _ _ _ _ Hy Hh H3 H3') as (Eh & -> & Esv).
  split.
  - destruct fin; [repeat split|]. unfold ContentState.rret. cbn [r_delayed r_next r_flow ro ContentState.rd]. split; [|split; reflexivity].
    split; [reflexivity|]. split; [exact Esv|]. exists o1, o1'. split; [exact H8|]. split; [exact H8'|].
    rewrite (kind_run _ _ _ _ _ _ _ _ _ _ H3), (kind_run _ _ _ _ _ _ _ _ _ _ H3'). reflexivity.
  - pose proof (rp_ext _ _ _ _ _ _ H7 H7' R) as R1. rewrite (qlt_eq 0 0 ht ht' ltac:(reflexivity) Eh). destruct (qlt 0 ht).
    + apply rp_with_y; [exact R1|rewrite Hy, Eh; reflexivity|reflexivity].
    + rewrite (rp_start _ _ _ _ R). apply rp_with_y; [exact R1|apply (rp_y _ _ _ _ R)|apply (rp_lb _ _ _ _ R)].
Qed.

Lemma image_one (f : part) (g : glob) s min shrink iw ih add top ok f1 g1 :
  process_image f g s min shrink iw ih add top = (ok, f1, g1) -> still f f1 /\ adds (f_maxy f) g g1 /\ g_heap g1 = g_heap g.
Proof.
  unfold process_image. destruct (space f s top) as [[[x y] w] h] eqn:Es. cbv zeta.
  assert (Hgo : forall x' w' ht, ((0 < ht)%Q -> (ht <= h)%Q) -> (true, with_y f (y - ht)%Q false (s_mb s), if add then with_parts g (g_parts g ++ [PlImage s x' (y - ht) w' ht iw ih]) else g) = (ok, f1, g1) ->
    still f f1 /\ adds (f_maxy f) g g1 /\ g_heap g1 = g_heap g).
  { intros x' w' ht H0 H. injection H as <- <- <-. split; [apply still_y|]. destruct add; [|split; [apply adds_refl|reflexivity]]. split; [|reflexivity]. split; [|apply ext_refl].
    eexists. split; [reflexivity|]. constructor; [|constructor]. intros Hh. cbn [p_height p_top] in *. specialize (H0 Hh). rewrite (space_room _ _ _ _ _ _ _ Es) in H0 by lra. lra. }
  assert (Hno : (false, with_y f (f_y f) (f_starting f) (f_lastbottom f), g) = (ok, f1, g1) -> still f f1 /\ adds (f_maxy f) g g1 /\ g_heap g1 = g_heap g).
  { intros H. injection H as <- <- <-. split; [apply still_y|]. split; [apply adds_refl|reflexivity]. }
  destruct (qlt (w * ih / iw) h) eqn:E1; [apply Hgo; apply qlt_spec in E1; lra|]. destruct min as [m|]; [|exact Hno]. destruct (Qle_bool m h) eqn:E2; [|exact Hno].
  apply Qle_bool_iff in E2. apply Hgo. destruct shrink; lra.
Qed.
Definition rmin (m m' : option Q) : Prop := match m, m' with Some a, Some b => (b == a)%Q | None, None => True | _, _ => False end.
Lemma image_two h h' f f' (g g' : glob) s min min' shrink iw ih add top ok f1 g1 ok' f1' g1' :
  rp h h' f f' -> rmin min min' -> process_image f g s min shrink iw ih add top = (ok, f1, g1) -> process_image f' g' s min' shrink iw ih add top = (ok', f1', g1') ->
  ok' = ok /\ rp h h' f1 f1'.
Proof.
  intros R Hm. unfold process_image. destruct (space f s top) as [[[x y] w] ht] eqn:Es. destruct (rp_space _ _ _ _ s top _ _ _ _ R Es) as (y' & ht' & Es' & Hy & Hh). rewrite Es'. cbv zeta.
  rewrite (qlt_eq (w * ih / iw) (w * ih / iw) ht ht' ltac:(reflexivity) Hh).
  assert (Hno : rp h h' (with_y f (f_y f) (f_starting f) (f_lastbottom f)) (with_y f' (f_y f') (f_starting f') (f_lastbottom f'))).
  { rewrite (rp_start _ _ _ _ R). apply rp_with_y; [exact R|apply (rp_y _ _ _ _ R)|apply (rp_lb _ _ _ _ R)]. }
  destruct (qlt (w * ih / iw) ht).
  - intros H H'. injection H as <- <- <-. injection H' as <- <- <-. split; [reflexivity|]. apply rp_with_y; [exact R|rewrite Hy; reflexivity|reflexivity].
  - destruct min as [m|], min' as [m'|]; cbn [rmin] in Hm; try contradiction; [|intros H H'; injection H as <- <- <-; injection H' as <- <- <-; split; [reflexivity|exact Hno]].
    rewrite (Qle_bool_eq m m' ht ht' Hm Hh). destruct (Qle_bool m ht); intros H H'; injection H as <- <- <-; injection H' as <- <- <-; (split; [reflexivity|]); [|exact Hno].
    apply rp_with_y; [exact R| |reflexivity]. destruct shrink; [rewrite Hy, Hm|rewrite Hy, Hh]; reflexivity.
Qed.

(** *** Groups *)
Lemma gel_one f g el min add top ok f1 g1 : group_element start crun save restore f g el min add top = Done (ok, f1, g1) -> still f f1 /\ adds (f_maxy f) g g1.
Proof.
  destruct el as [s e|s iw ih|]; cbn [group_element]; [| |discriminate].
  - destruct (leaf f g s (inl e) add top) as [[[r f0] g0]| |] eqn:El; cbn [abind]; try discriminate. intros H. injection H as <- <- <-. exact (leaf_one _ _ _ _ _ _ _ _ _ El).
  - intros H. injection H as H. destruct (image_one _ _ _ _ _ _ _ _ _ _ _ _ H) as (H1 & H2 & _). auto.
Qed.
Lemma gel_two f f' g g' el min min' add top ok f1 g1 ok' f1' g1' :
  rp (g_heap g) (g_heap g') f f' -> rmin min min' ->
  group_element start crun save restore f g el min add top = Done (ok, f1, g1) -> group_element start crun save restore f' g' el min' add top = Done (ok', f1', g1') ->
  ok' = ok /\ rp (g_heap g1) (g_heap g1') f1 f1'.
Proof.
  intros R Hm. destruct el as [s e|s iw ih|]; cbn [group_element]; [| |discriminate].
  - destruct (leaf f g s (inl e) add top) as [[[r f0] g0]| |] eqn:El; cbn [abind]; try discriminate. destruct (leaf f' g' s (inl e) add top) as [[[r' f0'] g0']| |] eqn:El'; cbn [abind]; try discriminate.
    destruct (leaf_two f f' g g' s (inl e) (inl e) add top _ _ _ _ _ _ R eq_refl El El') as ((A1 & _ & _) & A2).
    intros H H'. injection H as <- <- <-. injection H' as <- <- <-. split; [|exact A2]. destruct (r_delayed r), (r_delayed r'); cbn [ro] in A1; try contradiction; reflexivity.
  - intros H H'. injection H as H. injection H' as H'. destruct (image_one _ _ _ _ _ _ _ _ _ _ _ _ H) as (_ & _ & ->). destruct (image_one _ _ _ _ _ _ _ _ _ _ _ _ H') as (_ & _ & ->).
    eapply image_two; [exact R| |exact H|exact H']. destruct min, min'; cbn [rmin] in *; try contradiction; [exact Hm|]. destruct (s_min s); cbn; [reflexivity|exact I].
Qed.
Lemma try_one : forall l f g first ok f1 g1, group_try start crun save restore f g first l = Done (ok, f1, g1) -> still f f1 /\ adds (f_maxy f) g g1.
Proof.
  induction l as [|el l IH]; intros f g first ok f1 g1; cbn [group_try].
  - intros H. injection H as <- <- <-. split; [apply still_refl|apply adds_refl].
  - destruct (group_element start crun save restore f g el None false (negb first)) as [[[o0 f0] g0]| |] eqn:E0; cbn [abind]; try discriminate.
    destruct (gel_one _ _ _ _ _ _ _ _ _ E0) as [A1 A2]. destruct o0; [|intros H; injection H as <- <- <-; auto].
    intros H. destruct (IH _ _ _ _ _ _ H) as [B1 B2]. rewrite (still_maxy _ _ A1) in B2. split; [exact (still_trans _ _ _ A1 B1)|exact (adds_trans _ _ _ _ A2 B2)].
Qed.
Lemma try_two : forall l f f' g g' first ok f1 g1 ok' f1' g1', rp (g_heap g) (g_heap g') f f' ->
  group_try start crun save restore f g first l = Done (ok, f1, g1) -> group_try start crun save restore f' g' first l = Done (ok', f1', g1') ->
  ok' = ok /\ rp (g_heap g1) (g_heap g1') f1 f1'.
Proof.
  induction l as [|el l IH]; intros f f' g g' first ok f1 g1 ok' f1' g1' R; cbn [group_try].
  - intros H H'. injection H as <- <- <-. injection H' as <- <- <-. auto.
  - destruct (group_element start crun save restore f g el None false (negb first)) as [[[o0 f0] g0]| |] eqn:E0; cbn [abind]; try discriminate.
    destruct (group_element start crun save restore f' g' el None false (negb first)) as [[[o0' f0'] g0']| |] eqn:E0'; cbn [abind]; try discriminate.
    destruct (gel_two _ _ _ _ _ None None _ _ _ _ _ _ _ _ R I E0 E0') as [-> A]. destruct o0; [apply IH; exact A|].
    intros H H'. injection H as <- <- <-. injection H' as <- <- <-. auto.
Qed.
Lemma add_one : forall l f g ratio first f1 g1, group_add start crun save restore f g ratio first l = Done (f1, g1) -> still f f1 /\ adds (f_maxy f) g g1.
Proof.
  induction l as [|el l IH]; intros f g ratio first f1 g1; cbn [group_add].
  - intros H. injection H as <- <-. split; [apply still_refl|apply adds_refl].
  - destruct (group_element start crun save restore f g el _ true (negb first)) as [[[o0 f0] g0]| |] eqn:E0; cbn [abind]; try discriminate.
    destruct (gel_one _ _ _ _ _ _ _ _ _ E0) as [A1 A2]. intros H. destruct (IH _ _ _ _ _ _ H) as [B1 B2]. rewrite (still_maxy _ _ A1) in B2. split; [exact (still_trans _ _ _ A1 B1)|exact (adds_trans _ _ _ _ A2 B2)].
Qed.
Lemma add_two : forall l f f' g g' ratio ratio' first f1 g1 f1' g1', rp (g_heap g) (g_heap g') f f' -> (ratio' == ratio)%Q ->
  group_add start crun save restore f g ratio first l = Done (f1, g1) -> group_add start crun save restore f' g' ratio' first l = Done (f1', g1') ->
  rp (g_heap g1) (g_heap g1') f1 f1'.
Proof.
  induction l as [|el l IH]; intros f f' g g' ratio ratio' first f1 g1 f1' g1' R Hr; cbn [group_add].
  - intros H H'. injection H as <- <-. injection H' as <- <-. exact R.
  - destruct (group_element start crun save restore f g el _ true (negb first)) as [[[o0 f0] g0]| |] eqn:E0; cbn [abind]; try discriminate.
    destruct (group_element start crun save restore f' g' el _ true (negb first)) as [[[o0' f0'] g0']| |] eqn:E0'; cbn [abind]; try discriminate.
    assert (Hm : rmin (if has_min el then Some (min_of el * ratio)%Q else None) (if has_min el then Some (min_of el * ratio')%Q else None)) by (destruct (has_min el); cbn [rmin]; [rewrite Hr; reflexivity|exact I]).
    destruct (gel_two _ _ _ _ _ _ _ _ _ _ _ _ _ _ _ R Hm E0 E0') as [_ A]. apply IH; assumption.
Qed.
Lemma group_one f g s l tries r f1 g1 : process_group start crun save restore f g s l tries = Done (r, f1, g1) -> still f f1 /\ adds (f_maxy f) g g1.
Proof.
  unfold process_group. set (f0 := with_y f _ _ _). destruct (group_try start crun save restore f0 g true l) as [[[ok f2] g2]| |] eqn:E0; cbn [abind]; try discriminate.
  destruct (try_one _ _ _ _ _ _ _ E0) as [A1 A2]. assert (A3 : still f f2) by (apply (still_trans _ f0); [apply still_y|exact A1]). change (f_maxy f0) with (f_maxy f) in A2. destruct ok.
  - match goal with |- abind ?e _ = _ -> _ => destruct e as [ratio| |] end; cbn [abind]; try discriminate.
    destruct (group_add start crun save restore _ g2 _ true l) as [[f3 g3]| |] eqn:E1; cbn [abind]; try discriminate. destruct (add_one _ _ _ _ _ _ _ E1) as [B1 B2].
    cbn [with_y f_maxy] in B2. rewrite (still_maxy _ _ A3) in B2. intros H. injection H as <- <- <-. split; [|exact (adds_trans _ _ _ _ A2 B2)].
    apply (still_trans _ f2); [exact A3|]. eapply still_trans; [apply still_y|exact B1].
  - destruct (50 <=? tries); [discriminate|]. intros H. injection H as <- <- <-. split; [|exact A2]. eapply still_trans; [exact A3|apply still_y].
Qed.
Lemma group_two f f' g g' s l t t' r f1 g1 r' f1' g1' : rp (g_heap g) (g_heap g') f f' ->
  process_group start crun save restore f g s l t = Done (r, f1, g1) -> process_group start crun save restore f' g' s l t' = Done (r', f1', g1') ->
  rret (g_heap g1) (g_heap g1') r r' /\ rp (g_heap g1) (g_heap g1') f1 f1'.
Proof.
  intros R. unfold process_group. set (f0 := with_y f _ _ _). set (f0' := with_y f' _ _ _).
  assert (R0 : rp (g_heap g) (g_heap g') f0 f0').
  { unfold f0, f0'. rewrite (rp_start _ _ _ _ R). apply rp_with_y; [exact R| |apply (rp_lb _ _ _ _ R)]. pose proof (rp_y _ _ _ _ R) as Hy. destruct (f_starting f); rewrite Hy; reflexivity. }
  destruct (group_try start crun save restore f0 g true l) as [[[ok f2] g2]| |] eqn:E0; cbn [abind]; try discriminate.
  destruct (group_try start crun save restore f0' g' true l) as [[[ok' f2'] g2']| |] eqn:E0'; cbn [abind]; try discriminate.
  destruct (try_two _ _ _ _ _ _ _ _ _ _ _ _ R0 E0 E0') as [-> R2].
  assert (R3 : rp (g_heap g2) (g_heap g2') (with_y f2 (f_y f) (f_starting f2) (f_lastbottom f2)) (with_y f2' (f_y f') (f_starting f2') (f_lastbottom f2'))).
  { rewrite (rp_start _ _ _ _ R2). apply rp_with_y; [exact R2|apply (rp_y _ _ _ _ R)|apply (rp_lb _ _ _ _ R2)]. }
  destruct ok.
  - destruct (existsb has_min l).
    + destruct (Qeq_bool (qsum (map min_of l)) 0); cbn [abind]; [discriminate|].
      match goal with |- abind ?e _ = _ -> _ => destruct e as [[f3 g3]| |] eqn:E1 end; cbn [abind]; try discriminate.
      match goal with |- _ -> abind ?e _ = _ -> _ => destruct e as [[f3' g3']| |] eqn:E1' end; cbn [abind]; try discriminate.
      intros H H'. injection H as <- <- <-. injection H' as <- <- <-. split; [repeat split|]. eapply add_two; [exact R3| |exact E1|exact E1'].
      destruct (s_shrink s); [reflexivity|]. rewrite (rp_y _ _ _ _ R2), (rp_maxy _ _ _ _ R2). reflexivity.
    + cbn [abind].
      match goal with |- abind ?e _ = _ -> _ => destruct e as [[f3 g3]| |] eqn:E1 end; cbn [abind]; try discriminate.
      match goal with |- _ -> abind ?e _ = _ -> _ => destruct e as [[f3' g3']| |] eqn:E1' end; cbn [abind]; try discriminate.
      intros H H'. injection H as <- <- <-. injection H' as <- <- <-. split; [repeat split|]. eapply add_two; [exact R3| |exact E1|exact E1']. reflexivity.
  - destruct (50 <=? t); [discriminate|]. destruct (50 <=? t'); [discriminate|]. intros H H'. injection H as <- <- <-. injection H' as <- <- <-. split; [|exact R3].
    split; [|split; reflexivity]. cbn. repeat split. discriminate.
Qed.

Lemma image_ret_two h h' s iw ih t t' (r r' : @ret E S) : image_ret s iw ih t = Done r -> image_ret s iw ih t' = Done r' -> rret h h' r r'.
Proof.
  unfold image_ret. destruct (50 <=? t); [discriminate|]. destruct (50 <=? t'); [discriminate|]. intros H H'. injection H as <-. injection H' as <-.
  split; [cbn; repeat split; discriminate|split; reflexivity].
Qed.
Lemma delayed_one f g d r f1 g1 : process_delayed start crun save restore f g d = Done (r, f1, g1) -> still f f1 /\ adds (f_maxy f) g g1.
Proof.
  destruct d as [s ref sv|s iw ih t|s l t]; cbn [process_delayed].
  - apply leaf_one.
  - destruct (process_image f g s _ _ iw ih true true) as [[ok f0] g0] eqn:Ei. destruct (image_one _ _ _ _ _ _ _ _ _ _ _ _ Ei) as (A1 & A2 & _). destruct ok; [intros H; injection H as <- <- <-; auto|].
    destruct (image_ret s iw ih t); cbn [abind]; try discriminate. intros H. injection H as <- <- <-. auto.
  - apply group_one.
Qed.
Lemma delayed_two f f' g g' d d' r f1 g1 r' f1' g1' : rp (g_heap g) (g_heap g') f f' -> rd (g_heap g) (g_heap g') d d' ->
  process_delayed start crun save restore f g d = Done (r, f1, g1) -> process_delayed start crun save restore f' g' d' = Done (r', f1', g1') ->
  rret (g_heap g1) (g_heap g1') r r' /\ rp (g_heap g1) (g_heap g1') f1 f1'.
Proof.
  intros R Hd. destruct d as [s ref sv|s iw ih t|s l t], d' as [s' ref' sv'|s' iw' ih' t'|s' l' t']; cbn [ContentState.rd] in Hd; try contradiction; cbn [process_delayed].
  - destruct Hd as (-> & -> & Hd). apply leaf_two; [exact R|]. cbn. auto.
  - destruct Hd as (-> & -> & -> & _). destruct (process_image f g s _ _ iw ih true true) as [[ok f0] g0] eqn:Ei. destruct (process_image f' g' s _ _ iw ih true true) as [[ok' f0'] g0'] eqn:Ei'.
    destruct (image_one _ _ _ _ _ _ _ _ _ _ _ _ Ei) as (_ & _ & Eg). destruct (image_one _ _ _ _ _ _ _ _ _ _ _ _ Ei') as (_ & _ & Eg').
    assert (Hm : rmin (s_min s) (s_min s)) by (destruct (s_min s); cbn; [reflexivity|exact I]).
    destruct (image_two _ _ _ _ _ _ _ _ _ _ _ _ _ _ _ _ _ _ _ _ R Hm Ei Ei') as [-> A2]. rewrite <- Eg, <- Eg' in A2. destruct ok.
    + intros H H'. injection H as <- <- <-. injection H' as <- <- <-. split; [repeat split|exact A2].
    + destruct (image_ret s iw ih t) as [q| |] eqn:Eq; cbn [abind]; try discriminate. destruct (image_ret s iw ih t') as [q'| |] eqn:Eq'; cbn [abind]; try discriminate.
      intros H H'. injection H as <- <- <-. injection H' as <- <- <-. split; [exact (image_ret_two _ _ _ _ _ _ _ _ _ Eq Eq')|exact A2].
  - destruct Hd as (-> & -> & _). apply group_two. exact R.
Qed.

(** *** The delayed elements and the elements of a box without boxes inside *)
Definition flat1 (el : elem) : Prop := match el with Child _ _ _ _ => False | _ => True end.
Definition settled (f f1 : part) : Prop := exists y st lb i d, f1 = with_todo (with_y f y st lb) i d.
Lemma settled_maxy f f1 : settled f f1 -> f_maxy f1 = f_maxy f.
Proof. intros (y & st & lb & i & d & ->). reflexivity. Qed.
Lemma settled_trans f f1 f2 : settled f f1 -> settled f1 f2 -> settled f f2.
Proof. intros (y & st & lb & i & d & ->) (y' & st' & lb' & i' & d' & ->). eexists _, _, _, _, _. reflexivity. Qed.
Lemma settled_refl f : settled f f.
Proof. exists (f_y f), (f_starting f), (f_lastbottom f), (f_index f), (f_delayed f). destruct f; reflexivity. Qed.
Lemma still_settled f f1 i d : still f f1 -> settled f (with_todo f1 i d).
Proof. intros (y & st & lb & ->). eexists _, _, _, _, _. reflexivity. Qed.
Lemma delayeds_one : forall fuel n f g a f1 g1, add_delayed start crun save restore fuel n f g = Done (a, f1, g1) ->
  settled f f1 /\ adds (f_maxy f) g g1 /\ (forall x, a <> Stop x).
Proof.
  induction fuel as [|fuel IH]; intros n f g a f1 g1; cbn [add_delayed]; [discriminate|]. destruct (nth_error (f_delayed f) n) as [d|].
  - destruct (process_delayed start crun save restore f g d) as [[[r f0] g0]| |] eqn:Ed; cbn [abind]; try discriminate. destruct (delayed_one _ _ _ _ _ _ Ed) as [A1 A2]. cbv zeta.
    pose proof (still_settled f f0 (f_index f0) (replace_nth n (r_delayed r) (f_delayed f0)) A1) as A3. destruct (r_next r).
    + intros H. injection H as <- <- <-. split; [exact A3|]. split; [exact A2|discriminate].
    + intros H. destruct (IH _ _ _ _ _ _ H) as (B1 & B2 & B3). rewrite (settled_maxy _ _ A3) in B2. split; [exact (settled_trans _ _ _ A3 B1)|]. split; [exact (adds_trans _ _ _ _ A2 B2)|exact B3].
  - intros H. injection H as <- <- <-. split; [apply settled_refl|]. split; [apply adds_refl|]. intros x. destruct (f_delayed f); [discriminate|]. destruct (_ <=? _); discriminate.
Qed.
Lemma delayeds_two : forall fuel fuel' n f f' g g' a f1 g1 a' f1' g1', rp (g_heap g) (g_heap g') f f' ->
  add_delayed start crun save restore fuel n f g = Done (a, f1, g1) -> add_delayed start crun save restore fuel' n f' g' = Done (a', f1', g1') ->
  a' = a /\ rp (g_heap g1) (g_heap g1') f1 f1'.
Proof.
  induction fuel as [|fuel IH]; intros [|fuel'] n f f' g g' a f1 g1 a' f1' g1' R; cbn [add_delayed]; try discriminate.
  pose proof (F2_nth _ _ _ n (rp_del _ _ _ _ R)) as Hn. destruct (nth_error (f_delayed f) n) as [d|], (nth_error (f_delayed f') n) as [d'|]; try contradiction.
  - destruct (process_delayed start crun save restore f g d) as [[[r f0] g0]| |] eqn:Ed; cbn [abind]; try discriminate.
    destruct (process_delayed start crun save restore f' g' d') as [[[r' f0'] g0']| |] eqn:Ed'; cbn [abind]; try discriminate. cbv zeta.
    destruct (delayed_two _ _ _ _ _ _ _ _ _ _ _ _ R Hn Ed Ed') as ((A1 & A1' & A1'') & A2).
    assert (R2 : rp (g_heap g0) (g_heap g0') (with_todo f0 (f_index f0) (replace_nth n (r_delayed r) (f_delayed f0))) (with_todo f0' (f_index f0') (replace_nth n (r_delayed r') (f_delayed f0')))).
    { rewrite (rp_index _ _ _ _ A2). apply rp_todo; [exact A2|]. apply F2_replace; [apply (rp_del _ _ _ _ A2)|exact A1]. }
    rewrite A1'. destruct (r_next r).
    + intros H H'. injection H as <- <- <-. injection H' as <- <- <-. split; [reflexivity|exact R2].
    + rewrite A1''. apply IH. exact R2.
  - intros H H'. injection H as <- <- <-. injection H' as <- <- <-. split; [|exact R]. pose proof (rp_del _ _ _ _ R) as Hd. rewrite (rp_elems _ _ _ _ R), (rp_index _ _ _ _ R). destruct Hd; reflexivity.
Qed.

Lemma process_one rec f anc g el lst r f1 anc1 g1 : flat1 el -> process start crun save restore rec f anc g el lst = Done (r, (f1, anc1, g1)) ->
  still f f1 /\ adds (f_maxy f) g g1 /\ anc1 = anc /\ exists q, r = inr q.
Proof.
  intros Hf. destruct el as [s e|s id iw ih|s id l|s n gap l]; cbn [process flat1] in *; [| | |contradiction].
  - destruct (leaf f g s (inl e) true true) as [[[q f0] g0]| |] eqn:El; cbn [abind]; try discriminate. destruct (leaf_one _ _ _ _ _ _ _ _ _ El) as [A1 A2]. intros H. injection H as <- <- <- <-. eauto.
  - destruct (process_image f g s _ _ iw ih true true) as [[ok f0] g0] eqn:Ei. destruct (image_one _ _ _ _ _ _ _ _ _ _ _ _ Ei) as (A1 & A2 & _). destruct ok; [intros H; injection H as <- <- <- <-; eauto|].
    destruct (image_ret s iw ih (g_tries g id)); cbn [abind]; try discriminate. intros H. injection H as <- <- <- <-. eauto.
  - destruct (process_group start crun save restore f g s l (g_tries g id)) as [[[q f0] g0]| |] eqn:El; cbn [abind]; try discriminate. destruct (group_one _ _ _ _ _ _ _ _ El) as [A1 A2].
    intros H. injection H as <- <- <- <-. split; [exact A1|]. split; [destruct (r_delayed q); exact A2|]. eauto.
Qed.
Lemma process_two rec rec' f f' anc anc' g g' el lst lst' q f1 anc1 g1 q' f1' anc1' g1' : flat1 el -> rp (g_heap g) (g_heap g') f f' ->
  process start crun save restore rec f anc g el lst = Done (inr q, (f1, anc1, g1)) -> process start crun save restore rec' f' anc' g' el lst' = Done (inr q', (f1', anc1', g1')) ->
  rret (g_heap g1) (g_heap g1') q q' /\ rp (g_heap g1) (g_heap g1') f1 f1'.
Proof.
  intros Hf R. destruct el as [s e|s id iw ih|s id l|s n gap l]; cbn [process flat1] in *; [| | |contradiction].
  - destruct (leaf f g s (inl e) true true) as [[[q0 f0] g0]| |] eqn:El; cbn [abind]; try discriminate. destruct (leaf f' g' s (inl e) true true) as [[[q0' f0'] g0']| |] eqn:El'; cbn [abind]; try discriminate.
    intros H H'. injection H as <- <- <- <-. injection H' as <- <- <- <-. eapply leaf_two; [exact R| |exact El|exact El']. reflexivity.
  - destruct (process_image f g s _ _ iw ih true true) as [[ok f0] g0] eqn:Ei. destruct (process_image f' g' s _ _ iw ih true true) as [[ok' f0'] g0'] eqn:Ei'.
    destruct (image_one _ _ _ _ _ _ _ _ _ _ _ _ Ei) as (_ & _ & Eg). destruct (image_one _ _ _ _ _ _ _ _ _ _ _ _ Ei') as (_ & _ & Eg').
    assert (Hm : rmin (s_min s) (s_min s)) by (destruct (s_min s); cbn; [reflexivity|exact I]).
    destruct (image_two _ _ _ _ _ _ _ _ _ _ _ _ _ _ _ _ _ _ _ _ R Hm Ei Ei') as [-> A2]. rewrite <- Eg, <- Eg' in A2. destruct ok.
    + intros H H'. injection H as <- <- <- <-. injection H' as <- <- <- <-. split; [repeat split|exact A2].
    + destruct (image_ret s iw ih (g_tries g id)) as [q0| |] eqn:Eq; cbn [abind]; try discriminate. destruct (image_ret s iw ih (g_tries g' id)) as [q0'| |] eqn:Eq'; cbn [abind]; try discriminate.
      intros H H'. injection H as <- <- <- <-. injection H' as <- <- <- <-. split; [exact (image_ret_two _ _ _ _ _ _ _ _ _ Eq Eq')|exact A2].
  - destruct (process_group start crun save restore f g s l (g_tries g id)) as [[[q0 f0] g0]| |] eqn:El; cbn [abind]; try discriminate.
    destruct (process_group start crun save restore f' g' s l (g_tries g' id)) as [[[q0' f0'] g0']| |] eqn:El'; cbn [abind]; try discriminate.
    destruct (group_two _ _ _ _ _ _ _ _ _ _ _ _ _ _ R El El') as [A1 A2]. intros H H'. injection H as <- <- <- <-. injection H' as <- <- <- <-.
    destruct (r_delayed q0), (r_delayed q0'); split; assumption.
Qed.
Lemma elements_one rec : forall fuel f anc g a f1 anc1 g1, Forall flat1 (f_elems f) -> add_elements start crun save restore rec fuel f anc g = Done (a, (f1, anc1, g1)) ->
  settled f f1 /\ adds (f_maxy f) g g1 /\ anc1 = anc /\ (forall x, a <> Stop x).
Proof.
  induction fuel as [|fuel IH]; intros f anc g a f1 anc1 g1 Hf; cbn [add_elements]; [discriminate|]. destruct (nth_error (f_elems f) (f_index f)) as [el|] eqn:En.
  - destruct (process start crun save restore rec f anc g el _) as [[r [[f0 anc0] g0]]| |] eqn:Ep; cbn [abind]; try discriminate.
    destruct (process_one _ _ _ _ _ _ _ _ _ _ (proj1 (Forall_forall _ _) Hf el (nth_error_In _ _ En)) Ep) as (A1 & A2 & -> & q & ->). cbv zeta.
    match goal with |- context [with_todo f0 ?i ?d] => pose proof (still_settled f f0 i d A1) as A3; set (f2 := with_todo f0 i d) in * end.
    destruct (r_next q).
    + intros H. injection H as <- <- <- <-. split; [exact A3|]. split; [exact A2|]. split; [reflexivity|discriminate].
    + intros H. assert (Hf2 : Forall flat1 (f_elems f2)) by (destruct A3 as (? & ? & ? & ? & ? & ->); exact Hf). destruct (IH _ _ _ _ _ _ _ Hf2 H) as (B1 & B2 & B3 & B4). rewrite (settled_maxy _ _ A3) in B2. split; [exact (settled_trans _ _ _ A3 B1)|]. split; [exact (adds_trans _ _ _ _ A2 B2)|]. auto.
  - intros H. injection H as <- <- <- <-. split; [apply settled_refl|]. split; [apply adds_refl|]. split; [reflexivity|discriminate].
Qed.
Lemma elements_two rec rec' : forall fuel fuel' f f' anc anc' g g' a f1 anc1 g1 a' f1' anc1' g1', Forall flat1 (f_elems f) -> rp (g_heap g) (g_heap g') f f' ->
  add_elements start crun save restore rec fuel f anc g = Done (a, (f1, anc1, g1)) -> add_elements start crun save restore rec' fuel' f' anc' g' = Done (a', (f1', anc1', g1')) ->
  a' = a /\ rp (g_heap g1) (g_heap g1') f1 f1'.
Proof.
  induction fuel as [|fuel IH]; intros [|fuel'] f f' anc anc' g g' a f1 anc1 g1 a' f1' anc1' g1' Hf R; cbn [add_elements]; try discriminate.
  rewrite (rp_elems _ _ _ _ R), (rp_index _ _ _ _ R). destruct (nth_error (f_elems f) (f_index f)) as [el|] eqn:En.
  - destruct (process start crun save restore rec f anc g el _) as [[r [[f0 anc0] g0]]| |] eqn:Ep; cbn [abind]; try discriminate.
    destruct (process start crun save restore rec' f' anc' g' el _) as [[r' [[f0' anc0'] g0']]| |] eqn:Ep'; cbn [abind]; try discriminate.
    pose proof (proj1 (Forall_forall _ _) Hf el (nth_error_In _ _ En)) as Hel.
    destruct (process_one _ _ _ _ _ _ _ _ _ _ Hel Ep) as (S1 & _ & _ & q & ->). destruct (process_one _ _ _ _ _ _ _ _ _ _ Hel Ep') as (_ & _ & _ & q' & ->). cbv zeta.
    destruct (process_two _ _ _ _ _ _ _ _ _ _ _ _ _ _ _ _ _ _ _ Hel R Ep Ep') as ((A1 & A1' & A1'') & A2). rewrite A1', (rp_index _ _ _ _ A2).
    match goal with |- context [with_todo f0 ?i ?d] => match goal with |- context [with_todo f0' ?i' ?d'] => assert (R2 : rp (g_heap g0) (g_heap g0') (with_todo f0 i d) (with_todo f0' i' d')); [|set (f2 := with_todo f0 i d) in *; set (f2' := with_todo f0' i' d') in *] end end.
    { apply rp_todo; [exact A2|]. apply Forall2_app; [apply (rp_del _ _ _ _ A2)|]. destruct (r_delayed q), (r_delayed q'); cbn [ro] in A1; try contradiction; [constructor; [exact A1|constructor]|constructor]. }
    destruct (r_next q).
    + intros H H'. injection H as <- <- <- <-. injection H' as <- <- <- <-. split; [reflexivity|exact R2].
    + apply IH; [|exact R2]. destruct S1 as (? & ? & ? & ->). exact Hf.
  - intros H H'. injection H as <- <- <- <-. injection H' as <- <- <- <-. split; [reflexivity|exact R].
Qed.

(** *** The ways out of a box *)
(** Boxes of one column around it. *)
Definition quiet (p : part) : Prop := f_cols p = 1 /\ f_column p = 0 /\ f_resetting p = false.
(** Delayed elements whose objects exist. *)
Definition vd (h : list O) (l : list delem) : Prop := Forall2 (rd h h) l l.
Definition vm (h : list O) (m : cmem) : Prop := Forall (fun x => vd h (snd x)) m.
Lemma vd_ext h h1 l : ext h h1 -> vd h l -> vd h1 l.
Proof. intros H. apply rds_ext; exact H. Qed.
Lemma vm_ext h h1 m : ext h h1 -> vm h m -> vm h1 m.
Proof. intros H. apply Forall_impl. intros x. apply vd_ext. exact H. Qed.
(** A box that is left in the middle. *)
Definition left_at (h : list O) (p p' : part) : Prop := exists m, p' = with_section p (f_index p) (f_delayed p) m /\ vm h m.
Lemma next_quiet n h : forall anc p cm, quiet p -> Forall quiet anc -> vm h (below cm) -> vd h (f_delayed p) -> Forall (fun q => vd h (f_delayed q)) anc ->
  exists p' anc', next_section n cm (p :: anc) = (SInterrupt, p' :: anc') /\ left_at h p p' /\ Forall2 (left_at h) anc anc'.
Proof.
  induction anc as [|q anc IH]; intros p cm (Q1 & Q2 & Q3) Ha Hm Hp Hv.
  - cbn [next_section]. rewrite Q1, Q2, Q3. cbn [Nat.eqb]. eexists _, []. split; [reflexivity|]. split; [eexists; split; [reflexivity|exact Hm]|constructor].
  - inversion Ha as [|a b Hq Hr]; subst. inversion Hv as [|a b Hvq Hvr]; subst.
    assert (Hm2 : vm h (below cm ++ [(f_index p, f_delayed p)])) by (apply Forall_app; split; [exact Hm|constructor; [exact Hp|constructor]]).
    destruct (IH q (Some (below cm ++ [(f_index p, f_delayed p)])) Hq Hr Hm2 Hvq Hvr) as (q' & anc' & I1 & I2 & I3).
    rewrite next_section_cons. rewrite Q1, Q2, Q3. cbn [Nat.eqb]. cbv zeta. rewrite I1. eexists _, (q' :: anc'). split; [reflexivity|]. split; [eexists; split; [reflexivity|exact Hm]|]. constructor; assumption.
Qed.
Lemma next_last n h f anc : Forall quiet anc -> vd h (f_delayed f) -> Forall (fun q => vd h (f_delayed q)) anc -> Datatypes.S (f_column f) = f_cols f -> f_resetting f = false ->
  exists f' anc', next_section n None (f :: anc) = (SInterrupt, f' :: anc') /\ left_at h f f' /\ Forall2 (left_at h) anc anc'.
Proof.
  intros Ha Hf Hv H1 H2. rewrite next_section_cons. rewrite H1, Nat.eqb_refl, H2. cbv zeta. destruct anc as [|q anc].
  - eexists _, []. split; [reflexivity|]. split; [eexists; split; [reflexivity|constructor]|constructor].
  - inversion Ha as [|a b Hq Hr]; subst. inversion Hv as [|a b Hvq Hvr]; subst.
    assert (Hm2 : vm h (below (Some (below None ++ [(f_index f, f_delayed f)])))) by (cbn [below app]; constructor; [exact Hf|constructor]).
    destruct (next_quiet n h anc q (Some (below None ++ [(f_index f, f_delayed f)])) Hq Hr Hm2 Hvq Hvr) as (q' & anc' & I1 & I2 & I3). rewrite I1.
    eexists _, (q' :: anc'). split; [reflexivity|]. split; [eexists; split; [reflexivity|constructor]|]. constructor; assumption.
Qed.
Lemma last_child_quiet : forall anc f, Forall quiet anc -> last_child f anc = false.
Proof. induction anc as [|p anc IH]; intros f H; cbn [last_child]; [reflexivity|]. inversion H as [|a b (_ & _ & H1) H2]; subst. rewrite H1, (IH p H2). apply Bool.andb_false_r. Qed.
Lemma start_quiet anc f : Forall quiet anc -> start_resetting (f :: anc) = with_reset f true (f_resetting f) (f_maxy f) (f_difflast f) (f_diff f) (f_forward f) :: anc.
Proof. intros H. destruct anc as [|p anc]; [reflexivity|]. inversion H as [|a b (H1 & _) _]; subst. cbn [start_resetting]. rewrite H1. cbn [Nat.ltb Nat.leb]. rewrite Bool.andb_false_r. reflexivity. Qed.

(** *** A pass that ends well: everything is put before the last column ends *)
Notation dels := (add_delayed start crun save restore).
Notation els := (add_elements start crun save restore).
Inductive good : part -> glob -> Prop :=
| good_col1 f g fuel f1 g1 : dels fuel 0 f g = Done (Next, f1, g1) -> Datatypes.S (f_column f1) <> f_cols f1 -> good (with_column f1 (Datatypes.S (f_column f1))) g1 -> good f g
| good_col2 f g fuel f1 g1 rec fuel2 anc f2 anc2 g2 : dels fuel 0 f g = Done (Goon, f1, g1) -> els rec fuel2 f1 anc g1 = Done (Next, (f2, anc2, g2)) ->
    Datatypes.S (f_column f2) <> f_cols f2 -> good (with_column f2 (Datatypes.S (f_column f2))) g2 -> good f g
| good_more f g fuel f1 g1 rec fuel2 anc f2 anc2 g2 : dels fuel 0 f g = Done (Goon, f1, g1) -> els rec fuel2 f1 anc g1 = Done (Goon, (f2, anc2, g2)) -> f_delayed f2 <> [] -> good f2 g2 -> good f g
| good_end f g fuel f1 g1 rec fuel2 anc f2 anc2 g2 : dels fuel 0 f g = Done (Goon, f1, g1) -> els rec fuel2 f1 anc g1 = Done (Goon, (f2, anc2, g2)) -> f_delayed f2 = [] -> good f g.

(** The state of a related pass that is not at its end. *)
Definition replay (h : list O) (f : part) : Prop := exists fl gl, good fl gl /\ Forall flat1 (f_elems fl) /\ rp (g_heap gl) h fl f.
Lemma replay_col1 fuel f g f1 g1 : replay (g_heap g) f -> dels fuel 0 f g = Done (Next, f1, g1) ->
  Datatypes.S (f_column f1) <> f_cols f1 /\ replay (g_heap g1) (with_column f1 (Datatypes.S (f_column f1))).
Proof.
  intros (fl & gl & Hg & Hf & R) E1. destruct Hg as [fl gl fu a ga H1 H2 H3|fl gl fu a ga rec fu2 anc b ancb gb H1 H2 H3 H4|fl gl fu a ga rec fu2 anc b ancb gb H1 H2 H3 H4|fl gl fu a ga rec fu2 anc b ancb gb H1 H2 H3].
  - destruct (delayeds_two _ _ _ _ _ _ _ _ _ _ _ _ _ R H1 E1) as [_ A]. rewrite (rp_column _ _ _ _ A), (rp_cols _ _ _ _ A). split; [exact H2|].
    exists (with_column a (Datatypes.S (f_column a))), ga. split; [exact H3|]. destruct (delayeds_one _ _ _ _ _ _ _ H1) as ((? & ? & ? & ? & ? & ->) & _). split; [exact Hf|]. apply rp_next. exact A.
  - destruct (delayeds_two _ _ _ _ _ _ _ _ _ _ _ _ _ R H1 E1) as [A _]. discriminate.
  - destruct (delayeds_two _ _ _ _ _ _ _ _ _ _ _ _ _ R H1 E1) as [A _]. discriminate.
  - destruct (delayeds_two _ _ _ _ _ _ _ _ _ _ _ _ _ R H1 E1) as [A _]. discriminate.
Qed.
Lemma replay_col2 fuel f g f1 g1 rec fuel2 anc f2 anc2 g2 : replay (g_heap g) f -> dels fuel 0 f g = Done (Goon, f1, g1) -> els rec fuel2 f1 anc g1 = Done (Next, (f2, anc2, g2)) ->
  Datatypes.S (f_column f2) <> f_cols f2 /\ replay (g_heap g2) (with_column f2 (Datatypes.S (f_column f2))).
Proof.
  intros (fl & gl & Hg & Hf & R) E1 E2. assert (Hfa : forall fu x a ga, dels fu 0 fl gl = Done (x, a, ga) -> Forall flat1 (f_elems a)) by (intros fu x a ga Hx; destruct (delayeds_one _ _ _ _ _ _ _ Hx) as ((? & ? & ? & ? & ? & ->) & _); exact Hf).
  destruct Hg as [fl gl fu a ga H1 H2 H3|fl gl fu a ga rec' fu2 anc' b ancb gb H1 H2 H3 H4|fl gl fu a ga rec' fu2 anc' b ancb gb H1 H2 H3 H4|fl gl fu a ga rec' fu2 anc' b ancb gb H1 H2 H3];
    destruct (delayeds_two _ _ _ _ _ _ _ _ _ _ _ _ _ R H1 E1) as [A1 A]; try discriminate;
    destruct (elements_two _ _ _ _ _ _ _ _ _ _ _ _ _ _ _ _ _ _ (Hfa _ _ _ _ H1) A H2 E2) as [B1 B]; try discriminate.
  rewrite (rp_column _ _ _ _ B), (rp_cols _ _ _ _ B). split; [exact H3|]. exists (with_column b (Datatypes.S (f_column b))), gb. split; [exact H4|].
  destruct (elements_one _ _ _ _ _ _ _ _ _ (Hfa _ _ _ _ H1) H2) as ((? & ? & ? & ? & ? & ->) & _). split; [exact (Hfa _ _ _ _ H1)|]. apply rp_next. exact B.
Qed.
Lemma replay_more fuel f g f1 g1 rec fuel2 anc f2 anc2 g2 : replay (g_heap g) f -> dels fuel 0 f g = Done (Goon, f1, g1) -> els rec fuel2 f1 anc g1 = Done (Goon, (f2, anc2, g2)) ->
  f_delayed f2 <> [] -> replay (g_heap g2) f2.
Proof.
  intros (fl & gl & Hg & Hf & R) E1 E2 Hd. assert (Hfa : forall fu x a ga, dels fu 0 fl gl = Done (x, a, ga) -> Forall flat1 (f_elems a)) by (intros fu x a ga Hx; destruct (delayeds_one _ _ _ _ _ _ _ Hx) as ((? & ? & ? & ? & ? & ->) & _); exact Hf).
  destruct Hg as [fl gl fu a ga H1 H2 H3|fl gl fu a ga rec' fu2 anc' b ancb gb H1 H2 H3 H4|fl gl fu a ga rec' fu2 anc' b ancb gb H1 H2 H3 H4|fl gl fu a ga rec' fu2 anc' b ancb gb H1 H2 H3];
    destruct (delayeds_two _ _ _ _ _ _ _ _ _ _ _ _ _ R H1 E1) as [A1 A]; try discriminate;
    destruct (elements_two _ _ _ _ _ _ _ _ _ _ _ _ _ _ _ _ _ _ (Hfa _ _ _ _ H1) A H2 E2) as [B1 B]; try discriminate.
  - exists b, gb. split; [exact H4|]. destruct (elements_one _ _ _ _ _ _ _ _ _ (Hfa _ _ _ _ H1) H2) as ((? & ? & ? & ? & ? & ->) & _). split; [exact (Hfa _ _ _ _ H1)|]. exact B.
  - pose proof (rp_del _ _ _ _ B) as Hx. rewrite H3 in Hx. inversion Hx; congruence.
Qed.

(** *** The passes of a box *)
Section Box.
Variables (f0 : part) (g0 : glob) (anc : list part).
Hypothesis anc_quiet : Forall quiet anc.
Hypothesis f0_flat : Forall flat1 (f_elems f0).
Hypothesis f0_start : f_index f0 = f_sindex f0 /\ f_delayed f0 = f_sdelayed f0 /\ f_y f0 = f_miny f0 /\ f_column f0 = 0 /\ f_starting f0 = true.
Hypothesis f0_calm : f_will f0 = false /\ f_resetting f0 = false /\ f_difflast f0 = None /\ f_diff f0 = None /\ f_forward f0 = false.
Hypothesis f0_room : (f_maxy f0 <= f_miny f0)%Q.
Hypothesis f0_valid : vd (g_heap g0) (f_sdelayed f0) /\ vm (g_heap g0) (f_memory f0).
Hypothesis anc_valid : Forall (fun p => vd (g_heap g0) (f_delayed p)) anc.
Notation M := (f_maxy f0).

Definition frame (f : part) : Prop :=
  f_elems f = f_elems f0 /\ f_cols f = f_cols f0 /\ f_minx f = f_minx f0 /\ f_miny f = f_miny f0 /\ f_gap f = f_gap f0 /\ f_colw f = f_colw f0 /\ f_sindex f = f_sindex f0 /\ f_sdelayed f = f_sdelayed f0 /\ f_memory f = f_memory f0 /\ f_partial f = f_partial f0.
Lemma frame_settled f f1 : settled f f1 -> frame f -> frame f1.
Proof. intros (? & ? & ? & ? & ? & ->) H. exact H. Qed.
(** The first pass. *)
Record first (f : part) (g : glob) : Prop := {
  i_frame : frame f; i_calm : f_will f = false /\ f_resetting f = false /\ f_difflast f = None /\ f_diff f = None /\ f_forward f = false; i_maxy : f_maxy f = M;
  i_ext : ext (g_heap g0) (g_heap g); i_low : Forall (low M) (g_parts g); i_valid : rp (g_heap g) (g_heap g) f f; i_good : good f g -> good f0 g0 }.
(** Another one: the bottom is a number of steps above the first one, and with no
    step the pass goes like the first one. *)
Record later (f : part) (g : glob) : Prop := {
  j_frame : frame f; j_reset : f_resetting f = true; j_ext : ext (g_heap g0) (g_heap g); j_low : Forall (low M) (g_parts g); j_good : good f0 g0;
  j_step : exists d k, f_diff f = Some d /\ (0 <= d)%Q /\ (0 <= k)%Z /\ (f_maxy f == M + inject_Z k * d)%Q /\ (k = 0%Z -> replay (g_heap g) f) }.
Lemma later_above f g : later f g -> (M <= f_maxy f)%Q.
Proof. intros []. destruct j_step0 as (d & k & _ & Hd & Hk & -> & _). rewrite Zle_Qle in Hk. change (inject_Z 0) with 0%Q in Hk. nra. Qed.
Lemma low_mono (b b' : Q) l : (b <= b')%Q -> Forall (low b') l -> Forall (low b) l.
Proof. intros Hb. apply Forall_impl. intros p H Hp. specialize (H Hp). lra. Qed.
Lemma adds_mono b b' g g1 : (b <= b')%Q -> adds b' g g1 -> adds b g g1.
Proof. intros Hb [(new & A1 & A2) A3]. split; [exists new; split; [exact A1|apply (low_mono _ b'); assumption]|exact A3]. Qed.

Lemma restart h f : ext (g_heap g0) h -> frame f -> f_index f = f_sindex f -> f_delayed f = f_sdelayed f -> f_y f = f_miny f -> f_column f = 0 -> f_starting f = true -> (f_maxy f == M)%Q ->
  rp (g_heap g0) h f0 f.
Proof.
  intros Hx (F1 & F2 & F3 & F4 & F5 & F6 & F7 & F8 & F9 & F10) H1 H2 H3 H4 H5 H6. destruct f0_start as (A1 & A2 & A3 & A4 & A5). constructor; try congruence.
  rewrite H2, F8, A2. eapply rds_ext; [apply ext_refl|exact Hx|apply f0_valid].
Qed.
(** The next bottom. *)
Lemma reset_later f g go f1 g1 d k :
  frame f -> ext (g_heap g0) (g_heap g) -> Forall (low M) (g_parts g) -> good f0 g0 -> f_diff f = Some d -> (0 <= d)%Q -> (0 <= k)%Z -> (f_maxy f == M + inject_Z k * d)%Q ->
  (f_forward f = true -> (1 <= k)%Z) -> reset f g = (go, f1, g1) -> if go then later f1 g1 else f1 = f /\ g1 = g.
Proof.
  intros HF Hx Hl Hg Ed Hd Hk Hm Hfw. unfold reset. rewrite Ed. cbv zeta. match goal with |- context [?c && negb (f_forward f)] => set (stop := c) end.
  assert (Hgen : forall maxy dl d' k', (0 <= d')%Q -> (0 <= k')%Z -> (maxy == M + inject_Z k' * d')%Q ->
    later (with_todo (with_reset (moved f (f_minx f) (f_miny f) (f_pindex f)) false true maxy dl (Some d') (f_forward f)) (f_sindex f) (f_sdelayed f)) (with_parts g (firstn (f_pindex f) (g_parts g)))).
  { intros maxy dl d' k' Hd' Hk' Hm'. constructor.
    - exact HF.
    - reflexivity.
    - exact Hx.
    - cbn [with_parts g_parts]. apply Forall_forall. intros p Hi. apply (proj1 (Forall_forall _ _) Hl). rewrite <- (firstn_skipn (f_pindex f) (g_parts g)). apply in_or_app. left. exact Hi.
    - exact Hg.
    - exists d', k'. split; [reflexivity|]. split; [exact Hd'|]. split; [exact Hk'|]. split; [exact Hm'|]. intros ->. exists f0, g0. split; [exact Hg|]. split; [exact f0_flat|].
      apply restart; try reflexivity; [exact Hx|exact HF|]. cbn [with_todo with_reset f_maxy]. rewrite Hm'. change (inject_Z 0) with 0%Q. lra. }
  destruct stop; cbn [andb].
  - destruct (f_forward f) eqn:Ef; cbn [negb].
    + intros H. injection H as <- <- <-. apply (Hgen _ _ _ (k - 1)%Z); [assert (Hz : (d * 2 / 2 == d)%Q) by field; rewrite Hz; exact Hd|specialize (Hfw eq_refl); lia|].
      rewrite Hm. replace (k - 1)%Z with (k + -1)%Z by lia. rewrite inject_Z_plus. change (inject_Z (-1)) with (-(1))%Q. field.
    + intros H. injection H as <- <- <-. auto.
  - destruct (f_forward f) eqn:Ef; intros H; injection H as <- <- <-.
    + apply (Hgen _ _ _ (2 * k + -1)%Z); [apply Qle_shift_div_l; lra|specialize (Hfw eq_refl); lia|]. rewrite Hm, inject_Z_plus, inject_Z_mult. change (inject_Z (-1)) with (-(1))%Q. change (inject_Z 2) with 2%Q. field.
    + apply (Hgen _ _ _ (2 * k + 1)%Z); [apply Qle_shift_div_l; lra|lia|]. rewrite Hm, inject_Z_plus, inject_Z_mult. change (inject_Z 1) with 1%Q. change (inject_Z 2) with 2%Q. field.
Qed.
Lemma reset_first f g go f1 g1 : first f g -> good f0 g0 ->
  reset (with_reset f true (f_resetting f) (f_maxy f) (f_difflast f) (f_diff f) (f_forward f)) g = (go, f1, g1) -> later f1 g1.
Proof.
  intros [HF (C1 & C2 & C3 & C4 & C5) Hm Hx Hl _ _] Hg. unfold reset. cbn [with_reset f_difflast f_diff f_forward f_miny f_maxy f_minx f_pindex f_sindex f_sdelayed]. rewrite C3, C4, C5. cbn [andb]. cbv zeta.
  intros H. injection H as <- <- <-. destruct HF as (F1 & F2 & F3 & F4 & F5 & F6 & F7 & F8 & F9 & F10). constructor.
  - repeat split; assumption.
  - reflexivity.
  - exact Hx.
  - cbn [with_parts g_parts]. apply Forall_forall. intros p Hi. apply (proj1 (Forall_forall _ _) Hl). rewrite <- (firstn_skipn (f_pindex f) (g_parts g)). apply in_or_app. left. exact Hi.
  - exact Hg.
  - eexists _, 1%Z. split; [reflexivity|]. rewrite Hm, F4. split; [apply Qle_shift_div_l; lra|]. split; [lia|]. split; [cbn [with_todo with_reset f_maxy]; change (inject_Z 1) with 1%Q; ring|discriminate].
Qed.
Definition ends (act : option action) (f' : part) (anc' : list part) (g' : glob) : Prop :=
  Forall (low M) (g_parts g') /\ ext (g_heap g0) (g_heap g') /\ f_elems f' = f_elems f0 /\ f_cols f' = f_cols f0 /\ f_partial f' = f_partial f0 /\
  vd (g_heap g') (f_sdelayed f') /\ vm (g_heap g') (f_memory f') /\
  match act with None => anc' = anc | Some Interrupt => Forall2 (left_at (g_heap g')) anc anc' | _ => False end.
Lemma frame_ends f g : frame f -> Forall (low M) (g_parts g) -> ext (g_heap g0) (g_heap g) -> ends None f anc g.
Proof.
  intros (F1 & F2 & F3 & F4 & F5 & F6 & F7 & F8 & F9 & F10) Hl Hx. split; [exact Hl|]. split; [exact Hx|]. split; [exact F1|]. split; [exact F2|]. split; [exact F10|]. rewrite F8, F9.
  split; [eapply vd_ext; [exact Hx|apply f0_valid]|]. split; [eapply vm_ext; [exact Hx|apply f0_valid]|reflexivity].
Qed.

Lemma later_loop rec : forall fuel f g act f' anc' g', later f g -> loop start crun save restore rec fuel f anc g = Done (act, (f', anc', g')) -> ends act f' anc' g'.
Proof.
  induction fuel as [|fuel IH]; intros f g act f' anc' g' J; cbn [loop]; [discriminate|].
  pose proof (later_above f g J) as Hab. destruct J as [J1 J2 J3 J4 J5 (d & k & Jd & Jd0 & Jk & Jm & Jr)].
  destruct (dels fuel 0 f g) as [[[a1 f1] g1]| |] eqn:E1; cbn [abind]; try discriminate. destruct (delayeds_one _ _ _ _ _ _ _ E1) as (S1 & A1 & N1).
  assert (X1 : frame f1 /\ f_resetting f1 = true /\ f_diff f1 = Some d /\ (f_maxy f1 == M + inject_Z k * d)%Q /\ (M <= f_maxy f1)%Q) by (pose proof (frame_settled _ _ S1 J1); destruct S1 as (? & ? & ? & ? & ? & ->); auto).
  destruct X1 as (X1 & X2 & X3 & X4 & X5). pose proof (adds_mono _ _ _ _ Hab A1) as A1'.
  pose proof (adds_low _ _ _ A1' J4) as L1. assert (Y1 : ext (g_heap g0) (g_heap g1)) by (eapply ext_trans; [exact J3|apply A1]).
  (* the end of a column *)
  assert (Hcol : forall fx gx, frame fx -> f_resetting fx = true -> f_diff fx = Some d -> (f_maxy fx == M + inject_Z k * d)%Q -> ext (g_heap g0) (g_heap gx) -> Forall (low M) (g_parts gx) ->
     (k = 0%Z -> Datatypes.S (f_column fx) <> f_cols fx /\ replay (g_heap gx) (with_column fx (Datatypes.S (f_column fx)))) ->
     exists fy gy, after Next fx anc gx = Done (Retry, (fy, anc, gy)) /\ later fy gy).
  { intros fx gx B1 B2 B3 B4 B5 B6 B7. cbn [after]. rewrite next_section_cons. destruct (Nat.eqb_spec (Datatypes.S (f_column fx)) (f_cols fx)) as [Ec|Ec].
    - rewrite B2. assert (Hk1 : (1 <= k)%Z) by (destruct (Z.eq_dec k 0) as [K0|K0]; [destruct (B7 K0) as [B8 _]; contradiction|lia]).
      set (fb := with_reset fx _ _ _ _ _ _). unfold if_resetting. replace (f_will fb || f_resetting fb) with true by (cbn [fb with_reset f_will f_resetting]; rewrite Bool.orb_true_r; reflexivity).
      destruct (reset fb gx) as [[go fr] gr] eqn:Er.
      assert (Hgo : go = true).
      { unfold reset in Er. cbn [fb with_reset f_forward negb] in Er. rewrite Bool.andb_false_r in Er. match type of Er with match ?e with _ => _ end = _ => destruct e as [[? ?] ?] end. injection Er as <- _ _. reflexivity. }
      pose proof (reset_later fb gx go fr gr d k B1 B5 B6 J5 B3 Jd0 Jk B4 (fun _ => Hk1) Er) as Hr. rewrite Hgo in *. eexists _, _. split; [reflexivity|exact Hr].
    - eexists _, _. split; [reflexivity|]. constructor; try assumption. exists d, k. split; [exact B3|]. split; [exact Jd0|]. split; [exact Jk|]. split; [exact B4|]. intros K0. apply (B7 K0). }
  destruct a1 as [x| |]; [destruct (N1 x eq_refl)| |].
  - destruct (Hcol f1 g1 X1 X2 X3 X4 Y1 L1) as (fy & gy & -> & J'); [intros K0; apply (replay_col1 fuel f g); auto|]. cbn [abind]. apply IH. exact J'.
  - cbn [after abind]. destruct (els rec fuel f1 anc g1) as [[a2 [[f3 anc3] g3]]| |] eqn:E3; cbn [abind]; try discriminate.
    assert (Fl : Forall flat1 (f_elems f1)) by (destruct X1 as (-> & _); exact f0_flat).
    destruct (elements_one _ _ _ _ _ _ _ _ _ Fl E3) as (S3 & A3 & -> & N3).
    assert (X3' : frame f3 /\ f_resetting f3 = true /\ f_diff f3 = Some d /\ (f_maxy f3 == M + inject_Z k * d)%Q) by (pose proof (frame_settled _ _ S3 X1); destruct S3 as (? & ? & ? & ? & ? & ->); auto).
    destruct X3' as (Z1 & Z2 & Z3 & Z4). pose proof (adds_mono _ _ _ _ X5 A3) as A3'. pose proof (adds_low _ _ _ A3' L1) as L3.
    assert (Y3 : ext (g_heap g0) (g_heap g3)) by (eapply ext_trans; [exact Y1|apply A3]).
    destruct a2 as [x| |]; [destruct (N3 x eq_refl)| |].
    + destruct (Hcol f3 g3 Z1 Z2 Z3 Z4 Y3 L3) as (fy & gy & -> & J'); [intros K0; apply (replay_col2 fuel f g f1 g1 rec fuel anc f3 anc g3); auto|]. cbn [abind]. apply IH. exact J'.
    + cbn [after abind]. destruct (f_delayed f3) as [|d0 ds] eqn:Edl.
      * rewrite Z2. cbn [negb andb]. cbv zeta. set (f5 := with_reset f3 _ _ _ _ _ _). destruct (reset f5 g3) as [[go f6] g6] eqn:Er.
        pose proof (reset_later f5 g3 go f6 g6 d k Z1 Y3 L3 J5 Z3 Jd0 Jk Z4 ltac:(discriminate) Er) as Hr. destruct go.
        -- apply IH. exact Hr.
        -- destruct Hr as [-> ->]. intros H. injection H as <- <- <- <-. apply frame_ends; assumption.
      * apply IH. constructor; try assumption. exists d, k. split; [exact Z3|]. split; [exact Jd0|]. split; [exact Jk|]. split; [exact Z4|]. intros K0. apply (replay_more fuel f g f1 g1 rec fuel anc f3 anc g3); auto. rewrite Edl. discriminate.
Qed.

Lemma first_loop rec : forall fuel f g act f' anc' g', first f g -> loop start crun save restore rec fuel f anc g = Done (act, (f', anc', g')) -> ends act f' anc' g'.
Proof.
  induction fuel as [|fuel IH]; intros f g act f' anc' g' I0; cbn [loop]; [discriminate|].
  destruct I0 as [I1 (C1 & C2 & C3 & C4 & C5) I3 I4 I5 I6 I7].
  destruct (dels fuel 0 f g) as [[[a1 f1] g1]| |] eqn:E1; cbn [abind]; try discriminate. destruct (delayeds_one _ _ _ _ _ _ _ E1) as (S1 & A1 & N1).
  assert (X1 : frame f1 /\ (f_will f1 = false /\ f_resetting f1 = false /\ f_difflast f1 = None /\ f_diff f1 = None /\ f_forward f1 = false) /\ f_maxy f1 = M)
    by (pose proof (frame_settled _ _ S1 I1); destruct S1 as (? & ? & ? & ? & ? & ->); auto 10).
  destruct X1 as (X1 & X2 & X3). rewrite I3 in A1. pose proof (adds_low _ _ _ A1 I5) as L1. assert (Y1 : ext (g_heap g0) (g_heap g1)) by (eapply ext_trans; [exact I4|apply A1]).
  destruct (delayeds_two _ _ _ _ _ _ _ _ _ _ _ _ _ I6 E1 E1) as [_ V1].
  assert (Hcol : forall fx gx sx fy ancy gy, frame fx -> (f_will fx = false /\ f_resetting fx = false /\ f_difflast fx = None /\ f_diff fx = None /\ f_forward fx = false) -> f_maxy fx = M ->
     ext (g_heap g0) (g_heap gx) -> Forall (low M) (g_parts gx) -> rp (g_heap gx) (g_heap gx) fx fx ->
     (Datatypes.S (f_column fx) <> f_cols fx -> good (with_column fx (Datatypes.S (f_column fx))) gx -> good f0 g0) ->
     after Next fx anc gx = Done (sx, (fy, ancy, gy)) ->
     match sx with Retry => first fy gy /\ ancy = anc | Return a => ends (Some a) fy ancy gy | Proceed => False end).
  { intros fx gx sx fy ancy gy B1 B2 B3 B4 B5 B6 B7. cbn [after]. destruct (Nat.eq_dec (Datatypes.S (f_column fx)) (f_cols fx)) as [Ec|Ec].
    - assert (Hav : Forall (fun q => vd (g_heap gx) (f_delayed q)) anc) by (revert anc_valid; apply Forall_impl; intros q; apply vd_ext; exact B4).
      destruct (next_last (length (g_parts gx)) (g_heap gx) fx anc anc_quiet (rp_del _ _ _ _ B6) Hav Ec (proj1 (proj2 B2))) as (fl & ancl & -> & (m & -> & Hm) & Hl). intros H. injection H as <- <- <- <-.
      destruct B1 as (F1 & F2 & F3 & F4 & F5 & F6 & F7 & F8 & F9 & F10). split; [exact B5|]. split; [exact B4|]. split; [exact F1|]. split; [exact F2|]. split; [exact F10|]. split; [apply (rp_del _ _ _ _ B6)|]. split; [exact Hm|exact Hl].
    - rewrite next_section_cons. destruct (Nat.eqb_spec (Datatypes.S (f_column fx)) (f_cols fx)) as [Ec'|_]; [contradiction|]. intros H. injection H as <- <- <- <-. split; [|reflexivity].
      constructor; try assumption; [apply rp_next; exact B6|]. intros Hg. apply B7; assumption. }
  destruct a1 as [x| |]; [destruct (N1 x eq_refl)| |].
  - destruct (after Next f1 anc g1) as [[s1 [[f2 anc2] g2]]| |] eqn:E2; cbn [abind]; try discriminate.
    pose proof (Hcol f1 g1 s1 f2 anc2 g2 X1 X2 X3 Y1 L1 V1 (fun Hc Hg => I7 (good_col1 f g fuel f1 g1 E1 Hc Hg)) E2) as Hs. destruct s1 as [a| |]; [|destruct Hs as [Hs ->]; apply IH; exact Hs|contradiction].
    intros H. injection H as <- <- <- <-. exact Hs.
  - cbn [after abind]. destruct (els rec fuel f1 anc g1) as [[a2 [[f3 anc3] g3]]| |] eqn:E3; cbn [abind]; try discriminate.
    assert (Fl : Forall flat1 (f_elems f1)) by (destruct X1 as (-> & _); exact f0_flat).
    destruct (elements_one _ _ _ _ _ _ _ _ _ Fl E3) as (S3 & A3 & -> & N3). destruct (elements_two _ _ _ _ _ _ _ _ _ _ _ _ _ _ _ _ _ _ Fl V1 E3 E3) as [_ V3].
    assert (X4 : frame f3 /\ (f_will f3 = false /\ f_resetting f3 = false /\ f_difflast f3 = None /\ f_diff f3 = None /\ f_forward f3 = false) /\ f_maxy f3 = M)
      by (pose proof (frame_settled _ _ S3 X1); destruct S3 as (? & ? & ? & ? & ? & ->); auto 10).
    destruct X4 as (Z1 & Z2 & Z3). rewrite X3 in A3. pose proof (adds_low _ _ _ A3 L1) as L3. assert (Y3 : ext (g_heap g0) (g_heap g3)) by (eapply ext_trans; [exact Y1|apply A3]).
    destruct a2 as [x| |]; [destruct (N3 x eq_refl)| |].
    + destruct (after Next f3 anc g3) as [[s1 [[f2 anc2] g2]]| |] eqn:E2; cbn [abind]; try discriminate.
      pose proof (Hcol f3 g3 s1 f2 anc2 g2 Z1 Z2 Z3 Y3 L3 V3 (fun Hc Hg => I7 (good_col2 f g fuel f1 g1 rec fuel anc f3 anc g3 E1 E3 Hc Hg)) E2) as Hs. destruct s1 as [a| |]; [|destruct Hs as [Hs ->]; apply IH; exact Hs|contradiction].
      intros H. injection H as <- <- <- <-. exact Hs.
    + cbn [after abind]. destruct (f_delayed f3) as [|d0 ds] eqn:Edl.
      * destruct Z2 as (D1 & D2 & D3 & D4 & D5). rewrite D2. cbn [negb andb].
        assert (Hend : ends None f3 anc g3) by (apply frame_ends; assumption).
        destruct (1 <? f_cols f3); [|intros H; injection H as <- <- <- <-; exact Hend].
        rewrite (last_child_quiet anc f3 anc_quiet), (start_quiet anc f3 anc_quiet). cbn [with_reset f_will].
        match goal with |- context [reset ?a g3] => set (f5 := a) end. destruct (reset f5 g3) as [[go f6] g6] eqn:Er. apply later_loop.
        apply (reset_first f3 g3 go f6 g6); [|exact (I7 (good_end f g fuel f1 g1 rec fuel anc f3 anc g3 E1 E3 Edl))|exact Er].
        constructor; try assumption; [auto 10|]. intros _. exact (I7 (good_end f g fuel f1 g1 rec fuel anc f3 anc g3 E1 E3 Edl)).
      * apply IH. constructor; try assumption. intros Hg. apply I7. eapply good_more; [exact E1|exact E3| |exact Hg]. rewrite Edl. discriminate.
Qed.
Lemma box_low rec fuel act f' anc' g' : Forall (low M) (g_parts g0) -> loop start crun save restore rec fuel f0 anc g0 = Done (act, (f', anc', g')) -> ends act f' anc' g'.
Proof.
  intros Hl. apply first_loop. constructor; auto; [repeat split|apply ext_refl|]. apply restart; auto; try apply f0_start; [apply ext_refl|repeat split|reflexivity].
Qed.
End Box.
End Balance.
