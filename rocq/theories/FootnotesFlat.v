(** Footnotes in boxes of paragraphs: the second pass of a page, with less
    height, shows a beginning of what the first one does. *)
From Coq Require Import String QArith ZArith Lia Lqa.
From Verif Require Import Py PyStr Parser StreamProofs Ranges Base Table Content Footnotes FootnotesProofs.
Open Scope list_scope.
Open Scope nat_scope.

Lemma prefix_refl {A} (l : list A) : prefix l l.
Proof. exists []. rewrite app_nil_r. reflexivity. Qed.
Lemma prefix_more {A} (l m r : list A) : prefix l m -> prefix l (m ++ r).
Proof. intros [t ->]. exists (t ++ r). rewrite app_assoc. reflexivity. Qed.
Lemma prefix_same {A} (h l m : list A) : prefix l m -> prefix (h ++ l) (h ++ m).
Proof. intros [t ->]. exists t. rewrite app_assoc. reflexivity. Qed.
Lemma qmax_mono a b : (a <= b)%Q -> (qmax 0 a <= qmax 0 b)%Q.
Proof.
  unfold qmax. intros H.
  destruct (Qle_bool a 0) eqn:Ea, (Qle_bool b 0) eqn:Eb; repeat match goal with
    | H : Qle_bool _ _ = true |- _ => apply Qle_bool_iff in H
    | H : Qle_bool ?u ?v = false |- _ => assert (~ (u <= v)%Q) by (intros X; apply Qle_bool_iff in X; congruence); clear H end; lra.
Qed.

Section Flat.
Context {E O S P L : Type}.
Variable start : E -> res O.
Variable save : O -> S.
Variable restore : O -> S -> O.
Variable ids_of : P -> list (str * nat).
Notation elem := (@elem E).
Notation delem := (@delem E S).
Notation part := (@part E S).
Notation glob := (@glob O P L).
Notation placed := (@placed O P).
Notation crunner := (O -> Q -> Q -> Q -> Q -> res (O * Q * bool * list P * list L)).

(** The marks of parts. *)
Definition part_marks (ps : list P) : list str := shown_marks (flat_map ids_of ps).
Definition placed_ids (ps : list placed) : list (str * nat) :=
  flat_map (fun p => match p with PlLeaf _ _ _ _ _ _ _ _ _ ps => flat_map ids_of ps | PlImage _ _ _ _ _ _ _ => [] end) ps.
Definition placed_marks (ps : list placed) : list str := shown_marks (placed_ids ps).
Lemma placed_marks_app a b : placed_marks (a ++ b) = placed_marks a ++ placed_marks b.
Proof. unfold placed_marks, placed_ids, shown_marks. rewrite flat_map_app, filter_app, map_app. reflexivity. Qed.
Lemma placed_marks_one s x y w h b a ht fin ps : placed_marks [PlLeaf s x y w h b a ht fin ps] = part_marks ps.
Proof. unfold placed_marks, placed_ids, part_marks. cbn [flat_map]. rewrite app_nil_r. reflexivity. Qed.

Definition leafy (e : elem) : Prop := match e with Leaf _ _ => True | _ => False end.
Definition few (d : list delem) : Prop := d = [] \/ exists s r v, d = [DLeaf s r v].
Record tp (f : part) : Prop := { tp_els : Forall leafy (f_elems f); tp_cols : f_cols f = 1; tp_col : f_column f = 0; tp_res : f_resetting f = false;
  tp_del : few (f_delayed f); tp_sdel : few (f_sdelayed f) }.

Definition with_maxy (m : Q) (f : part) : part := with_reset f (f_will f) (f_resetting f) m (f_difflast f) (f_diff f) (f_forward f).
Lemma tp_y f y st lb : tp f -> tp (with_y f y st lb).
Proof. intros []. constructor; assumption. Qed.
Lemma tp_todo f i d : tp f -> few d -> tp (with_todo f i d).
Proof. intros [] Hd. constructor; assumption. Qed.
Lemma tp_maxy f m : tp f -> tp (with_maxy m f).
Proof. intros []. constructor; assumption. Qed.

(** The object that a source gives. *)
Definition got (h : list O) (src : E + nat * S) (o : O) : Prop :=
  match src with
  | inl e => start e = Ok o
  | inr (ref, sv) => exists o0, nth_error h ref = Some o0 /\ o = restore o0 sv
  end.
Lemma process_leaf_inv (crun : crunner) f g s src r f' (g' : glob) : process_leaf start crun save restore f g s src true true = Done (r, f', g') ->
  exists x y w h o o' ht fin ps ls ref, space f s true = (x, y, w, h) /\ got (g_heap g) src o /\ crun o x y w h = Ok (o', ht, fin, ps, ls) /\
    (match src with inl _ => ref = length (g_heap g) | inr (r0, _) => ref = r0 end) /\
    g_parts g' = g_parts g ++ [PlLeaf s x y w h o o' ht fin ps] /\
    g_heap g' = (if ref =? length (g_heap g) then g_heap g ++ [o'] else hset ref o' (g_heap g)) /\
    f' = (if qlt 0 ht then with_y f (y - ht)%Q false (s_mb s) else with_y f (f_y f) (f_starting f) (f_lastbottom f)) /\
    r = (if fin : bool then mkRet None false false else mkRet (Some (DLeaf s ref (save o'))) true false).
Proof.
  unfold process_leaf. destruct (space f s true) as [[[x y] w] h]. intros H.
  match type of H with abind ?e _ = _ => destruct e as [[ref o]| |] eqn:Es; try discriminate end. cbn [abind] in H.
  destruct (crun o x y w h) as [[[[[o' ht] fin] ps] ls]|] eqn:Ec; [|discriminate]. cbn [abind lift] in H. injection H as <- <- <-.
  exists x, y, w, h, o, o', ht, fin, ps, ls, ref. split; [reflexivity|].
  assert (Hg : got (g_heap g) src o /\ match src with inl _ => ref = length (g_heap g) | inr (r0, _) => ref = r0 end).
  { destruct src as [e|[r0 sv]]; cbn [got].
    - destruct (start e) as [o1|] eqn:E1; [|discriminate]. cbn in Es. injection Es as <- <-. auto.
    - destruct (nth_error (g_heap g) r0) as [o0|] eqn:E0; [|discriminate]. injection Es as <- <-. split; [|reflexivity]. exists o0. auto. }
  destruct Hg as [Hg1 Hg2]. split; [exact Hg1|]. split; [exact Ec|]. split; [exact Hg2|]. split; [reflexivity|]. split; [reflexivity|]. split; reflexivity.
Qed.

Section One.
(** One run of a box of paragraphs. *)
Variable crun : crunner.
Lemma add_delayed_one fuel f g a f' g' : tp f -> add_delayed start crun save restore fuel 0 f g = Done (a, f', g') ->
  tp f' /\ f_elems f' = f_elems f /\ f_sdelayed f' = f_sdelayed f /\ (exists new, g_parts g' = g_parts g ++ new) /\ (a = Goon /\ f_delayed f' = [] \/ a = Next).
Proof.
  intros Hf H. destruct fuel as [|fuel]; [discriminate|]. cbn [add_delayed] in H. destruct (tp_del f Hf) as [Hd|(s & r & v & Hd)].
  - rewrite Hd in H. cbn [nth_error] in H. injection H as <- <- <-. do 3 (split; [auto|]). split; [exists []; rewrite app_nil_r; reflexivity|auto].
  - rewrite Hd in H. cbn [nth_error process_delayed] in H.
    destruct (process_leaf start crun save restore f g s (inr (r, v)) true true) as [[[rr f1] g1]| |] eqn:El; try discriminate. cbn [abind] in H.
    apply process_leaf_inv in El as (x & y & w & h & o & o' & ht & fin & ps & ls & ref & _ & _ & _ & _ & Hp & _ & Hf1 & Hr).
    assert (Hf1d : f_delayed f1 = [DLeaf s r v]) by (rewrite Hf1; destruct (qlt 0 ht); exact Hd).
    assert (Ht1 : tp f1) by (rewrite Hf1; destruct (qlt 0 ht); apply tp_y; exact Hf).
    assert (He1 : f_elems f1 = f_elems f) by (rewrite Hf1; destruct (qlt 0 ht); reflexivity).
    assert (Hs1 : f_sdelayed f1 = f_sdelayed f) by (rewrite Hf1; destruct (qlt 0 ht); reflexivity).
    rewrite Hf1d in H. clear Hf1. destruct fin; rewrite Hr in H; cbn [r_next r_delayed r_flow] in H.
    + destruct fuel as [|fuel]; [discriminate|]. cbn in H. injection H as <- <- <-.
      split; [apply tp_todo; [exact Ht1|left; reflexivity]|]. split; [exact He1|]. split; [exact Hs1|]. split; [eexists; exact Hp|]. left. split; reflexivity.
    + cbn in H. injection H as <- <- <-. split; [apply tp_todo; [exact Ht1|right; eauto]|]. split; [exact He1|]. split; [exact Hs1|]. split; [eexists; exact Hp|]. right. reflexivity.
Qed.
Lemma add_elements_one rec fuel : forall f anc g a f' anc' g', tp f -> f_delayed f = [] -> add_elements start crun save restore rec fuel f anc g = Done (a, (f', anc', g')) ->
  anc' = anc /\ tp f' /\ f_elems f' = f_elems f /\ f_sdelayed f' = f_sdelayed f /\ (exists new, g_parts g' = g_parts g ++ new) /\ (a = Goon /\ f_delayed f' = [] \/ a = Next).
Proof.
  induction fuel as [|fuel IH]; intros f anc g a f' anc' g' Hf Hd H; [discriminate|]. cbn [add_elements] in H.
  destruct (nth_error (f_elems f) (f_index f)) as [el|] eqn:En.
  2:{ injection H as <- <- <- <-. do 4 (split; [auto|]). split; [exists []; rewrite app_nil_r; reflexivity|auto]. }
  assert (Hl : leafy el) by (pose proof (tp_els f Hf) as X; rewrite Forall_forall in X; apply X; eapply nth_error_In; eauto).
  destruct el as [s e| | |]; try contradiction. cbn [process] in H.
  destruct (process_leaf start crun save restore f g s (inl e) true true) as [[[rr f1] g1]| |] eqn:El; try discriminate. cbn [abind] in H.
  apply process_leaf_inv in El as (x & y & w & h & o & o' & ht & fin & ps & ls & ref & _ & _ & _ & _ & Hp & _ & Hf1 & Hr).
  assert (Hf1d : f_delayed f1 = []) by (rewrite Hf1; destruct (qlt 0 ht); exact Hd).
  assert (Ht1 : tp f1) by (rewrite Hf1; destruct (qlt 0 ht); apply tp_y; exact Hf).
  assert (He1 : f_elems f1 = f_elems f) by (rewrite Hf1; destruct (qlt 0 ht); reflexivity).
  assert (Hs1 : f_sdelayed f1 = f_sdelayed f) by (rewrite Hf1; destruct (qlt 0 ht); reflexivity).
  rewrite Hf1d in H. clear Hf1. destruct fin; rewrite Hr in H; cbn [r_next r_delayed r_flow app] in H.
  - apply IH in H as (-> & H1 & H2 & H3 & (new & H4) & H5); [|apply tp_todo; [exact Ht1|left; reflexivity]|reflexivity].
    split; [reflexivity|]. split; [exact H1|]. split; [rewrite H2; exact He1|]. split; [rewrite H3; exact Hs1|]. split; [|exact H5].
    exists ([PlLeaf s x y w h o o' ht true ps] ++ new). rewrite H4, Hp, <- app_assoc. reflexivity.
  - injection H as <- <- <- <-. split; [reflexivity|]. split; [apply tp_todo; [exact Ht1|right; eauto]|]. split; [exact He1|]. split; [exact Hs1|]. split; [eexists; exact Hp|]. right. reflexivity.
Qed.
Lemma after_next f (g : glob) : tp f -> exists f1, after Next f [] g = Done (Return Interrupt, (f1, [], g)) /\ f_elems f1 = f_elems f /\ f_cols f1 = f_cols f /\ f_sdelayed f1 = f_delayed f.
Proof.
  intros Hf. unfold after. cbn [next_section]. rewrite (tp_col f Hf), (tp_cols f Hf), (tp_res f Hf). cbn [Nat.eqb].
  eexists. split; [reflexivity|]. split; [reflexivity|]. split; [cbn; apply (tp_cols f Hf)|reflexivity].
Qed.
(** What is known of the box between pages. *)
Definition rest_of (f f' : part) : Prop := f_elems f' = f_elems f /\ f_cols f' = 1 /\ few (f_sdelayed f').
Lemma loop_one rec fuel f g act f' anc' g' : tp f -> loop start crun save restore rec fuel f [] g = Done (act, (f', anc', g')) ->
  rest_of f f' /\ (exists new, g_parts g' = g_parts g ++ new).
Proof.
  intros Hf H. destruct fuel as [|fuel]; [discriminate|]. cbn [loop] in H.
  destruct (add_delayed start crun save restore fuel 0 f g) as [[[a1 f1] g1]| |] eqn:E1; try discriminate. cbn [abind] in H.
  apply add_delayed_one in E1 as (A1 & A2 & A3 & (new1 & A4) & A5); [|exact Hf].
  destruct A5 as [[-> A5]| ->].
  2:{ destruct (after_next f1 g1 A1) as (f2 & B1 & B2 & B3 & B4). rewrite B1 in H. cbn [abind] in H. injection H as <- <- <- <-.
      split; [|eauto]. split; [congruence|]. split; [rewrite B3; apply (tp_cols f1 A1)|]. rewrite B4. apply (tp_del f1 A1). }
  cbn [after abind] in H.
  destruct (add_elements start crun save restore rec fuel f1 [] g1) as [[a2 [[f2 anc2] g2]]| |] eqn:E2; try discriminate. cbn [abind] in H.
  apply add_elements_one in E2 as (-> & C1 & C2 & C3 & (new2 & C4) & C5); [|exact A1|exact A5].
  assert (Hn : exists new, g_parts g2 = g_parts g ++ new) by (exists (new1 ++ new2); rewrite C4, A4, app_assoc; reflexivity).
  destruct C5 as [[-> C5]| ->].
  - cbn [after abind] in H. rewrite C5, (tp_res f2 C1), (tp_cols f2 C1) in H. cbn in H. injection H as <- <- <- <-.
    split; [|exact Hn]. split; [congruence|]. split; [apply (tp_cols f2 C1)|]. rewrite C3, A3. apply (tp_sdel f Hf).
  - destruct (after_next f2 g2 C1) as (f3 & B1 & B2 & B3 & B4). rewrite B1 in H. cbn [abind] in H. injection H as <- <- <- <-.
    split; [|exact Hn]. split; [congruence|]. split; [rewrite B3; apply (tp_cols f2 C1)|]. rewrite B4. apply (tp_del f2 C1).
Qed.
End One.

Section Two.
(** Two ways to run paragraphs: with less height, the second finishes as the
    first, with the same marks and height, or shows a beginning of the marks. *)
Variable crunA crunB : crunner.
Definition shorter : Prop := forall o x y w hA hB oA htA finA psA lsA oB htB finB psB lsB, (hB <= hA)%Q ->
  crunA o x y w hA = Ok (oA, htA, finA, psA, lsA) -> crunB o x y w hB = Ok (oB, htB, finB, psB, lsB) ->
  if finB : bool then finA = true /\ htA = htB /\ part_marks psB = part_marks psA else prefix (part_marks psB) (part_marks psA).
Hypothesis Hshorter : shorter.

Lemma leaf_two f m gA gB s srcA srcB rA fA gA' rB fB gB' : (f_maxy f <= m)%Q ->
  (forall oA oB, got (g_heap gA) srcA oA -> got (g_heap gB) srcB oB -> oA = oB) ->
  process_leaf start crunA save restore f gA s srcA true true = Done (rA, fA, gA') ->
  process_leaf start crunB save restore (with_maxy m f) gB s srcB true true = Done (rB, fB, gB') ->
  exists pA pB, g_parts gA' = g_parts gA ++ [pA] /\ g_parts gB' = g_parts gB ++ [pB] /\
   (rB = mkRet None false false /\ rA = rB /\ fB = with_maxy m fA /\ placed_marks [pB] = placed_marks [pA] \/
    r_next rB = true /\ prefix (placed_marks [pB]) (placed_marks [pA])).
Proof.
  intros Hm Hsrc HA HB.
  apply process_leaf_inv in HA as (xA & yA & wA & hA & oA & oA' & htA & finA & psA & lsA & refA & SA & GA & CA & _ & PA & _ & FA & RA).
  apply process_leaf_inv in HB as (xB & yB & wB & hB & oB & oB' & htB & finB & psB & lsB & refB & SB & GB & CB & _ & PB & _ & FB & RB).
  pose proof (Hsrc _ _ GA GB) as Ho. subst oB.
  unfold space in SA, SB. cbn [with_maxy with_reset f_maxy f_starting f_y f_lastbottom f_colw] in SB.
  assert (Hxy : xB = xA /\ yB = yA /\ wB = wA /\ (hB <= hA)%Q).
  { injection SA as <- <- <- <-. injection SB as <- <- <- <-. repeat (split; [reflexivity|]). apply qmax_mono. lra. }
  destruct Hxy as (-> & -> & -> & Hh). clear SA SB.
  pose proof (Hshorter _ _ _ _ _ _ _ _ _ _ _ _ _ _ _ _ Hh CA CB) as Hs.
  do 2 eexists. split; [exact PA|]. split; [exact PB|]. rewrite !placed_marks_one.
  destruct finB.
  - destruct Hs as (-> & -> & Hs). left. rewrite RA, RB, FA, FB. repeat (split; [reflexivity|]). split; [|exact Hs]. destruct (qlt 0 htB); reflexivity.
  - right. rewrite RB. split; [reflexivity|exact Hs].
Qed.

Lemma add_elements_two rec rec' fuel : forall f m ancA ancB gA gB aA fA ancA' gA' aB fB ancB' gB', tp f -> f_delayed f = [] -> (f_maxy f <= m)%Q ->
  add_elements start crunA save restore rec fuel f ancA gA = Done (aA, (fA, ancA', gA')) ->
  add_elements start crunB save restore rec' fuel (with_maxy m f) ancB gB = Done (aB, (fB, ancB', gB')) ->
  exists newA newB, g_parts gA' = g_parts gA ++ newA /\ g_parts gB' = g_parts gB ++ newB /\
    (placed_marks newB = placed_marks newA /\ aB = Goon /\ aA = Goon \/ aB = Next /\ prefix (placed_marks newB) (placed_marks newA)).
Proof.
  induction fuel as [|fuel IH]; intros f m ancA ancB gA gB aA fA ancA' gA' aB fB ancB' gB' Hf Hd Hm HA HB; [discriminate|]. cbn [add_elements] in HA, HB.
  cbn [with_maxy with_reset f_elems f_index] in HB.
  destruct (nth_error (f_elems f) (f_index f)) as [el|] eqn:En.
  2:{ injection HA as <- <- <- <-. injection HB as <- <- <- <-. exists [], []. rewrite !app_nil_r. do 2 (split; [reflexivity|]). left. auto. }
  assert (Hl : leafy el) by (pose proof (tp_els f Hf) as X; rewrite Forall_forall in X; apply X; eapply nth_error_In; eauto).
  destruct el as [s e| | |]; try contradiction. cbn [process] in HA, HB.
  destruct (process_leaf start crunA save restore f gA s (inl e) true true) as [[[rA f1A] g1A]| |] eqn:ElA; try discriminate. cbn [abind] in HA.
  change (with_reset f (f_will f) (f_resetting f) m (f_difflast f) (f_diff f) (f_forward f)) with (with_maxy m f) in HB.
  destruct (process_leaf start crunB save restore (with_maxy m f) gB s (inl e) true true) as [[[rB f1B] g1B]| |] eqn:ElB; try discriminate. cbn [abind] in HB.
  assert (Hsrc : forall oA oB, got (g_heap gA) (inl e) oA -> got (g_heap gB) (inl e) oB -> oA = oB) by (cbn [got]; congruence).
  destruct (leaf_two _ _ _ _ _ _ _ _ _ _ _ _ _ Hm Hsrc ElA ElB) as (pA & pB & PA & PB & Hc).
  assert (Hf1 : tp f1A /\ f_delayed f1A = [] /\ f_maxy f1A = f_maxy f).
  { apply process_leaf_inv in ElA as (x & y & w & h & o & o' & ht & fin & ps & ls & ref & _ & _ & _ & _ & _ & _ & Hf1 & _).
    rewrite Hf1. destruct (qlt 0 ht); (split; [apply tp_y; exact Hf|split; [exact Hd|reflexivity]]). }
  destruct Hf1 as (Hf1 & Hd1 & Hm1). destruct Hc as [(-> & -> & -> & Hmk)|(Hn & Hpre)].
  - cbn [r_next r_delayed app] in HA, HB. cbn [with_maxy with_reset f_index f_delayed] in HB. rewrite Hd1 in HA, HB. cbn [app] in HA, HB.
    change (with_todo (with_maxy m f1A) (Datatypes.S (f_index f1A)) []) with (with_maxy m (with_todo f1A (Datatypes.S (f_index f1A)) [])) in HB.
    assert (Hm2 : (f_maxy (with_todo f1A (Datatypes.S (f_index f1A)) []) <= m)%Q) by (cbn [with_todo f_maxy]; rewrite Hm1; exact Hm).
    destruct (IH _ m _ _ _ _ _ _ _ _ _ _ _ _ (tp_todo _ _ _ Hf1 (or_introl eq_refl)) eq_refl Hm2 HA HB) as (newA & newB & QA & QB & Hc). exists ([pA] ++ newA), ([pB] ++ newB).
    split; [rewrite QA, PA, <- app_assoc; reflexivity|]. split; [rewrite QB, PB, <- app_assoc; reflexivity|].
    rewrite !(placed_marks_app [_]), Hmk. destruct Hc as [(-> & Hc)|(Hc1 & Hc2)]; [left; auto|right; split; [exact Hc1|apply prefix_same; exact Hc2]].
  - rewrite Hn in HB. injection HB as <- <- <- <-.
    assert (HgA : exists more, g_parts gA' = g_parts g1A ++ more).
    { destruct (r_next rA) eqn:Er; [injection HA as <- <- <- <-; exists []; rewrite app_nil_r; reflexivity|].
      assert (Hr : r_delayed rA = None).
      { apply process_leaf_inv in ElA as (x & y & w & h & o & o' & ht & fin & ps & ls & ref & _ & _ & _ & _ & _ & _ & _ & Hr). subst rA. destruct fin; [reflexivity|discriminate]. }
      rewrite Hr, Hd1 in HA. cbn [app] in HA. apply add_elements_one in HA as (_ & _ & _ & _ & H & _); [exact H|apply tp_todo; [exact Hf1|left; reflexivity]|reflexivity]. }
    destruct HgA as [more HgA]. exists ([pA] ++ more), [pB]. split; [rewrite HgA, PA, <- app_assoc; reflexivity|]. split; [exact PB|].
    right. split; [reflexivity|]. rewrite (placed_marks_app [pA]). apply prefix_more, Hpre.
Qed.

(** The delayed paragraph that the two runs continue is the same. *)
Definition same_delayed (f : part) (dB : list delem) (hA hB : list O) : Prop :=
  f_delayed f = [] /\ dB = [] \/
  exists s rA rB v, f_delayed f = [DLeaf s rA v] /\ dB = [DLeaf s rB v] /\
    forall oA oB, nth_error hA rA = Some oA -> nth_error hB rB = Some oB -> restore oA v = restore oB v.

Lemma add_delayed_two fuel f dB m gA gB aA fA gA' aB fB gB' : tp f -> (f_maxy f <= m)%Q -> same_delayed f dB (g_heap gA) (g_heap gB) ->
  add_delayed start crunA save restore fuel 0 f gA = Done (aA, fA, gA') ->
  add_delayed start crunB save restore fuel 0 (with_todo (with_maxy m f) (f_index f) dB) gB = Done (aB, fB, gB') ->
  exists newA newB, g_parts gA' = g_parts gA ++ newA /\ g_parts gB' = g_parts gB ++ newB /\
    (placed_marks newB = placed_marks newA /\ aB = Goon /\ aA = Goon /\ fB = with_maxy m fA /\ f_maxy fA = f_maxy f \/ aB = Next /\ prefix (placed_marks newB) (placed_marks newA)).
Proof.
  intros Hf Hm Hs HA HB. destruct fuel as [|fuel]; [discriminate|]. cbn [add_delayed] in HA, HB.
  change (f_delayed (with_todo (with_maxy m f) (f_index f) dB)) with dB in HB.
  destruct Hs as [[Ed ->]|(s & rA & rB & v & Ed & -> & Hs)]; rewrite Ed in HA; cbn [nth_error] in HA, HB.
  - injection HA as <- <- <-. injection HB as <- <- <-. exists [], []. rewrite !app_nil_r. do 2 (split; [reflexivity|]). left. repeat (split; [reflexivity|]).
    split; [|reflexivity]. destruct f; cbn in Ed |- *; subst; reflexivity.
  - cbn [process_delayed] in HA, HB.
    destruct (process_leaf start crunA save restore f gA s (inr (rA, v)) true true) as [[[qA f1A] g1A]| |] eqn:ElA; try discriminate. cbn [abind] in HA.
    destruct (process_leaf start crunB save restore (with_todo (with_maxy m f) (f_index f) [DLeaf s rB v]) gB s (inr (rB, v)) true true) as [[[qB f1B] g1B]| |] eqn:ElB; try discriminate. cbn [abind] in HB.
    (* the delayed elements of the second make no difference to the paragraph *)
    assert (ElB' : exists f1B', process_leaf start crunB save restore (with_maxy m f) gB s (inr (rB, v)) true true = Done (qB, f1B', g1B) /\ f1B = with_todo f1B' (f_index f) [DLeaf s rB v]).
    { unfold process_leaf in ElB |- *.
      change (space (with_todo (with_maxy m f) (f_index f) [DLeaf s rB v]) s true) with (space (with_maxy m f) s true) in ElB.
      destruct (space (with_maxy m f) s true) as [[[x y] w] h].
      match type of ElB with abind ?e _ = _ => destruct e as [[ref o]| |]; try discriminate end. cbn [abind] in ElB |- *.
      destruct (crunB o x y w h) as [[[[[o' ht] fin] ps] ls]|]; [|discriminate]. cbn [abind lift] in ElB |- *. injection ElB as <- <- <-.
      eexists. split; [reflexivity|]. destruct (qlt 0 ht); reflexivity. }
    destruct ElB' as (f1B' & ElB' & Ef1B).
    destruct (leaf_two f m gA gB s (inr (rA, v)) (inr (rB, v)) qA f1A g1A qB f1B' g1B Hm) as (pA & pB & PA & PB & Hc); [|exact ElA|exact ElB'|].
    { intros oA oB (o1 & N1 & ->) (o2 & N2 & ->). exact (Hs _ _ N1 N2). }
    assert (Hf1 : tp f1A /\ f_delayed f1A = [DLeaf s rA v] /\ f_maxy f1A = f_maxy f /\ f_index f1A = f_index f).
    { apply process_leaf_inv in ElA as (x & y & w & h & o & o' & ht & fin & ps & ls & ref & _ & _ & _ & _ & _ & _ & Hf1 & _).
      rewrite Hf1. destruct (qlt 0 ht); (split; [apply tp_y; exact Hf|split; [exact Ed|split; reflexivity]]). }
    destruct Hf1 as (Hf1 & Hd1 & Hm1 & Hi1). destruct Hc as [(-> & -> & -> & Hmk)|(Hn & Hpre)].
    + subst f1B. cbn [r_next r_delayed r_flow] in HA, HB. rewrite Hd1 in HA. cbn [with_todo with_maxy with_reset f_delayed f_index replace_nth firstn skipn app] in HA, HB.
      destruct fuel as [|fuel]; [discriminate|]. cbn in HA, HB. injection HA as <- <- <-. injection HB as <- <- <-.
      exists [pA], [pB]. split; [exact PA|]. split; [exact PB|]. left. split; [exact Hmk|]. do 2 (split; [reflexivity|]). split; [|cbn; exact Hm1].
      unfold with_maxy, with_todo, with_reset. cbn. rewrite Hi1. reflexivity.
    + rewrite Hn in HB. injection HB as <- <- <-.
      assert (HgA : g_parts gA' = g_parts g1A).
      { destruct (r_next qA) eqn:Er; [injection HA as <- <- <-; reflexivity|].
        assert (Hr : r_delayed qA = None).
        { apply process_leaf_inv in ElA as (x & y & w & h & o & o' & ht & fin & ps & ls & ref & _ & _ & _ & _ & _ & _ & _ & Hr). subst qA. destruct fin; [reflexivity|discriminate]. }
        assert (Hw : r_flow qA = false).
        { apply process_leaf_inv in ElA as (x & y & w & h & o & o' & ht & fin & ps & ls & ref & _ & _ & _ & _ & _ & _ & _ & Hr'). subst qA. destruct fin; reflexivity. }
        rewrite Hr, Hd1, Hw in HA. cbn [with_todo f_delayed replace_nth firstn skipn app] in HA.
        destruct fuel as [|fuel]; [discriminate|]. cbn in HA. injection HA as <- <- <-. reflexivity. }
      exists [pA], [pB]. rewrite HgA. auto.
Qed.

Lemma loop_two rec rec' fuel f dB m gA gB actA fA ancA gA' actB fB ancB gB' : tp f -> (f_maxy f <= m)%Q -> same_delayed f dB (g_heap gA) (g_heap gB) ->
  loop start crunA save restore rec fuel f [] gA = Done (actA, (fA, ancA, gA')) ->
  loop start crunB save restore rec' fuel (with_todo (with_maxy m f) (f_index f) dB) [] gB = Done (actB, (fB, ancB, gB')) ->
  exists newA newB, g_parts gA' = g_parts gA ++ newA /\ g_parts gB' = g_parts gB ++ newB /\ prefix (placed_marks newB) (placed_marks newA).
Proof.
  intros Hf Hm Hs HA HB. pose proof HA as HA0. destruct fuel as [|fuel]; [discriminate|]. cbn [loop] in HA, HB.
  assert (HfB : tp (with_todo (with_maxy m f) (f_index f) dB)).
  { apply tp_todo; [apply tp_maxy; exact Hf|]. destruct Hs as [[_ ->]|(s & rA & rB & v & _ & -> & _)]; [left; reflexivity|right; eauto]. }
  destruct (add_delayed start crunA save restore fuel 0 f gA) as [[[a1A f1A] g1A]| |] eqn:E1A; try discriminate. cbn [abind] in HA.
  destruct (add_delayed start crunB save restore fuel 0 (with_todo (with_maxy m f) (f_index f) dB) gB) as [[[a1B f1B] g1B]| |] eqn:E1B; try discriminate. cbn [abind] in HB.
  pose proof (add_delayed_two _ _ _ _ _ _ _ _ _ _ _ _ Hf Hm Hs E1A E1B) as (newA & newB & PA & PB & Hc).
  apply add_delayed_one in E1A as (A1 & A2 & A3 & _ & A5); [|exact Hf]. apply add_delayed_one in E1B as (B1 & B2 & B3 & _ & _); [|exact HfB].
  (* what the first run shows after this *)
  destruct Hc as [(Hmk & -> & -> & -> & Hm1)|(-> & Hpre)].
  - destruct A5 as [[_ A5]|A5]; [|discriminate]. cbn [after abind] in HA, HB.
    destruct (add_elements start crunA save restore rec fuel f1A [] g1A) as [[a2A [[f2A anc2A] g2A]]| |] eqn:E2A; try discriminate. cbn [abind] in HA.
    destruct (add_elements start crunB save restore rec' fuel (with_maxy m f1A) [] g1B) as [[a2B [[f2B anc2B] g2B]]| |] eqn:E2B; try discriminate. cbn [abind] in HB.
    assert (Hm2 : (f_maxy f1A <= m)%Q) by (rewrite Hm1; exact Hm).
    destruct (add_elements_two _ _ _ _ _ _ _ _ _ _ _ _ _ _ _ _ _ A1 A5 Hm2 E2A E2B) as (moreA & moreB & QA & QB & Hc2).
    apply add_elements_one in E2A as (-> & C1 & C2 & C3 & _ & C5); [|exact A1|exact A5].
    apply add_elements_one in E2B as (-> & D1 & D2 & D3 & _ & D5); [|exact B1|exact A5].
    assert (HgA : g_parts gA' = g_parts g2A).
    { destruct C5 as [[-> C5]| ->].
      - cbn [after abind] in HA. rewrite C5, (tp_res f2A C1), (tp_cols f2A C1) in HA. cbn in HA. injection HA as <- <- <- <-. reflexivity.
      - destruct (after_next f2A g2A C1) as (f3 & X & _). rewrite X in HA. cbn [abind] in HA. injection HA as <- <- <- <-. reflexivity. }
    assert (HgB : g_parts gB' = g_parts g2B).
    { destruct D5 as [[-> D5]| ->].
      - cbn [after abind] in HB. rewrite D5, (tp_res f2B D1), (tp_cols f2B D1) in HB. cbn in HB. injection HB as <- <- <- <-. reflexivity.
      - destruct (after_next f2B g2B D1) as (f3 & X & _). rewrite X in HB. cbn [abind] in HB. injection HB as <- <- <- <-. reflexivity. }
    exists (newA ++ moreA), (newB ++ moreB). split; [rewrite HgA, QA, PA, app_assoc; reflexivity|]. split; [rewrite HgB, QB, PB, app_assoc; reflexivity|].
    rewrite !placed_marks_app, Hmk. apply prefix_same. destruct Hc2 as [(-> & _)|(_ & Hc2)]; [apply prefix_refl|exact Hc2].
  - destruct (after_next f1B g1B B1) as (f3 & X & _). rewrite X in HB. cbn [abind] in HB. injection HB as <- <- <- <-.
    assert (HgA : exists more, g_parts gA' = g_parts g1A ++ more).
    { destruct A5 as [[-> A5]| ->].
      - cbn [after abind] in HA.
        destruct (add_elements start crunA save restore rec fuel f1A [] g1A) as [[a2A [[f2A anc2A] g2A]]| |] eqn:E2A; try discriminate. cbn [abind] in HA.
        apply add_elements_one in E2A as (-> & C1 & C2 & C3 & (more & C4) & C5); [|exact A1|exact A5]. exists more. rewrite <- C4.
        destruct C5 as [[-> C5]| ->].
        + cbn [after abind] in HA. rewrite C5, (tp_res f2A C1), (tp_cols f2A C1) in HA. cbn in HA. injection HA as <- <- <- <-. reflexivity.
        + destruct (after_next f2A g2A C1) as (f4 & X' & _). rewrite X' in HA. cbn [abind] in HA. injection HA as <- <- <- <-. reflexivity.
      - destruct (after_next f1A g1A A1) as (f4 & X' & _). rewrite X' in HA. cbn [abind] in HA. injection HA as <- <- <- <-. exists []. rewrite app_nil_r. reflexivity. }
    destruct HgA as [more HgA]. exists (newA ++ more), newB. split; [rewrite HgA, PA, <- app_assoc; reflexivity|]. split; [exact PB|].
    rewrite placed_marks_app. apply prefix_more, Hpre.
Qed.
End Two.
End Flat.
