(** Boxes of one column without boxes or groups inside, with images of any
    placement. *)
From Coq Require Import QArith ZArith Lia Permutation.
From Verif Require Import Py Table Content ContentFlow.
Open Scope list_scope.
Open Scope nat_scope.

Section Flat.
Context {E O S P L : Type}.
Variable start : E -> res O.
Variable crun : O -> Q -> Q -> Q -> Q -> res (O * Q * bool * list P * list L).
Variable save : O -> S.
Variable restore : O -> S -> O.
Hypothesis save_ok : forall o, restore o (save o) = o.
Notation elem := (@elem E).
Notation delem := (@delem E S).
Notation part := (@part E S).
Notation glob := (@glob O P L).
Notation placed := (@placed O P).
Notation work := (@work E O).
Notation works := (works start crun).

(** The paragraphs and tables placed, and the images, with their style and
    size. *)
Definition texts (ps : list placed) : list placed := filter (fun p => match p with PlLeaf _ _ _ _ _ _ _ _ _ _ => true | _ => false end) ps.
Definition pics (ps : list placed) : list (style * Q * Q) := flat_map (fun p => match p with PlImage s _ _ _ _ iw ih => [(s, iw, ih)] | _ => [] end) ps.
(** What the elements ask for. *)
Definition texts_of (l : list elem) : list work := flat_map (fun e => match e with Leaf _ e => [New e] | _ => [] end) l.
Definition pics_of (l : list elem) : list (style * Q * Q) := flat_map (fun e => match e with Image s _ iw ih => [(s, iw, ih)] | _ => [] end) l.
Definition simple (e : elem) : Prop := match e with Leaf _ _ | Image _ _ _ _ => True | _ => False end.

Definition dtexts (heap : list O) (d : list delem) : list work :=
  flat_map (fun d => match d with DLeaf _ ref sv => match nth_error heap ref with Some o => [Old (restore o sv)] | None => [] end | _ => [] end) d.
Definition dpics (d : list delem) : list (style * Q * Q) := flat_map (fun d => match d with DImage s iw ih _ => [(s, iw, ih)] | _ => [] end) d.
Definition nleaf (d : list delem) : nat := length (filter (fun d => match d with DLeaf _ _ _ => true | _ => false end) d).
Definition nogroup (d : delem) : Prop := match d with DGroup _ _ _ => False | _ => True end.
Lemma dtexts_none heap d : nleaf d = 0 -> dtexts heap d = [].
Proof. unfold nleaf, dtexts. induction d as [|[s r v|s iw ih t|s l t] d IH]; cbn; intros H; auto. discriminate. Qed.
Lemma nleaf_app a b : nleaf (a ++ b) = nleaf a + nleaf b.
Proof. unfold nleaf. rewrite filter_app, app_length. reflexivity. Qed.
Lemma dtexts_app heap a b : dtexts heap (a ++ b) = dtexts heap a ++ dtexts heap b.
Proof. apply flat_map_app. Qed.
Lemma dpics_app a b : dpics (a ++ b) = dpics a ++ dpics b.
Proof. apply flat_map_app. Qed.
Lemma texts_app a b : texts (a ++ b) = texts a ++ texts b.
Proof. apply filter_app. Qed.
Lemma pics_app a b : pics (a ++ b) = pics a ++ pics b.
Proof. apply flat_map_app. Qed.

Definition ended (p : placed) : Prop := match p with PlLeaf _ _ _ _ _ _ _ _ fin _ => fin = true | _ => True end.
Lemma works_seq t a t1 b t2 : works t a t1 -> Forall ended a -> works t1 b t2 -> works t (a ++ b) t2.
Proof.
  induction 1 as [t|k t ps t' s x y w h o o' height parts lines Hb Hc Hw IH|k t s x y w h o o' height parts lines Hb Hc|t ps t' s x y w h iw ih Hw IH]; intros He H2; cbn [app].
  - exact H2.
  - inversion He; subst. eapply w_done; eauto.
  - inversion He as [|? ? Hx]; subst. discriminate Hx.
  - inversion He; subst. apply w_pic. auto.
Qed.

(** Texts and images to do. *)
Definition tleft (f : part) (heap : list O) : list work := dtexts heap (f_delayed f) ++ texts_of (skipn (f_index f) (f_elems f)).
Definition pleft (f : part) : list (style * Q * Q) := dpics (f_delayed f) ++ pics_of (skipn (f_index f) (f_elems f)).
Record flatp (f : part) : Prop := {
  fp_els : Forall simple (f_elems f); fp_cols : f_cols f = 1; fp_col : f_column f = 0; fp_res : f_resetting f = false; fp_will : f_will f = false;
  fp_del : Forall nogroup (f_delayed f); fp_one : nleaf (f_delayed f) <= 1 }.
(** [f] and [g] after some texts and images. *)
Definition does (f : part) (g : glob) (f' : part) (g' : glob) (new : list placed) : Prop :=
  g_parts g' = g_parts g ++ new /\ works (tleft f (g_heap g)) (texts new) (tleft f' (g_heap g')) /\ Permutation (pleft f) (pics new ++ pleft f') /\
  f_elems f' = f_elems f.

Definition steps (f f' : part) : Prop := exists y st lb, f' = with_y f y st lb.
Lemma steps_flat f f' : flatp f -> steps f f' -> flatp f'.
Proof. intros [] (y & st & lb & ->). constructor; assumption. Qed.

Lemma leaf_flat f g s src r f' g' o :
  process_leaf start crun save restore f g s src true true = Done (r, f', g') ->
  (match src with inl e => start e = Ok o | inr (ref, sv) => exists o0, nth_error (g_heap g) ref = Some o0 /\ o = restore o0 sv end) ->
  steps f f' /\
  exists x y w h o' ht fin ps ls, crun o x y w h = Ok (o', ht, fin, ps, ls) /\
    g_parts g' = g_parts g ++ [PlLeaf s x y w h o o' ht fin ps] /\
    (if fin : bool then r = mkRet None false false else exists ref, r = mkRet (Some (DLeaf s ref (save o'))) true false /\ nth_error (g_heap g') ref = Some o').
Proof.
  unfold process_leaf. destruct (space f s true) as [[[x y] w] h]. intros H Ho.
  assert (Href : exists ref, match src with
       | inl e => abind (lift (start e)) (fun o => Done (length (g_heap g), o))
       | inr (ref, sv) => match nth_error (g_heap g) ref with Some o => Done (ref, restore o sv) | None => Raise PyException end
       end = Done (ref, o) /\ ref <= length (g_heap g)).
  { destruct src as [e|[ref sv]].
    - rewrite Ho. cbn. eauto.
    - destruct Ho as (o0 & Hn & ->). rewrite Hn. exists ref. split; [reflexivity|]. assert (ref < length (g_heap g)) by (apply nth_error_Some; congruence). lia. }
  destruct Href as (ref & Er & Hlt). rewrite Er in H. cbn [abind] in H.
  destruct (crun o x y w h) as [[[[[o' ht] fin] ps] ls]|e] eqn:Ec; cbn [abind lift] in H; [|discriminate].
  injection H as <- <- <-. split; [destruct (qlt 0 ht); eexists _, _, _; reflexivity|].
  exists x, y, w, h, o', ht, fin, ps, ls. split; [exact Ec|]. split; [reflexivity|].
  destruct fin; [reflexivity|]. exists ref. split; [reflexivity|]. cbn [g_heap]. destruct (Nat.eqb_spec ref (length (g_heap g))) as [->|Hne].
  - rewrite nth_error_app2 by lia. rewrite Nat.sub_diag. reflexivity.
  - unfold hset. rewrite nth_error_app2 by (rewrite firstn_length; lia). rewrite firstn_length, Nat.min_l by lia. rewrite Nat.sub_diag. reflexivity.
Qed.
Lemma leaf_started f g s e r f' g' : process_leaf start crun save restore f g s (inl e) true true = Done (r, f', g') -> exists o, start e = Ok o.
Proof. unfold process_leaf. destruct (space f s true) as [[[x y] w] h]. destruct (start e) as [o|]; cbn [abind lift]; [eauto|discriminate]. Qed.
Lemma leaf_kept f g s ref sv r f' g' : process_leaf start crun save restore f g s (inr (ref, sv)) true true = Done (r, f', g') -> exists o, nth_error (g_heap g) ref = Some o.
Proof. unfold process_leaf. destruct (space f s true) as [[[x y] w] h]. destruct (nth_error (g_heap g) ref) as [o|]; cbn [abind]; [eauto|discriminate]. Qed.
Lemma image_flat f (g : glob) s min sh iw ih ok f' (g' : glob) :
  process_image f g s min sh iw ih true true = (ok, f', g') -> steps f f' /\
  (if ok : bool then exists x y w h, g' = with_parts g (g_parts g ++ [PlImage s x y w h iw ih]) else g' = g).
Proof.
  unfold process_image. destruct (space f s true) as [[[x y] w] h]. cbv zeta.
  destruct (qlt (w * ih / iw) h); [|destruct min as [m|]; [destruct (Qle_bool m h)|]]; intros H; injection H as <- <- <-; (split; [eexists _, _, _; reflexivity|]); eauto.
Qed.

Lemma add_delayed_flat : forall fuel n f g a f' g',
  flatp f -> nleaf (firstn n (f_delayed f)) = 0 -> n <= length (f_delayed f) -> add_delayed start crun save restore fuel n f g = Done (a, f', g') ->
  flatp f' /\ exists new, does f g f' g' new /\ (a = Goon -> Forall ended new /\ nleaf (f_delayed f') = 0) /\ (forall x, a <> Stop x).
Proof.
  induction fuel as [|fuel IH]; intros n f g a f' g' Hf Hn Hle; [discriminate|]. cbn [add_delayed].
  destruct (nth_error (f_delayed f) n) as [d|] eqn:Ed.
  2:{ intros H. injection H as <- <- <-. split; [exact Hf|]. exists []. split; [|split].
      - split; [symmetry; apply app_nil_r|]. split; [apply w_stop|]. split; [apply Permutation_refl|reflexivity].
      - intros _. split; [constructor|]. apply nth_error_None in Ed. rewrite firstn_all2 in Hn by exact Ed. exact Hn.
      - intros x. destruct (f_delayed f); [discriminate|]. destruct (length (f_elems f) <=? Datatypes.S (f_index f)); discriminate. }
  destruct (nth_error_split _ _ Ed) as (A & R & HD & HA).
  assert (Hrep : forall x, replace_nth n x (f_delayed f) = A ++ match x with Some x => [x] | None => [] end ++ R).
  { intros x. unfold replace_nth. rewrite HD, <- HA. rewrite firstn_app, Nat.sub_diag, firstn_all. cbn [firstn]. rewrite app_nil_r.
    replace (skipn (Datatypes.S (length A)) (A ++ d :: R)) with R; [reflexivity|]. clear. induction A; [reflexivity|exact IHA]. }
  assert (HnA : nleaf A = 0) by (rewrite HD, <- HA, firstn_app, Nat.sub_diag, firstn_all, app_nil_r in Hn; exact Hn).
  pose proof (fp_one f Hf) as H1. pose proof (fp_del f Hf) as Hg. rewrite HD in Hg, H1. apply Forall_app in Hg. destruct Hg as [HgA HgR]. inversion HgR as [|d0 R0 Hgd HgR']; subst.
  change (d :: R) with ([d] ++ R) in H1. rewrite !nleaf_app in H1.
  destruct (process_delayed start crun save restore f g d) as [[[r f1] g1]| |] eqn:Ep; cbn [abind]; try discriminate.
  set (f2 := with_todo f1 (f_index f1) (replace_nth (length A) (r_delayed r) (f_delayed f1))).
  (* one delayed element *)
  assert (Hone : steps f f1 /\ exists new, g_parts g1 = g_parts g ++ new /\
     works (tleft f (g_heap g)) (texts new) (tleft f2 (g_heap g1)) /\ Permutation (pleft f) (pics new ++ pleft f2) /\
     Forall nogroup (match r_delayed r with Some x => [x] | None => [] end) /\ nleaf (match r_delayed r with Some x => [x] | None => [] end) <= nleaf [d] /\
     (r_next r = false -> Forall ended new /\ nleaf (match r_delayed r with Some x => [x] | None => [] end) = 0) /\
     (r_flow r = true -> r_delayed r <> None)).
  { assert (Hf2 : steps f f1 -> f_delayed f2 = A ++ match r_delayed r with Some x => [x] | None => [] end ++ R /\ f_elems f2 = f_elems f /\ f_index f2 = f_index f).
    { intros (y & st & lb & ->). unfold f2. cbn [with_todo with_y f_delayed f_elems f_index]. rewrite Hrep. auto. }
    destruct d as [s ref sv|s iw ih tr|s l tr]; cbn [process_delayed] in Ep; [| |contradiction].
    - destruct (leaf_kept f g s ref sv r f1 g1 Ep) as (o0 & Ho0). destruct (leaf_flat f g s _ r f1 g1 (restore o0 sv) Ep) as (Hs & x & y & w & h & o' & ht & fin & ps & ls & Hc & Hp & Hfin); [exists o0; split; [exact Ho0|reflexivity]|].
      split; [exact Hs|]. destruct (Hf2 Hs) as (E1 & E2 & E3). exists [PlLeaf s x y w h (restore o0 sv) o' ht fin ps]. split; [exact Hp|].
      assert (HR0 : nleaf R = 0) by (change (nleaf [DLeaf s ref sv]) with 1 in H1; lia).
      assert (Ht : tleft f (g_heap g) = Old (restore o0 sv) :: texts_of (skipn (f_index f) (f_elems f))).
      { unfold tleft. rewrite HD. change (DLeaf s ref sv :: R) with ([DLeaf s ref sv] ++ R). rewrite !dtexts_app, (dtexts_none _ A HnA), (dtexts_none _ R HR0). cbn. rewrite Ho0. reflexivity. }
      assert (Hpl : pleft f = pleft f2).
      { unfold pleft. rewrite E1, E2, E3, HD. change (DLeaf s ref sv :: R) with ([DLeaf s ref sv] ++ R). rewrite !dpics_app. f_equal. f_equal. f_equal. destruct fin; [subst r|destruct Hfin as (? & -> & _)]; reflexivity. }
      destruct fin.
      + subst r. cbn [r_delayed r_next r_flow] in *. split; [|split; [|split; [|split; [|split]]]].
        * rewrite Ht. unfold tleft. rewrite E1, E2, E3. cbn [app]. rewrite dtexts_app, (dtexts_none _ A HnA), (dtexts_none _ R HR0). cbn [app texts filter]. eapply w_done; [reflexivity|exact Hc|apply w_stop].
        * cbn [pics flat_map app]. rewrite Hpl. apply Permutation_refl.
        * constructor.
        * unfold nleaf; cbn; lia.
        * intros _. split; [constructor; [reflexivity|constructor]|reflexivity].
        * discriminate.
      + destruct Hfin as (ref' & -> & Hh). cbn [r_delayed r_next r_flow] in *. split; [|split; [|split; [|split; [|split]]]].
        * rewrite Ht. unfold tleft. rewrite E1, E2, E3. rewrite !dtexts_app, (dtexts_none _ A HnA), (dtexts_none _ R HR0). cbn [dtexts flat_map app]. rewrite Hh, save_ok. cbn [app texts filter]. eapply w_part; [reflexivity|exact Hc].
        * cbn [pics flat_map app]. rewrite Hpl. apply Permutation_refl.
        * constructor; [exact I|constructor].
        * unfold nleaf; cbn; lia.
        * discriminate.
        * discriminate.
    - destruct (process_image f g s (s_min s) (s_shrink s) iw ih true true) as [[ok f0] g0] eqn:Ei. destruct (image_flat f g s _ _ iw ih ok f0 g0 Ei) as (Hs & Hok).
      assert (Htl : steps f f1 -> g_heap g1 = g_heap g -> nleaf (match r_delayed r with Some x => [x] | None => [] end) = 0 -> tleft f (g_heap g) = tleft f2 (g_heap g1)).
      { intros Hs1 Hh Hz. destruct (Hf2 Hs1) as (E1 & E2 & E3). unfold tleft. rewrite E1, E2, E3, Hh, HD. change (DImage s iw ih tr :: R) with ([DImage s iw ih tr] ++ R). rewrite !dtexts_app, (dtexts_none _ _ Hz). reflexivity. }
      destruct ok.
      + injection Ep as <- <- <-. destruct Hok as (x & y & w & h & ->). split; [exact Hs|]. destruct (Hf2 Hs) as (E1 & E2 & E3). exists [PlImage s x y w h iw ih]. split; [reflexivity|]. cbn [r_delayed r_next r_flow] in *. split; [|split; [|split; [|split; [|split]]]].
        * rewrite Htl by (exact Hs || reflexivity). apply w_stop.
        * unfold pleft. rewrite E1, E2, E3, HD. change (DImage s iw ih tr :: R) with ([DImage s iw ih tr] ++ R). cbn [app]. rewrite !dpics_app. cbn [pics dpics flat_map app]. rewrite !app_assoc_reverse. apply Permutation_sym, Permutation_middle.
        * constructor.
        * unfold nleaf; cbn; lia.
        * intros _. split; [constructor; [exact I|constructor]|reflexivity].
        * discriminate.
      + subst g0. unfold image_ret in Ep. destruct (50 <=? tr); cbn [abind] in Ep; [discriminate|]. injection Ep as <- <- <-. split; [exact Hs|]. destruct (Hf2 Hs) as (E1 & E2 & E3). exists []. split; [symmetry; apply app_nil_r|]. cbn [r_delayed r_next r_flow] in *. split; [|split; [|split; [|split; [|split]]]].
        * rewrite Htl by (exact Hs || reflexivity). apply w_stop.
        * unfold pleft. rewrite E1, E2, E3, HD. change (DImage s iw ih tr :: R) with ([DImage s iw ih tr] ++ R). rewrite !dpics_app. cbn [pics dpics flat_map app]. apply Permutation_refl.
        * constructor; [exact I|constructor].
        * unfold nleaf; cbn; lia.
        * intros _. split; [constructor|reflexivity].
        * discriminate. }
  destruct Hone as (Hs & new & P1 & P2 & P3 & P4 & P5 & P6 & P7).
  assert (Hd2 : f_delayed f2 = A ++ match r_delayed r with Some x => [x] | None => [] end ++ R).
  { destruct Hs as (y & st & lb & ->). unfold f2. cbn [with_todo with_y f_delayed]. apply Hrep. }
  assert (Hf2 : flatp f2).
  { pose proof (steps_flat f f1 Hf Hs) as H0. destruct H0 as [q1 q2 q3 q4 q5 q6 q7]. constructor; try assumption.
    - rewrite Hd2. apply Forall_app. split; [exact HgA|]. apply Forall_app. split; assumption.
    - rewrite Hd2, !nleaf_app. lia. }
  assert (He2 : f_elems f2 = f_elems f) by (destruct Hs as (y & st & lb & ->); reflexivity).
  destruct (r_next r) eqn:En.
  - intros H. injection H as <- <- <-. split; [exact Hf2|]. exists new. split; [split; [exact P1|split; [exact P2|split; [exact P3|exact He2]]]|]. split; [discriminate|discriminate].
  - destruct (P6 eq_refl) as [P8 P9]. intros H. apply IH in H; [|exact Hf2| |].
    + destruct H as (Hf' & new2 & (Q1 & Q2 & Q3 & Q4) & Q5 & Q6). split; [exact Hf'|]. exists (new ++ new2). split; [|split; [|exact Q6]].
      * split; [rewrite Q1, P1, app_assoc; reflexivity|]. split; [rewrite texts_app; apply works_seq with (t1 := tleft f2 (g_heap g1)); [exact P2| |exact Q2]|].
        -- apply Forall_forall. intros p Hp. apply (proj1 (Forall_forall _ _) P8). apply filter_In in Hp. apply Hp.
        -- split; [|congruence]. rewrite pics_app, <- app_assoc. rewrite P3. apply Permutation_app_head. exact Q3.
      * intros Ha. destruct (Q5 Ha) as [Q7 Q8]. split; [apply Forall_app; auto|exact Q8].
    + rewrite Hd2. destruct (r_flow r).
      * destruct (r_delayed r) as [x|]; [|exfalso; apply (P7 eq_refl); reflexivity]. rewrite app_assoc, firstn_app. rewrite firstn_all2 by (rewrite app_length; cbn; lia). rewrite app_length. cbn [length]. replace (Datatypes.S (length A) - (length A + 1)) with 0 by lia. cbn [firstn]. rewrite app_nil_r, nleaf_app. lia.
      * rewrite firstn_app, firstn_all, Nat.sub_diag. cbn [firstn]. rewrite app_nil_r. exact HnA.
    + rewrite Hd2, !app_length. destruct (r_flow r); [|lia]. destruct (r_delayed r) as [x|]; [cbn [length]; lia|exfalso; apply (P7 eq_refl); reflexivity].
Qed.

Lemma skip_next {A} (l : list A) i a : nth_error l i = Some a -> skipn i l = a :: skipn (Datatypes.S i) l.
Proof. revert i. induction l as [|x l IH]; intros [|i] H; try discriminate; [cbn in H; injection H as ->; reflexivity|exact (IH i H)]. Qed.

Lemma add_elements_flat rec : forall fuel f g a f' anc' g',
  flatp f -> nleaf (f_delayed f) = 0 -> add_elements start crun save restore rec fuel f [] g = Done (a, (f', anc', g')) ->
  flatp f' /\ anc' = [] /\ exists new, does f g f' g' new /\
    match a with Goon => Forall ended new /\ nleaf (f_delayed f') = 0 /\ nth_error (f_elems f') (f_index f') = None | Next => True | Stop _ => False end.
Proof.
  induction fuel as [|fuel IH]; intros f g a f' anc' g' Hf Hn; [discriminate|]. cbn [add_elements].
  destruct (nth_error (f_elems f) (f_index f)) as [el|] eqn:Ee.
  2:{ intros H. injection H as <- <- <- <-. split; [exact Hf|]. split; [reflexivity|]. exists []. split; [|split; [constructor|split; [exact Hn|exact Ee]]].
      split; [symmetry; apply app_nil_r|]. split; [apply w_stop|]. split; [apply Permutation_refl|reflexivity]. }
  pose proof (proj1 (Forall_forall _ _) (fp_els f Hf) el (nth_error_In _ _ Ee)) as Hsi. pose proof (skip_next _ _ _ Ee) as Hsk.
  destruct (process start crun save restore rec f [] g el (Datatypes.S (f_index f) =? length (f_elems f))) as [[r [[f1 anc1] g1]]| |] eqn:Ep; cbn [abind]; try discriminate.
  assert (Hone : anc1 = [] /\ steps f f1 /\ exists q, r = inr q /\ exists new, g_parts g1 = g_parts g ++ new /\
     let f2 := with_todo f1 (Datatypes.S (f_index f1)) (f_delayed f1 ++ match r_delayed q with Some d => [d] | None => [] end) in
     works (tleft f (g_heap g)) (texts new) (tleft f2 (g_heap g1)) /\ Permutation (pleft f) (pics new ++ pleft f2) /\
     Forall nogroup (match r_delayed q with Some x => [x] | None => [] end) /\ nleaf (match r_delayed q with Some x => [x] | None => [] end) <= 1 /\
     (r_next q = false -> Forall ended new /\ nleaf (match r_delayed q with Some x => [x] | None => [] end) = 0)).
  { destruct el as [s e|s id iw ih|s id l|s c gp l]; cbn [process simple] in *; try contradiction.
    - destruct (process_leaf start crun save restore f g s (inl e) true true) as [[[q f0] g0]| |] eqn:El; cbn [abind] in Ep; try discriminate. injection Ep as <- <- <- <-.
      destruct (leaf_started f g s e q f0 g0 El) as (o & Ho). destruct (leaf_flat f g s _ q f0 g0 o El Ho) as (Hs & x & y & w & h & o' & ht & fin & ps & ls & Hc & Hp & Hfin).
      split; [reflexivity|]. split; [exact Hs|]. exists q. split; [reflexivity|]. exists [PlLeaf s x y w h o o' ht fin ps]. split; [exact Hp|]. cbv zeta.
      destruct Hs as (y1 & st & lb & ->). unfold tleft, pleft. cbn [with_todo with_y f_delayed f_index f_elems]. rewrite Hsk. cbn [texts_of pics_of flat_map app].
      rewrite !dtexts_app, !dpics_app, !(dtexts_none _ (f_delayed f) Hn). cbn [app]. destruct fin.
      + subst q. cbn [r_delayed r_next texts filter pics flat_map app dtexts dpics]. rewrite app_nil_r. split; [eapply w_done; [exact Ho|exact Hc|apply w_stop]|]. split; [apply Permutation_refl|]. split; [constructor|]. split; [unfold nleaf; cbn; lia|]. intros _. split; [constructor; [reflexivity|constructor]|reflexivity].
      + destruct Hfin as (ref & -> & Hh). cbn [r_delayed r_next texts filter pics flat_map app dtexts dpics]. rewrite Hh, save_ok, ?app_nil_r. cbn [app]. split; [eapply w_part; [exact Ho|exact Hc]|]. split; [rewrite ?app_nil_r; apply Permutation_refl|]. split; [constructor; [exact I|constructor]|]. split; [unfold nleaf; cbn; lia|discriminate].
    - destruct (process_image f g s (s_min s) (s_shrink s) iw ih true true) as [[ok f0] g0] eqn:Ei. destruct (image_flat f g s _ _ iw ih ok f0 g0 Ei) as (Hs & Hok).
      destruct ok.
      + injection Ep as <- <- <- <-. destruct Hok as (x & y & w & h & ->). split; [reflexivity|]. split; [exact Hs|]. exists (mkRet None false false). split; [reflexivity|]. exists [PlImage s x y w h iw ih]. split; [reflexivity|]. cbv zeta.
        destruct Hs as (y1 & st & lb & ->). unfold tleft, pleft. cbn [with_todo with_y with_parts f_delayed f_index f_elems r_delayed r_next g_heap]. rewrite Hsk. cbn [texts_of pics_of flat_map app texts filter pics].
        rewrite app_nil_r. split; [apply w_stop|]. split; [apply Permutation_sym, Permutation_middle|]. split; [constructor|]. split; [unfold nleaf; cbn; lia|]. intros _. split; [constructor; [exact I|constructor]|reflexivity].
      + subst g0. unfold image_ret in Ep. destruct (50 <=? g_tries g id); cbn [abind] in Ep; [discriminate|]. injection Ep as <- <- <- <-. split; [reflexivity|]. split; [exact Hs|]. eexists. split; [reflexivity|]. exists []. split; [symmetry; apply app_nil_r|]. cbv zeta.
        destruct Hs as (y1 & st & lb & ->). unfold tleft, pleft. cbn [with_todo with_y bump f_delayed f_index f_elems r_delayed r_next g_heap]. rewrite Hsk. cbn [texts_of pics_of flat_map app texts filter pics].
        rewrite dtexts_app, dpics_app. cbn [dtexts dpics flat_map app]. rewrite app_nil_r, <- app_assoc. cbn [app]. split; [apply w_stop|]. split; [apply Permutation_refl|]. split; [constructor; [exact I|constructor]|]. split; [unfold nleaf; cbn; lia|]. intros _. split; [constructor|reflexivity]. }
  destruct Hone as (-> & Hs & q & -> & new & P1 & P2). cbv zeta in P2. destruct P2 as (P2 & P3 & P4 & P5 & P6).
  set (f2 := with_todo f1 (Datatypes.S (f_index f1)) (f_delayed f1 ++ match r_delayed q with Some d => [d] | None => [] end)) in *.
  assert (Hd1 : f_delayed f1 = f_delayed f) by (destruct Hs as (y & st & lb & ->); reflexivity).
  assert (Hf2 : flatp f2).
  { pose proof (steps_flat f f1 Hf Hs) as H0. destruct H0 as [q1 q2 q3 q4 q5 q6 q7]. constructor; try assumption.
    - unfold f2. cbn [with_todo f_delayed]. apply Forall_app. split; assumption.
    - unfold f2. cbn [with_todo f_delayed]. rewrite nleaf_app, Hd1. lia. }
  assert (He2 : f_elems f2 = f_elems f) by (destruct Hs as (y & st & lb & ->); reflexivity).
  destruct (r_next q) eqn:En.
  - intros H. injection H as <- <- <- <-. split; [exact Hf2|]. split; [reflexivity|]. exists new. split; [split; [exact P1|split; [exact P2|split; [exact P3|exact He2]]]|exact I].
  - destruct (P6 eq_refl) as [P8 P9]. intros H. apply IH in H; [|exact Hf2|unfold f2; cbn [with_todo f_delayed]; rewrite nleaf_app, Hd1; lia].
    destruct H as (Hf' & Ha & new2 & (Q1 & Q2 & Q3 & Q4) & Q5). split; [exact Hf'|]. split; [exact Ha|]. exists (new ++ new2). split.
    + split; [rewrite Q1, P1, app_assoc; reflexivity|]. split; [rewrite texts_app; apply works_seq with (t1 := tleft f2 (g_heap g1)); [exact P2| |exact Q2]|].
      * apply Forall_forall. intros p Hp. apply (proj1 (Forall_forall _ _) P8). apply filter_In in Hp. apply Hp.
      * split; [|congruence]. rewrite pics_app, <- app_assoc. rewrite P3. apply Permutation_app_head. exact Q3.
    + destruct a; auto. destruct Q5 as (Q7 & Q8 & Q9). split; [apply Forall_app; auto|auto].
Qed.

(** The loop: it ends with everything placed, or with the state in the
    section. *)
Lemma loop_flat rec : forall fuel f g act f' anc' g',
  flatp f -> loop start crun save restore rec fuel f [] g = Done (act, (f', anc', g')) ->
  exists new, does f g f' g' new /\ flatp f' /\
    match act with
    | None => tleft f' (g_heap g') = [] /\ pleft f' = []
    | Some Interrupt => f_sindex f' = f_index f' /\ f_sdelayed f' = f_delayed f'
    | Some _ => False
    end.
Proof.
  induction fuel as [|fuel IH]; intros f g act f' anc' g' Hf; [discriminate|]. cbn [loop].
  assert (Hnext : forall (f1 : part) (g1 : glob), flatp f1 -> after (Next) f1 [] g1 = Done (Return Interrupt, (with_section f1 (f_index f1) (f_delayed f1) [], [], g1))).
  { intros f1 g1 [q1 q2 q3 q4 q5 q6 q7]. unfold after. cbn [next_section]. rewrite q2, q3, q4. reflexivity. }
  destruct (add_delayed start crun save restore fuel 0 f g) as [[[a1 f1] g1]| |] eqn:E1; cbn [abind]; try discriminate.
  destruct (add_delayed_flat fuel 0 f g a1 f1 g1 Hf eq_refl ltac:(lia) E1) as (Hf1 & new1 & D1 & D2 & D3).
  destruct a1 as [x| |]; [destruct (D3 x eq_refl)| |].
  - rewrite Hnext by exact Hf1. cbn [abind]. intros H. injection H as <- <- <- <-. exists new1. split; [exact D1|]. split; [|split; reflexivity].
    destruct Hf1 as [q1 q2 q3 q4 q5 q6 q7]. constructor; assumption.
  - cbn [after abind]. destruct (D2 eq_refl) as [D4 D5].
    destruct (add_elements start crun save restore rec fuel f1 [] g1) as [[a2 [[f2 anc2] g2]]| |] eqn:E2; cbn [abind]; try discriminate.
    destruct (add_elements_flat rec fuel f1 g1 a2 f2 anc2 g2 Hf1 D5 E2) as (Hf2 & -> & new2 & D6 & D7).
    assert (D8 : does f g f2 g2 (new1 ++ new2)).
    { destruct D1 as (P1 & P2 & P3 & P4). destruct D6 as (Q1 & Q2 & Q3 & Q4). split; [rewrite Q1, P1, app_assoc; reflexivity|]. split; [rewrite texts_app; apply works_seq with (t1 := tleft f1 (g_heap g1)); [exact P2| |exact Q2]|].
      * apply Forall_forall. intros p Hp. apply (proj1 (Forall_forall _ _) D4). apply filter_In in Hp. apply Hp.
      * split; [|congruence]. rewrite pics_app, <- app_assoc. rewrite P3. apply Permutation_app_head. exact Q3. }
    destruct a2 as [x| |]; [contradiction| |].
    + rewrite Hnext by exact Hf2. cbn [abind]. intros H. injection H as <- <- <- <-. exists (new1 ++ new2). split; [exact D8|]. split; [|split; reflexivity].
      destruct Hf2 as [q1 q2 q3 q4 q5 q6 q7]. constructor; assumption.
    + destruct D7 as (D9 & D10 & D11). cbn [after abind]. destruct (f_delayed f2) as [|d ds] eqn:Ed.
      * destruct Hf2 as [q1 q2 q3 q4 q5 q6 q7]. rewrite q2, q4. cbn [negb andb Nat.ltb Nat.leb]. intros H. injection H as <- <- <- <-. exists (new1 ++ new2). split; [exact D8|]. split; [constructor; assumption|].
        unfold tleft, pleft. rewrite Ed. apply nth_error_None in D11. rewrite skipn_all2 by exact D11. split; reflexivity.
      * intros H. destruct (IH f2 g2 act f' anc' g' Hf2 H) as (new3 & (Q1 & Q2 & Q3 & Q4) & Q5 & Q6). destruct D8 as (P1 & P2 & P3 & P4). exists ((new1 ++ new2) ++ new3). split; [|split; assumption].
        split; [rewrite Q1, P1, !app_assoc; reflexivity|]. split; [rewrite texts_app; apply works_seq with (t1 := tleft f2 (g_heap g2)); [exact P2| |exact Q2]|].
        -- apply Forall_forall. intros p Hp. apply filter_In in Hp. destruct Hp as [Hp _]. apply in_app_iff in Hp. destruct Hp as [Hp|Hp]; [apply (proj1 (Forall_forall _ _) D4)|apply (proj1 (Forall_forall _ _) D9)]; exact Hp.
        -- split; [|congruence]. rewrite pics_app, <- app_assoc. rewrite P3. apply Permutation_app_head. exact Q3.
Qed.
Lemma run_part_flat fuel f g act f' anc' g' :
  flatp f -> run_part start crun save restore fuel f [] g = Done (act, (f', anc', g')) ->
  exists new, does f g f' g' new /\ flatp f' /\
    match act with
    | None => tleft f' (g_heap g') = [] /\ pleft f' = []
    | Some Interrupt => f_sindex f' = f_index f' /\ f_sdelayed f' = f_delayed f'
    | Some _ => False
    end.
Proof. destruct fuel as [|fuel]; cbn [run_part]; [discriminate|]. apply loop_flat. Qed.
End Flat.
