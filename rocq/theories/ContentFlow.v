(** Boxes of one column: the elements come in order, each after the other, and
    continue where they stopped. *)
From Coq Require Import QArith ZArith Lia Lqa.
From Verif Require Import Py Table Content.
Open Scope list_scope.
Open Scope nat_scope.

Lemma qlt_spec a b : qlt a b = true <-> (a < b)%Q.
Proof.
  unfold qlt. rewrite Bool.negb_true_iff. split.
  - intro H. destruct (Qlt_le_dec a b) as [Hl|Hl]; auto. apply Qle_bool_iff in Hl. congruence.
  - intro H. destruct (Qle_bool b a) eqn:E; auto. apply Qle_bool_iff in E. lra.
Qed.
Lemma qlt_false a b : qlt a b = false <-> (b <= a)%Q.
Proof. unfold qlt. rewrite Bool.negb_false_iff. apply Qle_bool_iff. Qed.
Lemma qmax_le a b : (a <= qmax a b /\ b <= qmax a b)%Q.
Proof. unfold qmax. destruct (Qle_bool b a) eqn:E; [apply Qle_bool_iff in E; lra|]. destruct (Qlt_le_dec a b) as [Hl|Hl]; [lra|]. apply Qle_bool_iff in Hl; congruence. Qed.
Lemma qmax_or a b : qmax a b = a \/ qmax a b = b.
Proof. unfold qmax. destruct (Qle_bool b a); auto. Qed.

Section Flow.
Context {E O S P L : Type}.
Variable start : E -> res O.
Variable crun : O -> Q -> Q -> Q -> Q -> res (O * Q * bool * list P * list L).
Variable save : O -> S.
Variable restore : O -> S -> O.
Hypothesis save_ok : forall o, restore o (save o) = o.

Notation elem := (@elem E).
Notation delem := (@delem E S).
Notation part := (@part E S).
Notation glob := (@glob O P L).
Notation placed := (@placed O P).

(** Work to do: an element to begin, an object to go on with, an image. *)
Inductive work := New (e : E) | Old (o : O) | Pic (iw ih : Q).
Definition begins (k : work) (o : O) : Prop := match k with New e => start e = Ok o | Old o' => o = o' | Pic _ _ => False end.
(** [works t ps t']: doing the work [t] from the beginning puts [ps], and [t'] is
    left.  Each object is run until it has finished before the next one
    begins. *)
Inductive works : list work -> list placed -> list work -> Prop :=
| w_stop t : works t [] t
| w_done k t ps t' s x y w h o o' height parts lines :
    begins k o -> crun o x y w h = Ok (o', height, true, parts, lines) -> works t ps t' ->
    works (k :: t) (PlLeaf s x y w h o o' height true parts :: ps) t'
| w_part k t s x y w h o o' height parts lines :
    begins k o -> crun o x y w h = Ok (o', height, false, parts, lines) ->
    works (k :: t) [PlLeaf s x y w h o o' height false parts] (Old o' :: t)
| w_pic t ps t' s x y w h iw ih :
    works t ps t' -> works (Pic iw ih :: t) (PlImage s x y w h iw ih :: ps) t'.

Lemma works_app t a t2 b r : works t a [] -> works t2 b r -> works (t ++ t2) (a ++ b) r.
Proof.
  intros H. remember (@nil work) as z eqn:Ez. induction H as [t|k t ps t' s x y w h o o' height parts lines Hb Hc Hw IH|k t s x y w h o o' height parts lines Hb Hc|t ps t' s x y w h iw ih Hw IH]; intros H2.
  - subst t. exact H2.
  - cbn [app]. eapply w_done; eauto.
  - discriminate.
  - cbn [app]. apply w_pic. auto.
Qed.
Lemma works_more t a r t2 : works t a r -> works (t ++ t2) a (r ++ t2).
Proof.
  intros H. induction H as [t|k t ps t' s x y w h o o' height parts lines Hb Hc Hw IH|k t s x y w h o o' height parts lines Hb Hc|t ps t' s x y w h iw ih Hw IH]; cbn [app].
  - constructor.
  - eapply w_done; eauto.
  - eapply w_part; eauto.
  - apply w_pic. auto.
Qed.

(** What is to be done of the elements of a box, of those inside too. *)
Fixpoint flat_elem (el : elem) : list work :=
  match el with
  | Leaf _ e => [New e]
  | Image _ _ iw ih => [Pic iw ih]
  | Group _ _ _ => []
  | Child _ _ _ l => flat_map flat_elem l
  end.
Definition flat (l : list elem) : list work := flat_map flat_elem l.
Definition pend (heap : list O) (d : delem) : list work :=
  match d with
  | DLeaf _ ref sv => match nth_error heap ref with Some o => [Old (restore o sv)] | None => [] end
  | DImage _ iw ih _ => [Pic iw ih]
  | DGroup _ _ _ => []
  end.
(** What is to be done from a state: index, delayed elements, and what the
    boxes inside remember, from the outermost on. *)
Fixpoint todo (heap : list O) (l : list elem) (i : nat) (d : list delem) (rm : cmem) : list work :=
  flat_map (pend heap) d ++
  match rm with
  | [] => flat (skipn i l)
  | (i', d') :: rm' =>
      match nth_error l i with
      | Some (Child _ _ _ l') => todo heap l' i' d' rm' ++ flat (skipn (Datatypes.S i) l)
      | _ => flat (skipn i l)
      end
  end.
Lemma flat_skip l i el : nth_error l i = Some el -> flat (skipn i l) = flat_elem el ++ flat (skipn (Datatypes.S i) l).
Proof.
  revert i. induction l as [|a l IH]; intros [|i] H; try discriminate.
  - cbn in H. injection H as ->. reflexivity.
  - cbn [nth_error] in H. cbn [skipn]. rewrite (IH i H). reflexivity.
Qed.
Lemma flat_none l i : nth_error l i = None -> flat (skipn i l) = [].
Proof. intros H. apply nth_error_None in H. rewrite skipn_all2 by exact H. reflexivity. Qed.

(** Boxes of one column, with margins that are not negative, whose elements are
    paragraphs, tables, images that keep their place (narrower margins than the
    box), and such boxes. *)
Section Width.
Variable W : Q.
Definition plain_style (s : style) : Prop := (0 <= s_mt s /\ 0 <= s_mb s)%Q.
Definition plain_image (s : style) (iw ih : Q) : Prop :=
  s_place s = PNormal /\ (0 < iw /\ 0 < ih /\ s_ml s + s_mr s < W /\ match s_min s with Some m => 0 <= m | None => True end)%Q.
Fixpoint plain (el : elem) : Prop :=
  match el with
  | Leaf s _ => plain_style s
  | Image s _ iw ih => plain_style s /\ plain_image s iw ih
  | Group _ _ _ => False
  | Child s cols _ l => plain_style s /\ cols = 1 /\ fold_right (fun e acc => plain e /\ acc) True l
  end.
Definition plains (l : list elem) : Prop := fold_right (fun e acc => plain e /\ acc) True l.
Definition plain_delayed (d : delem) : Prop :=
  match d with DLeaf s _ _ => plain_style s | DImage s iw ih _ => plain_style s /\ plain_image s iw ih | DGroup _ _ _ => False end.
Lemma plains_nth l i el : plains l -> nth_error l i = Some el -> plain el.
Proof.
  revert i. induction l as [|a l IH]; intros [|i] H Hn; try discriminate; destruct H as [Ha Hl].
  - cbn in Hn. injection Hn as <-. exact Ha.
  - exact (IH i Hl Hn).
Qed.
Lemma work_el el : plain el -> match el with Child _ _ _ _ => True | _ => exists k, flat_elem el = [k] end.
Proof. destruct el; cbn; intros H; eauto; contradiction. Qed.

(** A state from which to go on: only the innermost box has something
    delayed. *)
Fixpoint tidy (l : list elem) (i : nat) (d : list delem) (rm : cmem) : Prop :=
  match rm with
  | [] => d = [] \/ exists x, d = [x] /\ plain_delayed x
  | (i', d') :: rm' => d = [] /\ exists s n gap l', nth_error l i = Some (Child s n gap l') /\ tidy l' i' d' rm'
  end.

(** Parts one below the other, from [top] down to [floor]; those that have no
    height take no room. *)
Definition p_top (p : placed) : Q := match p with PlLeaf _ _ y _ _ _ _ _ _ _ => y | PlImage _ _ y _ h _ _ => (y + h)%Q end.
Definition p_height (p : placed) : Q := match p with PlLeaf _ _ _ _ _ _ _ ht _ _ => ht | PlImage _ _ _ _ h _ _ => h end.
Definition under (fl : Q) (p : placed) : Q := if qlt 0 (p_height p) then (p_top p - p_height p)%Q else fl.
Inductive stacked (top : Q) : list placed -> Q -> Prop :=
| st_nil : stacked top [] top
| st_snoc ps fl p : stacked top ps fl -> ((0 < p_height p)%Q -> (p_top p <= fl)%Q) -> stacked top (ps ++ [p]) (under fl p).

(** A box while it runs. *)
Variable B : Q.
Record calm (f : part) : Prop := {
  ca_cols : f_cols f = 1; ca_column : f_column f = 0; ca_will : f_will f = false; ca_reset : f_resetting f = false;
  ca_elems : plains (f_elems f); ca_lb : (0 <= f_lastbottom f)%Q; ca_w : (W <= f_colw f)%Q; ca_y : (f_y f <= f_miny f)%Q; ca_max : (f_maxy f == B)%Q;
  ca_idx : f_sindex f <= f_index f; ca_partial : f_partial f = None }.
(** The boxes around one that runs: each is at its child, with nothing
    delayed. *)
Fixpoint around (l : list elem) (anc : list part) : Prop :=
  match anc with
  | [] => True
  | p :: rest => calm p /\ f_delayed p = [] /\ (exists s n gap, nth_error (f_elems p) (f_index p) = Some (Child s n gap l)) /\ around (f_elems p) rest
  end.
(** What comes after the box in those around it. *)
Fixpoint later (anc : list part) : list work :=
  match anc with [] => [] | p :: rest => flat (skipn (Datatypes.S (f_index p)) (f_elems p)) ++ later rest end.
(** The memory that is in use. *)
Definition memo (f : part) : cmem := if f_index f =? f_sindex f then rev (f_memory f) else [].
Definition cur (heap : list O) (f : part) : list work := todo heap (f_elems f) (f_index f) (f_delayed f) (memo f).

(** The floor of the parts, and the box above it. *)
Definition upon (top : Q) (fl0 : Q) (f : part) (g : glob) : Prop :=
  exists fl, stacked top (g_parts g) fl /\ (f_y f <= fl)%Q /\ ((f_y f < f_miny f)%Q \/ fl = fl0).
(** What the root keeps. *)
Definition root (f : part) (anc : list part) : part := last anc f.
Definition saved (heap : list O) (f : part) : list work := todo heap (f_elems f) (f_sindex f) (f_sdelayed f) (rev (f_memory f)).

(** It can run again. *)
Definition kept (f : part) : Prop := f_cols f = 1 /\ f_partial f = None.

(** Boxes that did not move, and one that was interrupted among them. *)
Definition same_y (p p' : part) : Prop := f_y p' = f_y p /\ f_miny p' = f_miny p /\ f_cols p' = f_cols p.
Definition broken (top fl0 : Q) (f : part) (anc : list part) (f' : part) (anc' : list part) (g' : glob) : Prop :=
  upon top fl0 f' g' /\ f_miny f' = f_miny f /\ f_cols f' = 1 /\ Forall2 same_y anc anc'.
Lemma same_y_refl l : Forall2 same_y l l.
Proof. induction l; constructor; [repeat split|assumption]. Qed.
Definition post (top fl0 : Q) (f : part) (anc : list part) (g : glob) (act : option action) (f' : part) (anc' : list part) (g' : glob) : Prop :=
  exists new, g_parts g' = g_parts g ++ new /\
  match act with
  | None => works (cur (g_heap g) f) new [] /\ anc' = anc /\ upon top fl0 f' g' /\ f_miny f' = f_miny f /\ f_cols f' = 1
  | Some Interrupt =>
      exists rem, works (cur (g_heap g) f) new rem /\ broken top fl0 f anc f' anc' g' /\
        saved (g_heap g') (root f' anc') = rem ++ later anc /\
        tidy (f_elems (root f' anc')) (f_sindex (root f' anc')) (f_sdelayed (root f' anc')) (rev (f_memory (root f' anc'))) /\
        f_elems (root f' anc') = f_elems (root f anc) /\ kept (root f' anc') /\ length anc' = length anc
  | Some _ => False
  end.
Definition pre (top fl0 : Q) (f : part) (anc : list part) (g : glob) : Prop :=
  calm f /\ around (f_elems f) anc /\ upon top fl0 f g /\ tidy (f_elems f) (f_index f) (f_delayed f) (memo f).
(** What a runner must do. *)
Definition fine (rec : runner) : Prop :=
  forall top fl0 f anc g act f' anc' g', pre top fl0 f anc g -> rec f anc g = Done (act, (f', anc', g')) -> post top fl0 f anc g act f' anc' g'.

(** *** One element *)
Lemma space_y (f : part) s top : calm f -> plain_style s -> (snd (fst (fst (space f s top))) <= f_y f)%Q.
Proof.
  intros C [Hm Hb]. unfold space. cbn [fst snd]. pose proof (ca_lb f C).
  destruct (f_starting f); cbn [negb andb]; [lra|]. destruct top; lra.
Qed.

(** What does not change when an element is put. *)
Definition same (f f' : part) : Prop := exists y st lb, f' = with_y f y st lb.
Lemma same_memo f f' : same f f' -> memo f' = memo f.
Proof. intros (y & st & lb & ->). reflexivity. Qed.
Lemma same_calm f f' : same f f' -> calm f -> (f_y f' <= f_miny f)%Q -> (0 <= f_lastbottom f')%Q -> calm f'.
Proof. intros (y & st & lb & ->) C Hy Hl. destruct C. constructor; auto. Qed.

Lemma nth_hset (n : nat) (o : O) (l : list O) : n < length l -> nth_error (hset n o l) n = Some o.
Proof.
  intros H. unfold hset. rewrite nth_error_app2; rewrite firstn_length, Nat.min_l by lia; [|lia]. rewrite Nat.sub_diag. reflexivity.
Qed.
Lemma nth_snoc (o : O) (l : list O) : nth_error (l ++ [o]) (length l) = Some o.
Proof. rewrite nth_error_app2, Nat.sub_diag by lia. reflexivity. Qed.

Lemma leaf_ok (top fl0 : Q) f g s src k r f' g' :
  calm f -> plain_style s -> upon top fl0 f g ->
  match src with inl e => k = New e | inr (ref, sv) => pend (g_heap g) (DLeaf s ref sv) = [k] end ->
  process_leaf start crun save restore f g s src true true = Done (r, f', g') ->
  same f f' /\ (f_y f' <= f_y f)%Q /\ (0 <= f_lastbottom f')%Q /\ upon top fl0 f' g' /\ r_flow r = false /\
  exists p, g_parts g' = g_parts g ++ [p] /\
    match r_delayed r with
    | None => works [k] [p] [] /\ r_next r = false
    | Some d => exists k', pend (g_heap g') d = [k'] /\ works [k] [p] [k'] /\ plain_delayed d /\ r_next r = true
    end.
Proof.
  intros C Hs (fl & Hst & Hfl & Hor) Hk. unfold process_leaf.
  pose proof (space_y f s true C Hs) as Hsp. destruct (space f s true) as [[[x y] w] h] eqn:Esp. cbn [fst snd] in Hsp.
  destruct (match src with inl e => _ | inr _ => _ end) as [[ref o]| |] eqn:Es; cbn [abind]; try discriminate.
  assert (Hbeg : begins k o /\ ref <= length (g_heap g)).
  { destruct src as [e|[ref0 sv]].
    - destruct (start e) as [o0|] eqn:E0; cbn [lift abind] in Es; try discriminate. injection Es as <- <-. subst k. split; [exact E0|lia].
    - cbn [pend] in Hk. destruct (nth_error (g_heap g) ref0) as [o0|] eqn:E0; try discriminate. injection Es as <- <-. injection Hk as <-. split; [reflexivity|].
      pose proof (proj1 (nth_error_Some (g_heap g) ref0)) as Hx. rewrite E0 in Hx. specialize (Hx ltac:(discriminate)). lia. }
  destruct Hbeg as [Hbeg Href].
  destruct (crun o x y w h) as [[[[[o' ht] fin] parts] lines]|] eqn:Ec; cbn [lift abind]; try discriminate.
  intros Hd. injection Hd as <- <- <-.
  set (p := PlLeaf s x y w h o o' ht fin parts).
  split; [|split; [|split; [|split; [|split]]]].
  - destruct (qlt 0 ht); eexists _, _, _; reflexivity.
  - destruct (qlt 0 ht) eqn:E0; cbn [with_y f_y]; [apply qlt_spec in E0; lra|lra].
  - destruct Hs. destruct (qlt 0 ht); cbn [with_y f_lastbottom]; [lra|apply (ca_lb f C)].
  - exists (under fl p). cbn [g_parts]. split; [|split].
    + apply st_snoc; [exact Hst|]. intros _. cbn [p p_top]. lra.
    + unfold under. cbn [p p_height p_top]. destruct (qlt 0 ht); cbn [with_y f_y]; lra.
    + unfold under. cbn [p p_height p_top]. destruct (qlt 0 ht) eqn:E0; cbn [with_y f_y f_miny]; [left|exact Hor].
      apply qlt_spec in E0. pose proof (ca_y f C). lra.
  - destruct fin; reflexivity.
  - exists p. split; [reflexivity|]. destruct fin; cbn [r_delayed r_next].
    + split; [|reflexivity]. eapply w_done; eauto. constructor.
    + exists (Old o'). split; [|split; [eapply w_part; eauto|split; [exact Hs|reflexivity]]].
      cbn [pend g_heap]. assert (Hn : nth_error (if ref =? length (g_heap g) then g_heap g ++ [o'] else hset ref o' (g_heap g)) ref = Some o').
      { destruct (ref =? length (g_heap g)) eqn:Er; [apply Nat.eqb_eq in Er; subst ref; apply nth_snoc|]. apply Nat.eqb_neq in Er. apply nth_hset. lia. }
      rewrite Hn, save_ok. reflexivity.
Qed.

Lemma image_ok (top fl0 : Q) f g s iw ih ok f' g' :
  calm f -> plain_style s -> plain_image s iw ih -> upon top fl0 f g ->
  process_image f g s (s_min s) (s_shrink s) iw ih true true = (ok, f', g') ->
  same f f' /\ (f_y f' <= f_y f)%Q /\ (0 <= f_lastbottom f')%Q /\ upon top fl0 f' g' /\
  if ok then exists p, g_parts g' = g_parts g ++ [p] /\ works [Pic iw ih] [p] [] else g' = g.
Proof.
  intros C Hs (Hpl & Hiw & Hih & Hmar & Hmin) (fl & Hst & Hfl & Hor). unfold process_image.
  pose proof (space_y f s true C Hs) as Hsp. pose proof (ca_w f C) as HW. pose proof (ca_y f C) as Hmy.
  destruct (space f s true) as [[[x y] w] h] eqn:Esp. cbn [fst snd] in Hsp.
  assert (Hw : (0 < w)%Q) by (unfold space in Esp; injection Esp as _ _ <- _; lra).
  assert (Hh : (0 <= h)%Q) by (unfold space in Esp; injection Esp as _ _ _ <-; apply qmax_le).
  assert (Hgo : forall x' w' ht, (0 <= ht)%Q ->
    (true, with_y f (y - ht)%Q false (s_mb s), with_parts g (g_parts g ++ [PlImage s x' (y - ht) w' ht iw ih])) = (ok, f', g') ->
    same f f' /\ (f_y f' <= f_y f)%Q /\ (0 <= f_lastbottom f')%Q /\ upon top fl0 f' g' /\
    if ok then exists p, g_parts g' = g_parts g ++ [p] /\ works [Pic iw ih] [p] [] else g' = g).
  { intros x' w' ht Hht Heq. injection Heq as <- <- <-. cbn [with_y f_y f_lastbottom with_parts g_parts]. destruct Hs as [Hmt Hmb].
    split; [eexists _, _, _; reflexivity|]. split; [lra|]. split; [lra|]. split.
    - exists (under fl (PlImage s x' (y - ht) w' ht iw ih)). cbn [with_parts g_parts]. split; [apply st_snoc; [exact Hst|]; intros _; cbn [p_top]; lra|].
      unfold under. cbn [p_top p_height with_y f_y f_miny]. destruct (qlt 0 ht) eqn:E0; [apply qlt_spec in E0; split; [lra|left; lra]|].
      split; [lra|]. destruct Hor as [Hor|Hor]; [left; lra|right; exact Hor].
    - eexists. split; [reflexivity|]. apply w_pic, w_stop. }
  assert (Hno : (false, with_y f (f_y f) (f_starting f) (f_lastbottom f), g) = (ok, f', g') ->
    same f f' /\ (f_y f' <= f_y f)%Q /\ (0 <= f_lastbottom f')%Q /\ upon top fl0 f' g' /\
    if ok then exists p, g_parts g' = g_parts g ++ [p] /\ works [Pic iw ih] [p] [] else g' = g).
  { intros Heq. injection Heq as <- <- <-. cbn [with_y f_y f_lastbottom]. split; [eexists _, _, _; reflexivity|]. split; [lra|]. split; [apply (ca_lb f C)|].
    split; [exists fl; auto|reflexivity]. }
  destruct (qlt (w * ih / iw) h) eqn:E1.
  - apply Hgo. apply Qle_shift_div_l; [exact Hiw|]. nra.
  - destruct (s_min s) as [m|] eqn:Em; [|apply Hno]. destruct (Qle_bool m h) eqn:E2; [|apply Hno].
    apply Hgo. destruct (s_shrink s); lra.
Qed.

(** *** The delayed element *)
Lemma delayed_ok (top fl0 : Q) x f g r f' g' :
  calm f -> plain_delayed x -> upon top fl0 f g ->
  process_delayed start crun save restore f g x = Done (r, f', g') ->
  same f f' /\ (f_y f' <= f_y f)%Q /\ (0 <= f_lastbottom f')%Q /\ upon top fl0 f' g' /\ r_flow r = false /\
  exists new, g_parts g' = g_parts g ++ new /\
    match r_delayed r with
    | None => works (pend (g_heap g) x) new [] /\ r_next r = false
    | Some d => exists k', pend (g_heap g') d = [k'] /\ works (pend (g_heap g) x) new [k'] /\ plain_delayed d /\ r_next r = true
    end.
Proof.
  intros C Hx Hu. destruct x as [s ref sv|s iw ih tries|s l tries]; cbn [process_delayed]; [| |contradiction].
  - intros Hd. destruct (nth_error (g_heap g) ref) as [o|] eqn:Eo.
    2:{ unfold process_leaf in Hd. destruct (space f s true) as [[[x y] w] h]. rewrite Eo in Hd. discriminate. }
    assert (Hp : pend (g_heap g) (DLeaf s ref sv) = [Old (restore o sv)]) by (cbn [pend]; rewrite Eo; reflexivity).
    destruct (leaf_ok top fl0 f g s (inr (ref, sv)) (Old (restore o sv)) r f' g' C Hx Hu Hp Hd) as (H1 & H2 & H3 & H4 & H5 & p & H6 & H7).
    do 5 (split; [assumption|]). exists [p]. split; [exact H6|]. rewrite Hp. exact H7.
  - destruct Hx as [Hs Hi]. destruct (process_image f g s (s_min s) (s_shrink s) iw ih true true) as [[ok f1] g1] eqn:Ei.
    destruct (image_ok top fl0 f g s iw ih ok f1 g1 C Hs Hi Hu Ei) as (H1 & H2 & H3 & H4 & H5). destruct ok.
    + intros Hd. injection Hd as <- <- <-. cbn [r_flow r_delayed r_next]. do 4 (split; [assumption|]). split; [reflexivity|]. destruct H5 as (p & H5 & H6). exists [p]. split; [exact H5|]. split; [exact H6|reflexivity].
    + unfold image_ret. destruct (50 <=? tries); cbn [abind]; [discriminate|]. intros Hd. injection Hd as <- <- <-. subst g1.
      destruct Hi as (Hpl & Hi). cbn [r_flow r_delayed r_next]. rewrite Hpl. do 4 (split; [assumption|]). split; [reflexivity|].
      exists []. split; [rewrite app_nil_r; reflexivity|]. exists (Pic iw ih). split; [reflexivity|]. split; [apply w_stop|]. split; [|reflexivity]. split; [exact Hs|split; [exact Hpl|exact Hi]].
Qed.

Definition single (d : list delem) : Prop := d = [] \/ exists x, d = [x] /\ plain_delayed x.
Lemma add_delayed_nil fuel f g a f' g' : f_delayed f = [] -> add_delayed start crun save restore fuel 0 f g = Done (a, f', g') -> a = Goon /\ f' = f /\ g' = g.
Proof. intros E0. destruct fuel; [discriminate|]. cbn [add_delayed]. rewrite E0. cbn [nth_error]. intros H. injection H as <- <- <-. auto. Qed.
Lemma calm_todo f i d : calm f -> f_sindex f <= i -> calm (with_todo f i d).
Proof. intros [] H. constructor; auto. Qed.
Lemma add_delayed_ok (top fl0 : Q) fuel x f g a f' g' :
  calm f -> f_delayed f = [x] -> plain_delayed x -> upon top fl0 f g ->
  add_delayed start crun save restore fuel 0 f g = Done (a, f', g') ->
  calm f' /\ upon top fl0 f' g' /\ f_miny f' = f_miny f /\ f_elems f' = f_elems f /\ f_index f' = f_index f /\ memo f' = memo f /\
  exists new, g_parts g' = g_parts g ++ new /\
    ((a = Goon /\ f_delayed f' = [] /\ works (pend (g_heap g) x) new []) \/
     (a = Next /\ exists x' k', f_delayed f' = [x'] /\ plain_delayed x' /\ pend (g_heap g') x' = [k'] /\ works (pend (g_heap g) x) new [k'])).
Proof.
  intros C Ed Hx Hu. destruct fuel as [|fuel]; [discriminate|]. cbn [add_delayed]. rewrite Ed. cbn [nth_error].
  destruct (process_delayed start crun save restore f g x) as [[[r f1] g1]| |] eqn:Ep; cbn [abind]; try discriminate.
  destruct (delayed_ok top fl0 x f g r f1 g1 C Hx Hu Ep) as (H1 & H2 & H3 & H4 & H5 & new & H6 & H7).
  pose proof (ca_y f C) as Hy. assert (C1 : calm f1) by (apply (same_calm f f1 H1 C); [lra|exact H3]).
  destruct H1 as (yy & st & lb & ->). cbn [with_y f_delayed f_index] in *.
  rewrite Ed. unfold replace_nth. cbn [firstn skipn app]. rewrite app_nil_r.
  destruct (r_delayed r) as [d|] eqn:Er.
  - destruct H7 as (k' & K1 & K2 & K3 & K4). rewrite K4. intros H. injection H as <- <- <-.
    split; [apply calm_todo; [exact C1|apply (ca_idx f C)]|]. split; [exact H4|]. do 4 (split; [reflexivity|]).
    exists new. split; [exact H6|]. right. split; [reflexivity|]. exists d, k'. auto.
  - destruct H7 as [K1 K2]. rewrite K2, H5. intros H. apply add_delayed_nil in H; [|reflexivity]. destruct H as (-> & -> & ->).
    split; [apply calm_todo; [exact C1|apply (ca_idx f C)]|]. split; [exact H4|]. do 4 (split; [reflexivity|]).
    exists new. split; [exact H6|]. left. auto.
Qed.

(** *** The end of the section *)
Lemma last_cons {A} (l : list A) a d : last (a :: l) d = last l a.
Proof. revert a d. induction l as [|b l IH]; intros; [reflexivity|]. cbn [last] in *. destruct l; [reflexivity|]. apply IH. Qed.
Lemma root_cons (f p : part) rest : root f (p :: rest) = root p rest.
Proof. unfold root. apply last_cons. Qed.
Definition below (cm : option (@cmem E S)) : @cmem E S := match cm with Some c => c | None => [] end.
Lemma next_section_cons n (cm : option cmem) (f : part) anc : next_section n cm (f :: anc) =
  if Datatypes.S (f_column f) =? f_cols f then
    if f_resetting f then (SBreak, with_reset f (f_will f) (f_resetting f) (f_maxy f) (f_difflast f) (f_diff f) true :: anc)
    else
      let f1 := with_section f (f_index f) (f_delayed f) (below cm) in
      match anc with
      | [] => (SInterrupt, [f1])
      | _ =>
          let '(r, anc') := next_section n (Some (below cm ++ [(f_index f, f_delayed f)])) anc in
          match r with
          | SPos x y => (match cm with None => SRetry | Some _ => r end, moved f1 x y n :: anc')
          | _ => (r, f1 :: anc')
          end
      end
  else
    let f1 := with_column f (Datatypes.S (f_column f)) in
    match cm, f_delayed f with
    | Some c, _ :: _ => (SPartial, with_partial f1 (Some c) :: anc)
    | None, _ => (SRetry, f1 :: anc)
    | Some _, [] => (SPos (left_edge f1) (f_miny f1), f1 :: anc)
    end.
Proof. reflexivity. Qed.
Lemma next_ok heap : forall anc f n cm r st,
  calm f -> around (f_elems f) anc -> tidy (f_elems f) (f_index f) (f_delayed f) (rev (below cm)) ->
  next_section n cm (f :: anc) = (r, st) ->
  r = SInterrupt /\ exists f' anc', st = f' :: anc' /\ (length anc' = length anc /\ same_y f f' /\ f_cols f' = 1 /\ Forall2 same_y anc anc') /\
    saved heap (root f' anc') = todo heap (f_elems f) (f_index f) (f_delayed f) (rev (below cm)) ++ later anc /\
    tidy (f_elems (root f' anc')) (f_sindex (root f' anc')) (f_sdelayed (root f' anc')) (rev (f_memory (root f' anc'))) /\
    f_elems (root f' anc') = f_elems (root f anc) /\ kept (root f' anc').
Proof.
  induction anc as [|p rest IH]; intros f n cm r st C Ha Ht; rewrite next_section_cons; rewrite (ca_column f C), (ca_cols f C), (ca_reset f C), Nat.eqb_refl.
  - cbv zeta. intros H. injection H as <- <-. split; [reflexivity|]. eexists _, []. split; [reflexivity|]. split; [split; [reflexivity|]; split; [repeat split|]; split; [apply (ca_cols f C)|constructor]|].
    unfold root, saved. cbn [last with_section f_elems f_sindex f_sdelayed f_memory f_cols later]. rewrite app_nil_r. split; [reflexivity|]. split; [exact Ht|]. split; [reflexivity|]. split; [apply (ca_cols f C)|apply (ca_partial f C)].
  - destruct Ha as (Cp & Hd & (s & m & gap & Hn) & Har).
    cbv zeta.
    destruct (next_section n (Some (below cm ++ [(f_index f, f_delayed f)])) (p :: rest)) as [r0 st0] eqn:En.
    assert (Htp : tidy (f_elems p) (f_index p) (f_delayed p) (rev (below cm ++ [(f_index f, f_delayed f)]))).
    { rewrite rev_app_distr. cbn [rev app tidy]. split; [exact Hd|]. exists s, m, gap, (f_elems f). split; [exact Hn|exact Ht]. }
    destruct (IH p n (Some (below cm ++ [(f_index f, f_delayed f)])) r0 st0 Cp Har Htp En) as (-> & f' & anc' & -> & (Hl & Hsy & _ & Hsa) & Hs & Ht' & He & Hc).
    intros H. injection H as <- <-. split; [reflexivity|]. eexists _, (f' :: anc'). split; [reflexivity|]. split; [split; [cbn [length]; rewrite Hl; reflexivity|]; split; [repeat split|]; split; [apply (ca_cols f C)|constructor; assumption]|].
    rewrite !root_cons. split; [|split; [exact Ht'|split; [exact He|exact Hc]]].
    rewrite Hs. cbn [below]. rewrite rev_app_distr. cbn [rev app todo later]. rewrite Hd, Hn. cbn [flat_map app]. rewrite <- app_assoc. reflexivity.
Qed.

(** *** A box inside *)
Lemma todo_nil heap l i rm : (forall s n gap l', nth_error l i = Some (Child s n gap l') -> rm = []) \/ rm = [] -> todo heap l i [] rm = flat (skipn i l).
Proof.
  intros H. destruct rm as [|[i' d'] rm]; [reflexivity|]. cbn [todo flat_map app]. destruct H as [H|H]; [|discriminate].
  destruct (nth_error l i) as [[| | |s n gap l']|] eqn:E0; try reflexivity. specialize (H s n gap l' eq_refl). discriminate.
Qed.
Lemma fold_plains l : fold_right (fun e acc => plain e /\ acc) True l = plains l.
Proof. reflexivity. Qed.
Lemma child_ok (rec : @runner E O S P L) (top fl0 : Q) f anc g s n gap l lst r f' anc' g' :
  fine rec -> calm f -> around (f_elems f) anc -> upon top fl0 f g -> f_delayed f = [] -> tidy (f_elems f) (f_index f) [] (memo f) ->
  nth_error (f_elems f) (f_index f) = Some (Child s n gap l) ->
  process_child rec f anc g s n gap l lst = Done (r, (f', anc', g')) ->
  exists new, g_parts g' = g_parts g ++ new /\
  match r with
  | inr q => q = mkRet None false false /\ same f f' /\ anc' = anc /\ calm f' /\ upon top fl0 f' g' /\
             exists now, cur (g_heap g) f = now ++ flat (skipn (Datatypes.S (f_index f)) (f_elems f)) /\ works now new []
  | inl Interrupt =>
      exists rem, works (cur (g_heap g) f) new rem /\ broken top fl0 f anc f' anc' g' /\
        saved (g_heap g') (root f' anc') = rem ++ later anc /\
        tidy (f_elems (root f' anc')) (f_sindex (root f' anc')) (f_sdelayed (root f' anc')) (rev (f_memory (root f' anc'))) /\
        f_elems (root f' anc') = f_elems (root f anc) /\ kept (root f' anc') /\ length anc' = length anc
  | inl _ => False
  end.
Proof.
  intros Hrec C Ha (fl & Hst & Hfl & Hor) Hd Ht Hn. unfold process_child.
  pose proof (plains_nth _ _ _ (ca_elems f C) Hn) as Hp. cbn [plain] in Hp. destruct Hp as (Hs & -> & Hl). rewrite fold_plains in Hl.
  pose proof (space_y f s true C Hs) as Hsp. pose proof (ca_y f C) as Hmy.
  destruct (space f s true) as [[[x y] w] h] eqn:Esp. cbn [fst snd] in Hsp.
  set (f1 := with_y f y (f_starting f) (f_lastbottom f)).
  destruct (new_part l 1 gap lst (left_edge f) (f_colw f) y (f_maxy f) (length (g_parts g))) as [c0| |] eqn:Ec0; cbn [abind]; try discriminate.
  unfold new_part, setup in Ec0. cbn [f_cols] in Ec0. injection Ec0 as Ec0.
  assert (Hcw : (W <= f_colw c0)%Q).
  { rewrite <- Ec0. cbn [f_colw f_gapspec f_cols]. change (inject_Z (Z.of_nat 1)) with 1%Q. pose proof (ca_w f C) as Hw.
    match goal with |- (_ <= ?q)%Q => assert (Hq : (q == f_colw f)%Q) by field end. lra. }
  assert (C1 : calm f1) by (destruct C; constructor; auto; cbn [f1 with_y f_y f_miny]; lra).
  assert (C0 : forall i d m, calm (with_todo (with_section c0 i d m) i d)).
  { intros i d m. subst c0. constructor; try reflexivity; cbn [with_todo with_section f_y f_miny f_lastbottom f_colw f_maxy f_elems f_sindex f_index]; auto; try lra. apply (ca_max f C). }
  assert (Hpre : forall i d m f2, calm f2 -> f_delayed f2 = [] -> f_elems f2 = f_elems f -> f_index f2 = f_index f -> tidy l i d (rev m) ->
    pre top fl (with_todo (with_section c0 i d m) i d) (f2 :: anc) g).
  { intros i d m f2 C2 Hd2 He2 Hi2 Htt. unfold pre. split; [apply C0|].
    assert (He : f_elems (with_todo (with_section c0 i d m) i d) = l) by (subst c0; reflexivity).
    split; [rewrite He; cbn [around]; split; [exact C2|]; split; [exact Hd2|]; split; [exists s, 1, gap; rewrite He2, Hi2; exact Hn|rewrite He2; exact Ha]|].
    split; [exists fl; split; [exact Hst|]; subst c0; cbn [with_todo with_section f_y f_miny]; split; [lra|right; reflexivity]|].
    rewrite He. unfold memo. cbn [with_todo with_section f_index f_sindex f_memory f_delayed]. rewrite Nat.eqb_refl. exact Htt. }
  assert (Hmem : exists i d m f2,
    (match (if match f_memory f with [] => false | _ => f_index f =? f_sindex f end then Some (f_memory f) else f_partial f) with
     | Some mm => match rev mm with
                 | (i, d) :: up => Done (with_todo (with_section c0 i d (rev up)) i d, with_partial f1 None)
                 | [] => Raise IndexError
                 end
     | None => Done (c0, f1)
     end) = Done (with_todo (with_section c0 i d m) i d, f2) /\
    (f2 = f1 \/ f2 = with_partial f1 None) /\ tidy l i d (rev m) /\
    cur (g_heap g) f = todo (g_heap g) l i d (rev m) ++ flat (skipn (Datatypes.S (f_index f)) (f_elems f))).
  { unfold cur. rewrite Hd. unfold memo in *. rewrite (ca_partial f C). destruct (f_memory f) as [|m0 mm] eqn:Em.
    - exists 0, [], [], f1. split; [f_equal; subst c0; reflexivity|]. split; [auto|]. split; [left; reflexivity|].
      rewrite todo_nil by (right; destruct (f_index f =? f_sindex f); reflexivity). rewrite (flat_skip _ _ _ Hn). reflexivity.
    - destruct (f_index f =? f_sindex f) eqn:Ei.
      + destruct (rev (m0 :: mm)) as [|[i d] up] eqn:Er.
        { apply (f_equal (@length _)) in Er. rewrite rev_length in Er. discriminate. }
        exists i, d, (rev up), (with_partial f1 None). split; [reflexivity|]. split; [auto|]. rewrite rev_involutive.
        cbn [tidy] in Ht. destruct Ht as (_ & s' & n' & gap' & l' & Hn' & Ht). rewrite Hn in Hn'. injection Hn' as <- <- <- <-. split; [exact Ht|].
        cbn [todo flat_map app]. rewrite Hn. reflexivity.
      + exists 0, [], [], f1. split; [f_equal; subst c0; reflexivity|]. split; [auto|]. split; [left; reflexivity|].
        rewrite todo_nil by (right; reflexivity). rewrite (flat_skip _ _ _ Hn). reflexivity. }
  destruct Hmem as (i & d & m & f2 & Emem & Hf2 & Htt & Hcur). rewrite Emem. cbn [abind]. clear Emem.
  assert (C2 : calm f2) by (destruct Hf2 as [-> | ->]; [exact C1|destruct C1; constructor; auto]).
  specialize (Hpre i d m f2 C2 ltac:(destruct Hf2 as [-> | ->]; exact Hd) ltac:(destruct Hf2 as [-> | ->]; reflexivity) ltac:(destruct Hf2 as [-> | ->]; reflexivity) Htt).
  set (c1 := with_todo (with_section c0 i d m) i d) in *.
  assert (Hcc : cur (g_heap g) c1 = todo (g_heap g) l i d (rev m)).
  { subst c0. unfold cur, memo. cbn [c1 with_todo with_section f_index f_sindex f_memory f_delayed f_elems]. rewrite Nat.eqb_refl. reflexivity. }
  destruct (rec c1 (f2 :: anc) g) as [[act [[c anc1] g1]]| |] eqn:Er; cbn [abind]; try discriminate.
  destruct (Hrec _ _ _ _ _ _ _ _ _ Hpre Er) as (new & Hnew & Hpost).
  destruct act as [[| |]|]; try contradiction.
  - destruct Hpost as (rem & H1 & H2 & H3 & H4 & H5 & H6 & H7). destruct anc1 as [|f3 anc2]; [discriminate|].
    intros Heq. injection Heq as <- <- <- <-. exists new. split; [exact Hnew|]. rewrite !root_cons in *.
    exists (rem ++ flat (skipn (Datatypes.S (f_index f)) (f_elems f))). rewrite Hcur, <- Hcc. split; [apply works_more; exact H1|].
    split.
    { destruct H2 as ((fl' & U1 & U2 & U3) & B2 & B3 & B4). inversion B4 as [|p0 p1 l0 l1 (B5 & B6 & B8) B7]; subst. rewrite B3. change (1 <? 1) with false. cbv iota.
      assert (Hm1 : f_miny c = y) by (rewrite B2; reflexivity).
      assert (Hy2 : f_y f2 = y) by (destruct Hf2 as [-> | ->]; reflexivity).
      assert (Hmy2 : f_miny f2 = f_miny f) by (destruct Hf2 as [-> | ->]; reflexivity).
      assert (Hc2 : f_cols f3 = 1) by (rewrite B8; apply (ca_cols f2 C2)).
      split; [|split; [|split]].
      - destruct (qlt 0 (f_miny c - f_y c)) eqn:E0.
        + apply qlt_spec in E0. exists fl'. split; [exact U1|]. cbn [with_y f_y f_miny]. rewrite B5, B6, Hy2, Hmy2, Hm1 in *. split; [lra|left; lra].
        + apply qlt_false in E0. destruct U3 as [U3|U3]; [lra|]. subst fl'. exists fl. split; [exact U1|]. cbn [with_y f_y f_miny]. rewrite B6, Hmy2. split; [lra|exact Hor].
      - destruct (qlt _ _); cbn [with_y f_miny]; rewrite B6; exact Hmy2.
      - destruct (qlt _ _); exact Hc2.
      - exact B7. }
    assert (Hr : forall q, root (if qlt 0 (f_miny c - (if 1 <? f_cols c then f_maxy c else f_y c))%Q then with_y f3 (f_y f3 - (f_miny c - (if 1 <? f_cols c then f_maxy c else f_y c)))%Q false (s_mb s)
                       else with_y f3 (f_y f) (f_starting f3) (f_lastbottom f3)) anc2 = q -> saved (g_heap g1) q = saved (g_heap g1) (root f3 anc2) /\
             f_elems q = f_elems (root f3 anc2) /\ f_sindex q = f_sindex (root f3 anc2) /\ f_sdelayed q = f_sdelayed (root f3 anc2) /\ f_memory q = f_memory (root f3 anc2) /\ (kept q <-> kept (root f3 anc2))).
    { intros q <-. destruct anc2 as [|a2 r2]; [|rewrite !root_cons; do 5 (split; [reflexivity|]); tauto]. unfold root. cbn [last]. destruct (qlt _ _); do 5 (split; [reflexivity|]); unfold kept; cbn [with_y f_cols f_partial]; tauto. }
    destruct (Hr _ eq_refl) as (R1 & R2 & R3 & R4 & R5 & R6). clear Hr. rewrite R1, R2, R3, R4, R5. apply R6 in H6. clear R1 R2 R3 R4 R5 R6.
    split; [rewrite H3; cbn [later]; replace (f_index f2) with (f_index f) by (destruct Hf2 as [-> | ->]; reflexivity); replace (f_elems f2) with (f_elems f) by (destruct Hf2 as [-> | ->]; reflexivity); rewrite app_assoc; reflexivity|].
    split; [exact H4|]. split; [|split; [exact H6|cbn [length] in H7; lia]].
    rewrite H5. destruct anc as [|a0 r0]; [|rewrite !root_cons; reflexivity]. unfold root. cbn [last]. destruct Hf2 as [-> | ->]; reflexivity.
  - destruct Hpost as (H1 & -> & (fl' & U1 & U2 & U3) & H4 & H5). rewrite H5. change (1 <? 1) with false. cbv iota.
    intros Heq. injection Heq as <- <- <- <-. exists new. split; [exact Hnew|].
    assert (Hm1 : f_miny c = y) by (rewrite H4; subst c0; reflexivity).
    assert (Hy2 : f_y f2 = y) by (destruct Hf2 as [-> | ->]; reflexivity).
    assert (Hsame : forall yy st lb, same f (with_y f2 yy st lb)).
    { intros. destruct Hf2 as [-> | ->]; exists yy, st, lb; [reflexivity|]. unfold f1, with_partial, with_y. cbn. rewrite (ca_partial f C). reflexivity. }
    destruct Hs as [Hs1 Hs2].
    assert (Hmy2 : f_miny f2 = f_miny f) by (destruct Hf2 as [-> | ->]; reflexivity).
    split; [reflexivity|]. split; [destruct (qlt _ _); apply Hsame|]. split; [reflexivity|].
    split; [|split].
    + destruct (qlt 0 (f_miny c - f_y c)) eqn:E0.
      * apply qlt_spec in E0. destruct C2; constructor; auto; cbn [with_y f_y f_miny f_lastbottom]; rewrite ?Hmy2, ?Hy2; lra.
      * apply qlt_false in E0. destruct C2; constructor; auto; cbn [with_y f_y f_miny f_lastbottom]; rewrite ?Hmy2; lra.
    + destruct (qlt 0 (f_miny c - f_y c)) eqn:E0.
      * apply qlt_spec in E0. exists fl'. split; [exact U1|]. cbn [with_y f_y f_miny]. rewrite Hy2, Hmy2, Hm1 in *. split; [lra|left; lra].
      * apply qlt_false in E0. destruct U3 as [U3|U3]; [lra|]. subst fl'. exists fl. split; [exact U1|]. cbn [with_y f_y f_miny]. rewrite Hmy2. split; [lra|exact Hor].
    + exists (cur (g_heap g) c1). rewrite Hcc. split; [exact Hcur|]. rewrite <- Hcc. exact H1.
Qed.

(** *** The elements *)
Lemma memo_next f i d : f_sindex f <= f_index f -> f_index f < i -> memo (with_todo f i d) = [].
Proof. intros H1 H2. unfold memo. cbn [with_todo f_index f_sindex]. replace (i =? f_sindex f) with false by (symmetry; apply Nat.eqb_neq; lia). reflexivity. Qed.
Lemma cur_head heap f el : f_delayed f = [] -> nth_error (f_elems f) (f_index f) = Some el -> (forall s n gap l, el <> Child s n gap l) ->
  cur heap f = flat_elem el ++ flat (skipn (Datatypes.S (f_index f)) (f_elems f)).
Proof.
  intros Hd Hn He. unfold cur. rewrite Hd, todo_nil; [apply flat_skip; exact Hn|].
  left. intros s n gap l Hc. rewrite Hn in Hc. injection Hc as ->. destruct (He s n gap l eq_refl).
Qed.
Lemma later_after heap f i : f_delayed f = [] -> f_sindex f <= f_index f -> f_index f < i -> forall d, cur heap (with_todo f i d) = flat_map (pend heap) d ++ flat (skipn i (f_elems f)).
Proof. intros Hd H1 H2 d. unfold cur. rewrite (memo_next f i d H1 H2). reflexivity. Qed.

Lemma add_elements_ok (rec : @runner E O S P L) (top fl0 : Q) : fine rec -> forall fuel f anc g a f' anc' g',
  calm f -> around (f_elems f) anc -> upon top fl0 f g -> f_delayed f = [] -> tidy (f_elems f) (f_index f) [] (memo f) ->
  add_elements start crun save restore rec fuel f anc g = Done (a, (f', anc', g')) ->
  exists new, g_parts g' = g_parts g ++ new /\
  match a with
  | Goon => works (cur (g_heap g) f) new [] /\ anc' = anc /\ calm f' /\ upon top fl0 f' g' /\ f_miny f' = f_miny f /\ f_delayed f' = [] /\ f_elems f' = f_elems f
  | Next => anc' = anc /\ calm f' /\ (upon top fl0 f' g' /\ f_miny f' = f_miny f) /\ f_elems f' = f_elems f /\
            exists x k, f_delayed f' = [x] /\ plain_delayed x /\ pend (g_heap g') x = [k] /\ works (cur (g_heap g) f) new (k :: flat (skipn (f_index f') (f_elems f')))
  | Stop Interrupt =>
      exists rem, works (cur (g_heap g) f) new rem /\ broken top fl0 f anc f' anc' g' /\
        saved (g_heap g') (root f' anc') = rem ++ later anc /\
        tidy (f_elems (root f' anc')) (f_sindex (root f' anc')) (f_sdelayed (root f' anc')) (rev (f_memory (root f' anc'))) /\
        f_elems (root f' anc') = f_elems (root f anc) /\ kept (root f' anc') /\ length anc' = length anc
  | Stop _ => False
  end.
Proof.
  intros Hrec. induction fuel as [|fuel IH]; intros f anc g a f' anc' g' C Ha Hu Hd Ht; [discriminate|]. cbn [add_elements].
  destruct (nth_error (f_elems f) (f_index f)) as [el|] eqn:Hn.
  2:{ intros H. injection H as <- <- <- <-. exists []. split; [rewrite app_nil_r; reflexivity|]. split; [|split; [reflexivity|split; [exact C|split; [exact Hu|split; [reflexivity|split; [exact Hd|reflexivity]]]]]].
      unfold cur. rewrite Hd, todo_nil, (flat_none _ _ Hn); [apply w_stop|]. left. intros s n gap l Hc. congruence. }
  destruct (process start crun save restore rec f anc g el (Datatypes.S (f_index f) =? length (f_elems f))) as [[r [[f1 anc1] g1]]| |] eqn:Ep; cbn [abind]; try discriminate.
  pose proof (ca_idx f C) as Hidx. pose proof (ca_y f C) as Hmy.
  (* one step that is done *)
  assert (Hdone : forall now new1, same f f1 -> calm f1 -> upon top fl0 f1 g1 -> g_parts g1 = g_parts g ++ new1 ->
    cur (g_heap g) f = now ++ flat (skipn (Datatypes.S (f_index f)) (f_elems f)) -> works now new1 [] ->
    add_elements start crun save restore rec fuel (with_todo f1 (Datatypes.S (f_index f1)) (f_delayed f1 ++ [])) anc g1 = Done (a, (f', anc', g')) ->
    exists new, g_parts g' = g_parts g ++ new /\
    match a with
    | Goon => works (cur (g_heap g) f) new [] /\ anc' = anc /\ calm f' /\ upon top fl0 f' g' /\ f_miny f' = f_miny f /\ f_delayed f' = [] /\ f_elems f' = f_elems f
    | Next => anc' = anc /\ calm f' /\ (upon top fl0 f' g' /\ f_miny f' = f_miny f) /\ f_elems f' = f_elems f /\
              exists x k, f_delayed f' = [x] /\ plain_delayed x /\ pend (g_heap g') x = [k] /\ works (cur (g_heap g) f) new (k :: flat (skipn (f_index f') (f_elems f')))
    | Stop Interrupt =>
        exists rem, works (cur (g_heap g) f) new rem /\ broken top fl0 f anc f' anc' g' /\
          saved (g_heap g') (root f' anc') = rem ++ later anc /\
          tidy (f_elems (root f' anc')) (f_sindex (root f' anc')) (f_sdelayed (root f' anc')) (rev (f_memory (root f' anc'))) /\
          f_elems (root f' anc') = f_elems (root f anc) /\ kept (root f' anc') /\ length anc' = length anc
    | Stop _ => False
    end).
  { intros now new1 Hs C1 Hu1 Hp1 Hcur Hw Hrest. destruct Hs as (yy & st & lb & ->). rewrite app_nil_r in Hrest. cbn [with_y f_index f_delayed] in *.
    rewrite Hd in Hrest. set (f2 := with_todo (with_y f yy st lb) (Datatypes.S (f_index f)) []) in *.
    assert (C2 : calm f2) by (apply calm_todo; [exact C1|cbn [with_y f_sindex]; lia]).
    assert (Hc2 : cur (g_heap g1) f2 = flat (skipn (Datatypes.S (f_index f)) (f_elems f))) by (apply (later_after (g_heap g1) (with_y f yy st lb) (Datatypes.S (f_index f)) Hd Hidx); cbn [with_y f_index]; lia).
    assert (Ht2 : tidy (f_elems f2) (f_index f2) [] (memo f2)) by (unfold f2; rewrite memo_next; [left; reflexivity|exact Hidx|cbn [with_y f_index]; lia]).
    destruct (IH f2 anc g1 a f' anc' g' C2 Ha Hu1 eq_refl Ht2 Hrest) as (new2 & Hp2 & Hc). exists (new1 ++ new2).
    split; [rewrite Hp2, Hp1, app_assoc; reflexivity|]. rewrite Hcur. rewrite Hc2 in Hc. destruct a as [[| |]| |]; try contradiction.
    - destruct Hc as (rem & H1 & H2 & H3 & H4 & H5 & H6 & H7). exists rem. split; [apply works_app; [exact Hw|exact H1]|].
      split; [exact H2|]. split; [exact H3|]. split; [exact H4|]. split; [|split; [exact H6|exact H7]]. rewrite H5. destruct anc as [|a0 r0]; [reflexivity|rewrite !root_cons; reflexivity].
    - destruct Hc as (H1 & H2 & H3 & H4 & x & k & H5 & H6 & H7 & H8). split; [exact H1|]. split; [exact H2|]. split; [exact H3|]. split; [exact H4|].
      exists x, k. split; [exact H5|]. split; [exact H6|]. split; [exact H7|]. apply works_app; [exact Hw|exact H8].
    - destruct Hc as (H1 & H2 & H3 & H4 & H5 & H6 & H7). split; [apply works_app; [exact Hw|exact H1]|]. auto 10. }
  (* one step that is not *)
  assert (Hpart : forall k k' d new1, same f f1 -> calm f1 -> upon top fl0 f1 g1 -> g_parts g1 = g_parts g ++ new1 -> anc1 = anc ->
    cur (g_heap g) f = [k] ++ flat (skipn (Datatypes.S (f_index f)) (f_elems f)) -> works [k] new1 [k'] -> plain_delayed d -> pend (g_heap g1) d = [k'] ->
    Done (Next, (with_todo f1 (Datatypes.S (f_index f1)) (f_delayed f1 ++ [d]), anc1, g1)) = Done (a, (f', anc', g')) ->
    exists new, g_parts g' = g_parts g ++ new /\
    match a with
    | Goon => works (cur (g_heap g) f) new [] /\ anc' = anc /\ calm f' /\ upon top fl0 f' g' /\ f_miny f' = f_miny f /\ f_delayed f' = [] /\ f_elems f' = f_elems f
    | Next => anc' = anc /\ calm f' /\ (upon top fl0 f' g' /\ f_miny f' = f_miny f) /\ f_elems f' = f_elems f /\
              exists x k, f_delayed f' = [x] /\ plain_delayed x /\ pend (g_heap g') x = [k] /\ works (cur (g_heap g) f) new (k :: flat (skipn (f_index f') (f_elems f')))
    | Stop Interrupt =>
        exists rem, works (cur (g_heap g) f) new rem /\ broken top fl0 f anc f' anc' g' /\
          saved (g_heap g') (root f' anc') = rem ++ later anc /\
          tidy (f_elems (root f' anc')) (f_sindex (root f' anc')) (f_sdelayed (root f' anc')) (rev (f_memory (root f' anc'))) /\
          f_elems (root f' anc') = f_elems (root f anc) /\ kept (root f' anc') /\ length anc' = length anc
    | Stop _ => False
    end).
  { intros k k' d new1 Hs C1 Hu1 Hp1 -> Hcur Hw Hpd Hpk Heq. injection Heq as <- <- <- <-. exists new1. split; [exact Hp1|]. split; [reflexivity|].
    destruct Hs as (yy & st & lb & ->). cbn [with_y f_index f_delayed] in *. rewrite Hd. cbn [app].
    split; [apply calm_todo; [exact C1|cbn [with_y f_sindex]; lia]|]. split; [split; [exact Hu1|reflexivity]|]. split; [reflexivity|].
    exists d, k'. split; [reflexivity|]. split; [exact Hpd|]. split; [exact Hpk|]. rewrite Hcur. exact (works_more _ _ _ _ Hw). }
  pose proof (plains_nth _ _ _ (ca_elems f C) Hn) as Hpl.
  destruct el as [s e|s id iw ih|s id l|s n gap l]; cbn [process] in Ep; [| |contradiction|].
  - destruct (process_leaf start crun save restore f g s (inl e) true true) as [[[q f0] g0]| |] eqn:El; cbn [abind] in Ep; try discriminate.
    injection Ep as <- <- <- <-. cbn [plain] in Hpl.
    destruct (leaf_ok top fl0 f g s (inl e) (New e) q f0 g0 C Hpl Hu eq_refl El) as (H1 & H2 & H3 & H4 & H5 & p & H6 & H7).
    assert (C1 : calm f0) by (apply (same_calm f f0 H1 C); [lra|exact H3]).
    assert (Hcur : cur (g_heap g) f = [New e] ++ flat (skipn (Datatypes.S (f_index f)) (f_elems f))) by (apply (cur_head _ _ _ Hd Hn); discriminate).
    destruct (r_delayed q) as [d|] eqn:Eq.
    + destruct H7 as (k' & K1 & K2 & K3 & K4). rewrite K4. eapply Hpart; eauto.
    + destruct H7 as [K1 K2]. rewrite K2. eapply Hdone; eauto.
  - cbn [plain] in Hpl. destruct Hpl as [Hs Hi]. destruct (process_image f g s (s_min s) (s_shrink s) iw ih true true) as [[ok f0] g0] eqn:Ei.
    destruct (image_ok top fl0 f g s iw ih ok f0 g0 C Hs Hi Hu Ei) as (H1 & H2 & H3 & H4 & H5).
    assert (C1 : calm f0) by (apply (same_calm f f0 H1 C); [lra|exact H3]).
    assert (Hcur : cur (g_heap g) f = [Pic iw ih] ++ flat (skipn (Datatypes.S (f_index f)) (f_elems f))) by (apply (cur_head _ _ _ Hd Hn); discriminate).
    destruct ok.
    + injection Ep as <- <- <- <-. destruct H5 as (p & H5 & H6). cbn [r_delayed r_next]. eapply Hdone; eauto.
    + unfold image_ret in Ep. destruct (50 <=? g_tries g id); cbn [abind] in Ep; [discriminate|]. injection Ep as <- <- <- <-. subst g0.
      cbn [r_delayed r_next]. destruct Hi as [Hpn Hi]. rewrite Hpn. eapply (Hpart (Pic iw ih) (Pic iw ih) _ []); eauto.
      * cbn [bump g_parts]. rewrite app_nil_r. reflexivity.
      * apply w_stop.
      * split; [exact Hs|split; [exact Hpn|exact Hi]].
  - destruct (child_ok rec top fl0 f anc g s n gap l _ r f1 anc1 g1 Hrec C Ha Hu Hd Ht Hn Ep) as (new & Hnew & Hc).
    destruct r as [act|q].
    + destruct act; try contradiction. intros Heq. injection Heq as <- <- <- <-. exists new. split; [exact Hnew|exact Hc].
    + destruct Hc as (-> & H1 & -> & H3 & H4 & now & H5 & H6). cbn [r_delayed r_next]. eapply Hdone; eauto.
Qed.

(** *** The loop *)
Lemma loop_ok (rec : @runner E O S P L) : fine rec -> forall fuel, fine (loop start crun save restore rec fuel).
Proof.
  intros Hrec. induction fuel as [|fuel IH]; intros top fl0 f anc g act f' anc' g' (C & Ha & Hu & Ht); [discriminate|]. cbn [loop].
  destruct (add_delayed start crun save restore fuel 0 f g) as [[[a1 f1] g1]| |] eqn:E1; cbn [abind]; try discriminate.
  (* after what was delayed *)
  assert (Hrest : forall new1 (now : list work), calm f1 -> upon top fl0 f1 g1 -> f_miny f1 = f_miny f -> f_elems f1 = f_elems f -> f_delayed f1 = [] ->
    tidy (f_elems f1) (f_index f1) [] (memo f1) -> g_parts g1 = g_parts g ++ new1 -> works now new1 [] ->
    cur (g_heap g) f = now ++ cur (g_heap g1) f1 -> a1 = Goon ->
    abind (after a1 f1 anc g1) (fun x => match x with (s1, (f2, anc2, g2)) =>
      match s1 with
      | Retry => loop start crun save restore rec fuel f2 anc2 g2
      | Return a => Done (Some a, (f2, anc2, g2))
      | Proceed =>
          run! (a2, (f3, anc3, g3)) <- add_elements start crun save restore rec fuel f2 anc2 g2;
          run! (s2, (f4, anc4, g4)) <- after a2 f3 anc3 g3;
          match s2 with
          | Retry => loop start crun save restore rec fuel f4 anc4 g4
          | Return a => Done (Some a, (f4, anc4, g4))
          | Proceed =>
              match f_delayed f4 with
              | _ :: _ => loop start crun save restore rec fuel f4 anc4 g4
              | [] =>
                  if negb (f_resetting f4) && (1 <? f_cols f4) then
                    if last_child f4 anc4 then Done (None, (f4, anc4, g4))
                    else
                      match start_resetting (f4 :: anc4) with
                      | f5 :: anc5 =>
                          if f_will f5 then let '(_, f6, g6) := reset f5 g4 in loop start crun save restore rec fuel f6 anc5 g6
                          else Done (Some Break, (f5, anc5, g4))
                      | [] => Raise PyException
                      end
                  else if f_resetting f4 then
                    let f5 := with_reset f4 (f_will f4) (f_resetting f4) (f_maxy f4) (f_difflast f4) (f_diff f4) false in
                    let '(go, f6, g6) := reset f5 g4 in
                    if go then loop start crun save restore rec fuel f6 anc4 g6 else Done (None, (f6, anc4, g6))
                  else Done (None, (f4, anc4, g4))
              end
          end
      end end) = Done (act, (f', anc', g')) -> post top fl0 f anc g act f' anc' g').
  { intros new1 now C1 Hu1 Hm1 He1 Hd1 Ht1 Hp1 Hw1 Hcur ->. cbn [after abind].
    destruct (add_elements start crun save restore rec fuel f1 anc g1) as [[a2 [[f3 anc3] g3]]| |] eqn:E2; cbn [abind]; try discriminate.
    assert (Ha1 : around (f_elems f1) anc) by (rewrite He1; exact Ha).
    destruct (add_elements_ok rec top fl0 Hrec fuel f1 anc g1 a2 f3 anc3 g3 C1 Ha1 Hu1 Hd1 Ht1 E2) as (new2 & Hp2 & Hc).
    assert (Hparts : g_parts g3 = g_parts g ++ (new1 ++ new2)) by (rewrite Hp2, Hp1, app_assoc; reflexivity).
    destruct a2 as [[| |]| |]; try contradiction.
    - cbn [after abind]. intros H. injection H as <- <- <- <-. destruct Hc as (rem & H1 & H2 & H3 & H4 & H5 & H6 & H7).
      exists (new1 ++ new2). split; [exact Hparts|]. exists rem. rewrite Hcur. split; [apply works_app; [exact Hw1|exact H1]|].
      split; [destruct H2 as (B1 & B2 & B3); split; [exact B1|split; [congruence|exact B3]]|]. split; [exact H3|]. split; [exact H4|]. split; [|auto]. rewrite H5. destruct anc as [|q0 r0]; [exact He1|rewrite !root_cons; reflexivity].
    - destruct Hc as (-> & C3 & (Hfl & Hmf) & He3 & x & k & Hd3 & Hx & Hk & Hw3). cbn [after].
      destruct (next_section (length (g_parts g3)) None (f3 :: anc)) as [r st] eqn:En.
      assert (Ha3 : around (f_elems f3) anc) by (rewrite He3; exact Ha1).
      assert (Ht3 : tidy (f_elems f3) (f_index f3) (f_delayed f3) (rev (below None))) by (right; exists x; auto).
      destruct (next_ok (g_heap g3) anc f3 _ None r st C3 Ha3 Ht3 En) as (-> & f4 & anc4 & -> & (Hl & (Hsy & Hsm & _) & Hsc & Hsa) & Hs & Htd & He & Hco).
      cbn [abind]. intros H. injection H as <- <- <- <-. exists (new1 ++ new2). split; [exact Hparts|].
      exists (k :: flat (skipn (f_index f3) (f_elems f3))). rewrite Hcur. split; [apply works_app; [exact Hw1|exact Hw3]|].
      split; [destruct Hfl as (fl & F1 & F2 & F3); split; [exists fl; rewrite Hsy, Hsm; auto|split; [congruence|split; [exact Hsc|exact Hsa]]]|].
      split; [rewrite Hs; cbn [below rev todo]; rewrite Hd3; cbn [flat_map]; rewrite Hk; reflexivity|]. split; [exact Htd|]. split; [|auto].
      rewrite He. destruct anc as [|q0 r0]; [unfold root; cbn [last]; congruence|rewrite !root_cons; reflexivity].
    - destruct Hc as (H1 & -> & C3 & Hu3 & Hm3 & Hd3 & He3). cbn [after abind]. rewrite Hd3, (ca_reset f3 C3), (ca_cols f3 C3). cbn [negb andb].
      change (1 <? 1) with false. cbv iota. intros H. injection H as <- <- <- <-. exists (new1 ++ new2). split; [exact Hparts|].
      rewrite Hcur. split; [rewrite <- (app_nil_r (cur _ _)) at 1; apply works_app; [exact Hw1|rewrite app_nil_r; exact H1]|]. split; [reflexivity|]. split; [exact Hu3|].
      split; [congruence|apply (ca_cols f3 C3)]. }
  destruct (f_delayed f) as [|x dl] eqn:Ed.
  - destruct (add_delayed_nil fuel f g a1 f1 g1 Ed E1) as (-> & -> & ->). apply (Hrest [] []); auto; [rewrite app_nil_r; reflexivity|apply w_stop].
  - assert (Hx : dl = [] /\ plain_delayed x /\ memo f = []).
    { destruct (memo f) as [|[i d] rm] eqn:Em; cbn [tidy] in Ht; [|destruct Ht; discriminate]. destruct Ht as [Ht|(x0 & Ht & Hx)]; [discriminate|]. injection Ht as <- ->. auto. }
    destruct Hx as (-> & Hx & Hm). destruct (add_delayed_ok top fl0 fuel x f g a1 f1 g1 C Ed Hx Hu E1) as (C1 & Hu1 & Hm1 & He1 & Hi1 & Hme & new & Hp1 & [(-> & Hd1 & Hw)|(-> & x' & k' & Hd1 & Hx' & Hk' & Hw)]).
    + apply (Hrest new (pend (g_heap g) x)); auto.
      * rewrite Hme, Hm. left. reflexivity.
      * unfold cur. rewrite Hme, Hm, Ed, Hd1, He1, Hi1. cbn [todo flat_map]. rewrite app_nil_r. reflexivity.
    + cbn [after]. destruct (next_section (length (g_parts g1)) None (f1 :: anc)) as [r st] eqn:En.
      assert (Ha1 : around (f_elems f1) anc) by (rewrite He1; exact Ha).
      assert (Ht1 : tidy (f_elems f1) (f_index f1) (f_delayed f1) (rev (below None))) by (right; exists x'; auto).
      destruct (next_ok (g_heap g1) anc f1 _ None r st C1 Ha1 Ht1 En) as (-> & f4 & anc4 & -> & (Hl & (Hsy & Hsm & _) & Hsc & Hsa) & Hs & Htd & He & Hco).
      cbn [abind]. intros H. injection H as <- <- <- <-. exists new. split; [exact Hp1|].
      exists (k' :: flat (skipn (f_index f) (f_elems f))). split.
      { unfold cur. rewrite Hm, Ed. cbn [todo flat_map]. rewrite app_nil_r. exact (works_more _ _ [k'] _ Hw). }
      split; [destruct Hu1 as (fl & F1 & F2 & F3); split; [exists fl; rewrite Hsy, Hsm; auto|split; [congruence|split; [exact Hsc|exact Hsa]]]|].
      split; [rewrite Hs; cbn [below rev todo]; rewrite Hd1, He1, Hi1; cbn [flat_map]; rewrite Hk'; reflexivity|]. split; [exact Htd|]. split; [|auto].
      rewrite He. destruct anc as [|q0 r0]; [exact He1|rewrite !root_cons; reflexivity].
Qed.
Lemma run_part_ok : forall fuel, fine (run_part start crun save restore fuel).
Proof.
  induction fuel as [|fuel IH]; [intros ? ? ? ? ? ? ? ? ? _ H; discriminate|]. cbn [run_part]. apply loop_ok. exact IH.
Qed.
End Width.
End Flow.
