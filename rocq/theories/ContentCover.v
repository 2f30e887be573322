(** The height that a box of one column reports covers what it shows; for C91. *)
From Coq Require Import QArith ZArith Lia Lqa List.
From Verif Require Import Py Table Content ContentFlow ContentGeom ContentApart.
Import ListNotations.
Open Scope list_scope.
Open Scope nat_scope.

Section Cover.
Context {E O S P L : Type}.
Variable start : E -> res O.
Variable crun : O -> Q -> Q -> Q -> Q -> res (O * Q * bool * list P * list L).
Variable save : O -> S.
Variable restore : O -> S -> O.
Variable okE : E -> Prop.
Variable okO : O -> Prop.
Variable okS : S -> Prop.
Hypothesis start_ok : forall e o, okE e -> start e = Ok o -> okO o.
Hypothesis run_ok : forall o x y w h o' ht fin ps ls, okO o -> crun o x y w h = Ok (o', ht, fin, ps, ls) -> okO o' /\ (0 <= ht)%Q.
Hypothesis save_ok : forall o, okO o -> okS (save o).
Hypothesis restore_ok : forall o sv, okO o -> okS sv -> okO (restore o sv).
Notation elem := (@elem E).
Notation delem := (@delem E S).
Notation part := (@part E S).
Notation cmem := (@cmem E S).
Notation glob := (@glob O P L).
Notation placed := (@placed O P).
Notation runner := (@runner E O S P L).

(** Leaves, groups of leaves, and boxes of one column with such elements. *)
Definition okst (s : style) : Prop := (0 <= s_mt s /\ 0 <= s_mb s)%Q.
Definition cvg (e : @gelem E) : Prop := match e with GLeaf s e => okst s /\ okE e | _ => False end.
Fixpoint cvel (e : elem) : Prop :=
  match e with
  | Leaf s e => okst s /\ okE e
  | Group s _ l => okst s /\ Forall cvg l
  | Child s n _ l => okst s /\ n = 1 /\ fold_right (fun e acc => cvel e /\ acc) True l
  | _ => False
  end.
Definition cvels (l : list elem) : Prop := fold_right (fun e acc => cvel e /\ acc) True l.
Lemma cvels_nth l i el : cvels l -> nth_error l i = Some el -> cvel el.
Proof. revert i. induction l as [|a l IH]; intros [|i] H En; cbn in *; try discriminate; destruct H as [H1 H2]; [injection En as <-; exact H1|exact (IH _ H2 En)]. Qed.
Definition okd (d : delem) : Prop := match d with DLeaf s _ sv => okst s /\ okS sv | DGroup s l _ => okst s /\ Forall cvg l | DImage _ _ _ _ => False end.
Definition okm (m : cmem) : Prop := Forall (fun x => Forall okd (snd x)) m.
Record sound (f : part) : Prop := {
  so_cols : f_cols f = 1; so_col : f_column f = 0; so_res : f_resetting f = false; so_will : f_will f = false;
  so_els : cvels (f_elems f); so_lb : (0 <= f_lastbottom f)%Q; so_del : Forall okd (f_delayed f); so_sdel : Forall okd (f_sdelayed f);
  so_mem : okm (f_memory f); so_part : match f_partial f with Some m => okm m | None => True end }.
Definition good (p : placed) : Prop :=
  match p with PlLeaf _ x y w h o o' ht fin ps => okO o /\ exists ls, crun o x y w h = Ok (o', ht, fin, ps, ls) | PlImage _ _ _ _ _ _ _ => False end.
Definition low (f f' : part) (g g' : glob) : Prop :=
  exists new, g_parts g' = g_parts g ++ new /\ (f_y f' <= f_y f)%Q /\ Forall (fun p => good p /\ ((0 < p_height p)%Q -> (f_y f' <= p_bot p /\ p_top p <= f_y f)%Q)) new.
Definition heap_ok (g : glob) : Prop := Forall okO (g_heap g).
Lemma low_same f f' (g : glob) : f_y f' = f_y f -> low f f' g g.
Proof. intros H. exists []. split; [symmetry; apply app_nil_r|]. split; [rewrite H; lra|constructor]. Qed.
Lemma low_trans f f1 f2 (g g1 g2 : glob) : low f f1 g g1 -> low f1 f2 g1 g2 -> low f f2 g g2.
Proof.
  intros (n1 & H1 & H2 & H3) (n2 & K1 & K2 & K3). exists (n1 ++ n2). split; [rewrite K1, H1, app_assoc; reflexivity|]. split; [lra|].
  apply Forall_app. split; [refine (Forall_impl _ _ H3)|refine (Forall_impl _ _ K3)]; intros p (A & C); (split; [exact A|]); intros D; specialize (C D); lra.
Qed.
Lemma low_y f f1 f2 (g g1 : glob) : low f f1 g g1 -> f_y f2 = f_y f1 -> low f f2 g g1.
Proof. intros (new & H1 & H2) Hy. exists new. rewrite Hy. auto. Qed.
Lemma low_from f0 f f1 (g g1 : glob) : low f f1 g g1 -> f_y f0 = f_y f -> low f0 f1 g g1.
Proof. intros (new & H1 & H2) Hy. exists new. rewrite Hy. auto. Qed.

Lemma sound_y f y st lb : sound f -> (0 <= lb)%Q -> sound (with_y f y st lb).
Proof. intros [A1 A2 A3 A4 A5 A6 A7 A8 A9 A10] H. constructor; assumption. Qed.
Lemma sound_todo f i d : sound f -> Forall okd d -> sound (with_todo f i d).
Proof. intros [A1 A2 A3 A4 A5 A6 A7 A8 A9 A10] H. constructor; assumption. Qed.
Lemma sound_section f i d m : sound f -> Forall okd d -> okm m -> sound (with_section f i d m).
Proof. intros [A1 A2 A3 A4 A5 A6 A7 A8 A9 A10] H K. constructor; assumption. Qed.
Lemma sound_partial f p : sound f -> match p with Some m => okm m | None => True end -> sound (with_partial f p).
Proof. intros [A1 A2 A3 A4 A5 A6 A7 A8 A9 A10] H. constructor; assumption. Qed.

Lemma space_low f s top x y w h : sound f -> okst s -> space f s top = (x, y, w, h) -> (y <= f_y f)%Q.
Proof.
  intros Hf [H1 H2] H. pose proof (so_lb f Hf). unfold space in H. injection H as _ <- _ _. destruct (f_starting f); cbn [negb andb]; [lra|]. destruct top; lra.
Qed.
Lemma heap_set n o l : okO o -> Forall okO l -> Forall okO (hset n o l).
Proof.
  intros Ho Hl. unfold hset. apply Forall_app. split; [|constructor; [exact Ho|]]; apply Forall_forall; intros a Ha; apply (proj1 (Forall_forall _ _) Hl).
  - rewrite <- (firstn_skipn n l). apply in_or_app. left. exact Ha.
  - rewrite <- (firstn_skipn (Datatypes.S n) l). apply in_or_app. right. exact Ha.
Qed.
Definition oksrc (src : E + nat * S) : Prop := match src with inl e => okE e | inr (_, sv) => okS sv end.
Definition okret (r : @ret E S) : Prop := match r_delayed r with Some d => okd d | None => True end.
Lemma leaf_any f g s src add top r f' g' : sound f -> okst s -> oksrc src -> heap_ok g -> process_leaf start crun save restore f g s src add top = Done (r, f', g') ->
  f_miny f' = f_miny f /\ sound f' /\ (if add then low f f' g g' else g_parts g' = g_parts g) /\ heap_ok g' /\ okret r.
Proof.
  intros Hf Hs Hsrc Hg. unfold process_leaf. destruct (space f s top) as [[[x y] w] h] eqn:Esp. pose proof (space_low _ _ _ _ _ _ _ Hf Hs Esp) as Hy.
  destruct (match src with inl e => _ | inr _ => _ end) as [[ref o]| |] eqn:Eo; cbn [abind]; try discriminate.
  assert (Ho : okO o).
  { destruct src as [e|[ref0 sv]]; cbn [oksrc] in Hsrc.
    - destruct (start e) as [o1|] eqn:Es; cbn [lift abind] in Eo; [|discriminate]. injection Eo as <- <-. exact (start_ok _ _ Hsrc Es).
    - destruct (nth_error (g_heap g) ref0) as [o1|] eqn:En; [|discriminate]. injection Eo as <- <-. apply restore_ok; [|exact Hsrc]. exact (proj1 (Forall_forall _ _) Hg _ (nth_error_In _ _ En)). }
  destruct (crun o x y w h) as [[[[[o' ht] fin] parts] lines]|] eqn:Er; cbn [lift abind]; try discriminate. destruct (run_ok _ _ _ _ _ _ _ _ _ _ Ho Er) as [Ho' Hht].
  intros H. injection H as <- <- <-. split; [destruct (qlt 0 ht); reflexivity|]. split; [destruct (qlt 0 ht); apply sound_y; try assumption; [apply Hs|apply (so_lb f Hf)]|]. split; [|split].
  - destruct add; [|reflexivity]. exists [PlLeaf s x y w h o o' ht fin parts]. split; [reflexivity|]. destruct (qlt 0 ht) eqn:Eq; cbn [with_y f_y].
    + split; [lra|]. constructor; [|constructor]. split; [split; [exact Ho|eexists; exact Er]|]. intros _. unfold p_bot. cbn [p_top p_height]. lra.
    + split; [lra|]. constructor; [|constructor]. split; [split; [exact Ho|eexists; exact Er]|]. cbn [p_height]. intros K. exfalso. unfold qlt in Eq. apply Bool.negb_false_iff in Eq. apply Qle_bool_iff in Eq. lra.
  - unfold heap_ok. cbn [g_heap]. destruct (ref =? length (g_heap g)); [apply Forall_app; split; [exact Hg|constructor; [exact Ho'|constructor]]|apply heap_set; assumption].
  - unfold okret. destruct fin; cbn; [exact I|]. split; [exact Hs|exact (save_ok _ Ho')].
Qed.
Lemma leaf_cover f g s src r f' g' : sound f -> okst s -> oksrc src -> heap_ok g -> process_leaf start crun save restore f g s src true true = Done (r, f', g') ->
  f_miny f' = f_miny f /\ sound f' /\ low f f' g g' /\ heap_ok g' /\ okret r.
Proof. exact (leaf_any f g s src true true r f' g'). Qed.
Lemma gel_cover f g el min add top ok f' g' : sound f -> cvg el -> heap_ok g -> group_element start crun save restore f g el min add top = Done (ok, f', g') ->
  f_miny f' = f_miny f /\ sound f' /\ (if add then low f f' g g' else g_parts g' = g_parts g) /\ heap_ok g'.
Proof.
  intros Hf Hel Hg. destruct el as [s e|s iw ih|]; cbn [cvg] in Hel; try contradiction. destruct Hel as [Hs He]. cbn [group_element].
  destruct (process_leaf start crun save restore f g s (inl e) add top) as [[[r f1] g1]| |] eqn:El; cbn [abind]; try discriminate. intros H. injection H as <- <- <-.
  destruct (leaf_any _ _ _ (inl e) _ _ _ _ _ Hf Hs He Hg El) as (A1 & A2 & A3 & A4 & _). auto.
Qed.
Lemma try_cover : forall l f g first ok f' g', sound f -> Forall cvg l -> heap_ok g -> group_try start crun save restore f g first l = Done (ok, f', g') ->
  f_miny f' = f_miny f /\ sound f' /\ g_parts g' = g_parts g /\ heap_ok g'.
Proof.
  induction l as [|el l IH]; intros f g first ok f' g' Hf Hl Hg; cbn [group_try]; [intros H; injection H as <- <- <-; auto|]. inversion Hl as [|? ? L1 L2]; subst.
  destruct (group_element start crun save restore f g el None false (negb first)) as [[[ok1 f1] g1]| |] eqn:Ee; cbn [abind]; try discriminate.
  destruct (gel_cover _ _ _ _ _ _ _ _ _ Hf L1 Hg Ee) as (A1 & A2 & A3 & A4). destruct ok1; intros H; [|injection H as <- <- <-; auto].
  destruct (IH _ _ _ _ _ _ A2 L2 A4 H) as (B1 & B2 & B3 & B4). split; [congruence|]. split; [exact B2|]. split; [congruence|exact B4].
Qed.
Lemma add_cover : forall l f g ratio first f' g', sound f -> Forall cvg l -> heap_ok g -> group_add start crun save restore f g ratio first l = Done (f', g') ->
  f_miny f' = f_miny f /\ sound f' /\ low f f' g g' /\ heap_ok g'.
Proof.
  induction l as [|el l IH]; intros f g ratio first f' g' Hf Hl Hg; cbn [group_add]; [intros H; injection H as <- <-; split; [reflexivity|]; split; [exact Hf|]; split; [apply low_same; reflexivity|exact Hg]|]. inversion Hl as [|? ? L1 L2]; subst.
  destruct (group_element start crun save restore f g el (if has_min el then Some (min_of el * ratio)%Q else None) true (negb first)) as [[[ok1 f1] g1]| |] eqn:Ee; cbn [abind]; try discriminate.
  destruct (gel_cover _ _ _ _ _ _ _ _ _ Hf L1 Hg Ee) as (A1 & A2 & A3 & A4). intros H. destruct (IH _ _ _ _ _ _ A2 L2 A4 H) as (B1 & B2 & B3 & B4).
  split; [congruence|]. split; [exact B2|]. split; [exact (low_trans _ _ _ _ _ _ A3 B3)|exact B4].
Qed.
Lemma low_parts f f' (g g0 g' : glob) : g_parts g0 = g_parts g -> low f f' g0 g' -> low f f' g g'.
Proof. intros H (new & K). exists new. rewrite <- H. exact K. Qed.
Lemma group_cover f g s l tries r f' g' : sound f -> okst s -> Forall cvg l -> heap_ok g -> process_group start crun save restore f g s l tries = Done (r, f', g') ->
  f_miny f' = f_miny f /\ sound f' /\ low f f' g g' /\ heap_ok g' /\ okret r.
Proof.
  intros Hf Hs Hl Hg. unfold process_group. cbv zeta. set (f0 := with_y f _ _ _). assert (Hf0 : sound f0) by (apply sound_y; [exact Hf|apply (so_lb f Hf)]).
  destruct (group_try start crun save restore f0 g true l) as [[[ok f1] g1]| |] eqn:Et; cbn [abind]; try discriminate. destruct (try_cover _ _ _ _ _ _ _ Hf0 Hl Hg Et) as (A1 & A2 & A3 & A4).
  change (f_miny f0) with (f_miny f) in A1. set (f2 := with_y f1 (f_y f) (f_starting f1) (f_lastbottom f1)). assert (Hf2 : sound f2) by (apply sound_y; [exact A2|apply (so_lb f1 A2)]).
  destruct ok.
  - match goal with |- abind ?e _ = _ -> _ => destruct e as [ratio| |]; cbn [abind]; try discriminate end.
    match goal with |- abind ?e _ = _ -> _ => destruct e as [[f3 g3]| |] eqn:Ea; cbn [abind]; try discriminate end.
    destruct (add_cover _ _ _ _ _ _ _ Hf2 Hl A4 Ea) as (B1 & B2 & B3 & B4). intros H. injection H as <- <- <-.
    split; [rewrite B1; exact A1|]. split; [exact B2|]. split; [exact (low_parts _ _ _ _ _ A3 (low_from f _ _ _ _ B3 eq_refl))|]. split; [exact B4|exact I].
  - destruct (50 <=? tries); [discriminate|]. intros H. injection H as <- <- <-. split; [exact A1|]. split; [exact Hf2|]. split; [|split; [exact A4|split; [exact Hs|exact Hl]]].
    exists []. split; [rewrite A3; symmetry; apply app_nil_r|]. split; [cbn; lra|constructor].
Qed.
Lemma delayed_cover f g d r f' g' : sound f -> okd d -> heap_ok g -> process_delayed start crun save restore f g d = Done (r, f', g') ->
  f_miny f' = f_miny f /\ sound f' /\ low f f' g g' /\ heap_ok g' /\ okret r.
Proof.
  intros Hf Hd Hg. destruct d as [s ref sv|s iw ih tries|s l tries]; cbn [okd] in Hd; try contradiction; destruct Hd as [Hs Hd]; cbn [process_delayed].
  - exact (leaf_cover _ _ _ (inr (ref, sv)) _ _ _ Hf Hs Hd Hg).
  - exact (group_cover _ _ _ _ _ _ _ _ Hf Hs Hd Hg).
Qed.
Lemma Forall_replace n d (l : list delem) : Forall okd l -> match d with Some x => okd x | None => True end -> Forall okd (replace_nth n d l).
Proof. intros Hl Hd. unfold replace_nth. rewrite <- (firstn_skipn n l) in Hl. apply Forall_app in Hl. destruct Hl as [H1 H2].
  apply Forall_app. split; [exact H1|]. apply Forall_app. split; [destruct d; [constructor; [exact Hd|constructor]|constructor]|].
  clear H1. revert n H2. induction l as [|a l IH]; intros [|n] H2; cbn [skipn] in *; auto; try (apply IH; exact H2); inversion H2; assumption. Qed.
Lemma delayeds_cover : forall fuel n f g a f' g', sound f -> heap_ok g -> add_delayed start crun save restore fuel n f g = Done (a, f', g') ->
  f_miny f' = f_miny f /\ sound f' /\ low f f' g g' /\ heap_ok g' /\ (a = Goon \/ a = Next).
Proof.
  induction fuel as [|fuel IH]; intros n f g a f' g' Hf Hg; [discriminate|]. cbn [add_delayed].
  destruct (nth_error (f_delayed f) n) as [d|] eqn:En.
  2:{ intros H. injection H as <- <- <-. split; [reflexivity|]. split; [exact Hf|]. split; [apply low_same; reflexivity|]. split; [exact Hg|]. destruct (f_delayed f); [auto|]. destruct (_ <=? _); auto. }
  pose proof (proj1 (Forall_forall _ _) (so_del f Hf) d (nth_error_In _ _ En)) as Hd.
  destruct (process_delayed start crun save restore f g d) as [[[r f1] g1]| |] eqn:Ep; cbn [abind]; try discriminate.
  destruct (delayed_cover _ _ _ _ _ _ Hf Hd Hg Ep) as (H0 & H1 & H2 & H3 & H4).
  assert (Hf1 : forall i, sound (with_todo f1 i (replace_nth n (r_delayed r) (f_delayed f1)))) by (intros i; apply sound_todo; [exact H1|apply Forall_replace; [apply (so_del f1 H1)|exact H4]]).
  destruct (r_next r); intros H.
  - injection H as <- <- <-. split; [exact H0|]. split; [apply Hf1|]. split; [exact H2|]. auto.
  - destruct (IH _ _ _ _ _ _ (Hf1 _) H3 H) as (K0 & K1 & K2 & K3 & K4). split; [rewrite K0; exact H0|]. split; [exact K1|]. split; [exact (low_trans _ _ _ _ _ _ H2 K2)|auto].
Qed.

(** The ancestors of a box do not move while it runs. *)
Definition still (f f' : part) : Prop := f_miny f' = f_miny f /\ f_y f' = f_y f /\ sound f'.
Lemma still_refl (l : list part) : Forall sound l -> Forall2 still l l.
Proof. induction 1; constructor; auto. split; [reflexivity|]. split; [reflexivity|assumption]. Qed.
Lemma still_trans (l l1 l2 : list part) : Forall2 still l l1 -> Forall2 still l1 l2 -> Forall2 still l l2.
Proof.
  intros H. revert l2. induction H as [|a b l l1 (A1 & A2 & A3) H IH]; intros l2 K; inversion K as [|c d e k (K1 & K2 & K3) K4]; subst; constructor; auto. split; [congruence|]. split; [congruence|assumption].
Qed.
Lemma still_sound (l l1 : list part) : Forall2 still l l1 -> Forall sound l1.
Proof. induction 1 as [|a b l l1 (A1 & A2 & A3) H IH]; constructor; auto. Qed.
Definition fine (rec : runner) : Prop := forall f anc g act f' anc' g', sound f -> Forall sound anc -> heap_ok g -> rec f anc g = Done (act, (f', anc', g')) ->
  (act = None \/ act = Some Interrupt) /\ f_miny f' = f_miny f /\ sound f' /\ low f f' g g' /\ Forall2 still anc anc' /\ heap_ok g'.
Lemma next_cover n : forall anc f cm r st, sound f -> Forall sound anc -> okm (below cm) -> next_section n cm (f :: anc) = (r, st) ->
  r = SInterrupt /\ exists f' anc', st = f' :: anc' /\ still f f' /\ Forall2 still anc anc'.
Proof.
  induction anc as [|p rest IH]; intros f cm r st Hf Ha Hm; rewrite next_section_cons; cbv zeta; rewrite (so_cols f Hf), (so_col f Hf), (so_res f Hf); cbn [Nat.eqb].
  - intros H. injection H as <- <-. split; [reflexivity|]. eexists _, []. split; [reflexivity|]. split; [|constructor]. split; [reflexivity|]. split; [reflexivity|]. apply sound_section; [exact Hf|apply (so_del f Hf)|exact Hm].
  - inversion Ha as [|a b Hp Hr]; subst. destruct (next_section n (Some (below cm ++ [(f_index f, f_delayed f)])) (p :: rest)) as [r0 st0] eqn:En.
    assert (Hm2 : okm (below (Some (below cm ++ [(f_index f, f_delayed f)])))) by (apply Forall_app; split; [exact Hm|constructor; [apply (so_del f Hf)|constructor]]).
    destruct (IH p _ _ _ Hp Hr Hm2 En) as (-> & p' & rest' & -> & K1 & K2). intros H. injection H as <- <-. split; [reflexivity|]. eexists _, _. split; [reflexivity|].
    split; [|constructor; assumption]. split; [reflexivity|]. split; [reflexivity|]. apply sound_section; [exact Hf|apply (so_del f Hf)|exact Hm].
Qed.
Lemma Forall_rev_cons {A} (Pr : A -> Prop) l a r : Forall Pr l -> rev l = a :: r -> Pr a /\ Forall Pr (rev r).
Proof. intros H E1. apply Forall_rev in H. rewrite E1 in H. inversion H; subst. split; [assumption|apply Forall_rev; assumption]. Qed.
Lemma child_cover rec f anc g s gap l lst r f1 anc1 g1 : fine rec -> sound f -> Forall sound anc -> heap_ok g -> okst s -> cvels l ->
  process_child rec f anc g s 1 gap l lst = Done (r, (f1, anc1, g1)) ->
  f_miny f1 = f_miny f /\ sound f1 /\ low f f1 g g1 /\ Forall2 still anc anc1 /\ heap_ok g1 /\ match r with inl q => q = Interrupt | inr q => r_delayed q = None end.
Proof.
  intros Hrec Hf Ha Hg Hs Hl Ep. unfold process_child in Ep. destruct (space f s true) as [[[x y] w] h] eqn:Esp. pose proof (space_low _ _ _ _ _ _ _ Hf Hs Esp) as Hy. cbv zeta in Ep.
  set (fy := with_y f y (f_starting f) (f_lastbottom f)) in *. assert (Hfy : sound fy) by (apply sound_y; [exact Hf|apply (so_lb f Hf)]).
  destruct (new_part l 1 gap _ (left_edge f) (f_colw f) y (f_maxy f) (length (g_parts g))) as [c0| |] eqn:E0; cbn [abind] in Ep; try discriminate.
  match type of Ep with abind ?e _ = _ => destruct e as [[c1 f2]| |] eqn:Em; cbn [abind] in Ep; try discriminate end.
  assert (Hc0 : sound c0 /\ f_y c0 = y /\ f_miny c0 = y) by (cbv [new_part setup f_cols] in E0; injection E0 as <-; split; [constructor; cbn; try reflexivity; try exact Hl; try constructor; try lra|split; reflexivity]).
  destruct Hc0 as (Hc0 & Y0 & M0).
  assert (Hmem : match (if match f_memory f with [] => false | _ => f_index f =? f_sindex f end then Some (f_memory f) else f_partial f) with Some m => okm m | None => True end).
  { destruct (match f_memory f with [] => false | _ => _ end); [apply (so_mem f Hf)|apply (so_part f Hf)]. }
  assert (Hc1 : sound c1 /\ f_y c1 = y /\ f_miny c1 = y /\ f_y f2 = y /\ f_miny f2 = f_miny f /\ sound f2).
  { destruct (if match f_memory f with [] => false | _ => f_index f =? f_sindex f end then Some (f_memory f) else f_partial f) as [m|].
    - destruct (rev m) as [|[i d] upm] eqn:Erv; [discriminate|]. destruct (Forall_rev_cons _ m (i, d) upm Hmem Erv) as [Hd Hm]. injection Em as <- <-. split; [apply sound_todo; [apply sound_section; assumption|exact Hd]|].
      split; [exact Y0|]. split; [exact M0|]. split; [reflexivity|]. split; [reflexivity|]. apply sound_partial; [exact Hfy|exact I].
    - injection Em as <- <-. auto 6. }
  destruct Hc1 as (C1 & C2 & C3 & C4 & C5 & C6).
  destruct (rec c1 (f2 :: anc) g) as [[act [[c ancc] gc]]| |] eqn:Er; cbn [abind] in Ep; try discriminate.
  destruct (Hrec c1 (f2 :: anc) g act c ancc gc C1 ltac:(constructor; assumption) Hg Er) as (R1 & R2 & R3 & (new & R4 & R5 & R6) & R7 & R8).
  inversion R7 as [|a1 b1 l1 l2 (F1 & F2 & F3) R9]; subst ancc. subst a1 l1. rewrite (so_cols c R3) in Ep. cbn [Nat.ltb Nat.leb] in Ep.
  set (f4 := if qlt 0 (f_miny c - f_y c) then with_y b1 (f_y b1 - (f_miny c - f_y c))%Q false (s_mb s) else with_y b1 (f_y f) (f_starting b1) (f_lastbottom b1)) in *.
  assert (Hf4 : sound f4) by (unfold f4; destruct (qlt _ _); apply sound_y; try assumption; [apply Hs|apply (so_lb b1 F3)]).
  assert (Hm4 : f_miny f4 = f_miny f) by (unfold f4; destruct (qlt _ _); cbn [with_y f_miny]; congruence).
  rewrite C2 in *. rewrite C3 in R2.
  assert (Hr : low f f4 g gc).
  { exists new. split; [exact R4|]. unfold f4. destruct (qlt 0 (f_miny c - f_y c)) eqn:Eq; cbn [with_y f_y]; rewrite R2 in Eq; [rewrite F2, C4, R2|].
    - split; [lra|]. refine (Forall_impl _ _ R6). intros p (A & C). split; [exact A|]. intros D. specialize (C D). lra.
    - split; [lra|]. refine (Forall_impl _ _ R6). intros p (A & C). split; [exact A|]. intros D. specialize (C D). exfalso. unfold qlt in Eq. apply Bool.negb_false_iff in Eq. apply Qle_bool_iff in Eq. unfold p_bot in C. lra. }
  destruct R1 as [-> | ->]; injection Ep as <- <- <- <-; fold f4.
  - split; [exact Hm4|]. split; [apply sound_y; [exact Hf4|apply (so_lb f4 Hf4)]|]. split; [exact (low_y _ _ _ _ _ Hr eq_refl)|]. auto.
  - auto 8.
Qed.
Lemma elements_cover rec : fine rec -> forall fuel f anc g a f' anc' g', sound f -> Forall sound anc -> heap_ok g ->
  add_elements start crun save restore rec fuel f anc g = Done (a, (f', anc', g')) ->
  (a = Goon \/ a = Next \/ a = Stop Interrupt) /\ f_miny f' = f_miny f /\ sound f' /\ low f f' g g' /\ Forall2 still anc anc' /\ heap_ok g'.
Proof.
  intros Hrec. induction fuel as [|fuel IH]; intros f anc g a f' anc' g' Hf Ha Hg; [discriminate|]. cbn [add_elements].
  destruct (nth_error (f_elems f) (f_index f)) as [el|] eqn:En; [|intros H; injection H as <- <- <- <-; split; [auto|]; split; [reflexivity|]; split; [exact Hf|]; split; [apply low_same; reflexivity|]; split; [apply still_refl; exact Ha|exact Hg]].
  destruct (process start crun save restore rec f anc g el (Datatypes.S (f_index f) =? length (f_elems f))) as [[r [[f1 anc1] g1]]| |] eqn:Ep; cbn [abind]; try discriminate.
  pose proof (cvels_nth _ _ _ (so_els f Hf) En) as Hel.
  assert (H1 : f_miny f1 = f_miny f /\ sound f1 /\ low f f1 g g1 /\ Forall2 still anc anc1 /\ heap_ok g1 /\ match r with inl q => q = Interrupt | inr q => okret q end).
  { destruct el as [s e|s id iw ih|s id l|s n gap l]; cbn [process cvel] in *; try contradiction.
    - destruct (process_leaf start crun save restore f g s (inl e) true true) as [[[q f0] g0]| |] eqn:El; cbn [abind] in Ep; try discriminate. injection Ep as <- <- <- <-.
      destruct Hel as [Hs He]. destruct (leaf_cover _ _ _ (inl e) _ _ _ Hf Hs He Hg El) as (K1 & K2 & K3 & K4 & K5). split; [exact K1|]. split; [exact K2|]. split; [exact K3|]. split; [apply still_refl; exact Ha|auto].
    - destruct Hel as [Hs Hl]. destruct (process_group start crun save restore f g s l (g_tries g id)) as [[[q f0] g0]| |] eqn:Eg; cbn [abind] in Ep; try discriminate. injection Ep as <- <- <- <-.
      destruct (group_cover _ _ _ _ _ _ _ _ Hf Hs Hl Hg Eg) as (K1 & K2 & K3 & K4 & K5). split; [exact K1|]. split; [exact K2|]. split; [destruct (r_delayed q); exact K3|]. split; [apply still_refl; exact Ha|]. split; [destruct (r_delayed q); exact K4|exact K5].
    - destruct Hel as (Hs & -> & Hl). destruct (child_cover _ _ _ _ _ _ _ _ _ _ _ _ Hrec Hf Ha Hg Hs Hl Ep) as (K1 & K2 & K3 & K4 & K5 & K6). split; [exact K1|]. split; [exact K2|]. split; [exact K3|]. split; [exact K4|]. split; [exact K5|].
      destruct r as [q|q]; [exact K6|]. unfold okret. rewrite K6. exact I. }
  destruct H1 as (K1 & K2 & K3 & K4 & K5 & K6). destruct r as [q|q].
  - subst q. intros H. injection H as <- <- <- <-. auto 8.
  - set (f2 := with_todo f1 (Datatypes.S (f_index f1)) (f_delayed f1 ++ match r_delayed q with Some d => [d] | None => [] end)).
    assert (Hf2 : sound f2). { apply sound_todo; [exact K2|]. apply Forall_app. split; [apply (so_del f1 K2)|]. unfold okret in K6. destruct (r_delayed q); constructor; auto. }
    destruct (r_next q); intros H.
    + injection H as <- <- <- <-. split; [auto|]. split; [exact K1|]. split; [exact Hf2|]. split; [exact K3|]. auto.
    + destruct (IH f2 anc1 g1 a f' anc' g' Hf2 (still_sound _ _ K4) K5 H) as (L1 & L2 & L3 & L4 & L5 & L6).
      split; [exact L1|]. split; [rewrite L2; exact K1|]. split; [exact L3|]. split; [exact (low_trans _ _ _ _ _ _ K3 L4)|]. split; [exact (still_trans _ _ _ K4 L5)|exact L6].
Qed.
Lemma after_cover a (f : part) anc (g : glob) s f' anc' g' : sound f -> Forall sound anc -> a = Goon \/ a = Next \/ a = Stop Interrupt -> after a f anc g = Done (s, (f', anc', g')) ->
  (s = Proceed \/ s = Return Interrupt) /\ still f f' /\ Forall2 still anc anc' /\ g' = g.
Proof.
  intros Hf Ha [->|[->| ->]]; cbn [after].
  - intros H. injection H as <- <- <- <-. split; [auto|]. split; [split; [reflexivity|split; [reflexivity|exact Hf]]|]. split; [apply still_refl; exact Ha|reflexivity].
  - destruct (next_section (length (g_parts g)) None (f :: anc)) as [r st] eqn:En. destruct (next_cover _ anc f None _ _ Hf Ha (Forall_nil _) En) as (-> & f1 & anc1 & -> & K1 & K2).
    intros H. injection H as <- <- <- <-. auto.
  - intros H. injection H as <- <- <- <-. split; [auto|]. split; [split; [reflexivity|split; [reflexivity|exact Hf]]|]. split; [apply still_refl; exact Ha|reflexivity].
Qed.
Lemma loop_cover rec : fine rec -> forall fuel, fine (loop start crun save restore rec fuel).
Proof.
  intros Hrec. induction fuel as [|fuel IH]; intros f anc g act f' anc' g' Hf Ha Hg; [discriminate|]. cbn [loop].
  destruct (add_delayed start crun save restore fuel 0 f g) as [[[a1 f1] g1]| |] eqn:E1; cbn [abind]; try discriminate. destruct (delayeds_cover _ _ _ _ _ _ _ Hf Hg E1) as (D1 & D2 & D3 & D4 & D5).
  destruct (after a1 f1 anc g1) as [[s1 [[f2 anc2] g2]]| |] eqn:E2; cbn [abind]; try discriminate.
  destruct (after_cover a1 f1 anc g1 s1 f2 anc2 g2 D2 Ha ltac:(destruct D5; auto) E2) as (A1 & (A2 & A3 & A5) & A4 & ->).
  pose proof (low_y _ _ _ _ _ D3 A3) as B2. pose proof (still_sound _ _ A4) as Ha2. assert (M2 : f_miny f2 = f_miny f) by congruence.
  destruct A1 as [-> | ->]; [|intros H; injection H as <- <- <- <-; auto 8].
  destruct (add_elements start crun save restore rec fuel f2 anc2 g1) as [[a2 [[f3 anc3] g3]]| |] eqn:E3; cbn [abind]; try discriminate.
  destruct (elements_cover rec Hrec fuel f2 anc2 g1 a2 f3 anc3 g3 A5 Ha2 D4 E3) as (C1 & C2 & C3 & C4 & C5 & C6).
  pose proof (low_trans _ _ _ _ _ _ B2 C4) as B4. pose proof (still_trans _ _ _ A4 C5) as B5. pose proof (still_sound _ _ B5) as Ha3.
  destruct (after a2 f3 anc3 g3) as [[s2 [[f4 anc4] g4]]| |] eqn:E4; cbn [abind]; try discriminate.
  destruct (after_cover a2 f3 anc3 g3 s2 f4 anc4 g4 C3 Ha3 C1 E4) as (F1 & (F2 & F3 & F5) & F4 & ->).
  pose proof (low_y _ _ _ _ _ B4 F3) as B7. pose proof (still_trans _ _ _ B5 F4) as B8. pose proof (still_sound _ _ B8) as Ha4. assert (M4 : f_miny f4 = f_miny f) by congruence.
  destruct F1 as [-> | ->]; [|intros H; injection H as <- <- <- <-; auto 8].
  destruct (f_delayed f4).
  - rewrite (so_cols f4 F5), (so_res f4 F5). cbn [negb andb Nat.ltb Nat.leb]. intros H. injection H as <- <- <- <-. auto 8.
  - intros H. destruct (IH f4 anc4 g3 act f' anc' g' F5 Ha4 C6 H) as (G1 & G2 & G3 & G4 & G5 & G6).
    split; [exact G1|]. split; [congruence|]. split; [exact G3|]. split; [exact (low_trans _ _ _ _ _ _ B7 G4)|]. split; [exact (still_trans _ _ _ B8 G5)|exact G6].
Qed.
Lemma run_part_cover : forall fuel, fine (run_part start crun save restore fuel).
Proof. induction fuel as [|fuel IH]; [intros ? ? ? ? ? ? ? ? ? ? H; discriminate|]. cbn [run_part]. apply loop_cover. exact IH. Qed.
End Cover.
