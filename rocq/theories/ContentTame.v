(** Boxes of one column around boxes of several columns: what is put is above
    the bottom of the rectangle. *)
From Coq Require Import QArith ZArith Lia Lqa.
From Verif Require Import Py Table Content ContentFlow ContentGeom ContentState ContentBalance.
Open Scope list_scope.
Open Scope nat_scope.

Section Tame.
Context {E O S P L K : Type}.
Variable start : E -> res O.
Variable crun : O -> Q -> Q -> Q -> Q -> res (O * Q * bool * list P * list L).
Variable save : O -> S.
Variable restore : O -> S -> O.
Variable kind : O -> K.
Hypothesis fits : forall o x y w h o' ht fin ps ls, crun o x y w h = Ok (o', ht, fin, ps, ls) -> (0 < ht)%Q -> (ht <= h)%Q.
Hypothesis kind_run : forall o x y w h o' ht fin ps ls, crun o x y w h = Ok (o', ht, fin, ps, ls) -> kind o' = kind o.
Hypothesis kind_restore : forall o sv, kind (restore o sv) = kind o.
Hypothesis same_restore : forall o o' sv, kind o = kind o' -> restore o sv = restore o' sv.
Hypothesis run_same : forall o x y y' w h h' o1 ht fin ps ls o1' ht' fin' ps' ls', (y' == y)%Q -> (h' == h)%Q ->
  crun o x y w h = Ok (o1, ht, fin, ps, ls) -> crun o x y' w h' = Ok (o1', ht', fin', ps', ls') -> (ht' == ht)%Q /\ fin' = fin /\ save o1' = save o1.
Variables (n0 : nat) (gap0 : option Q) (elems0 : list (@elem E)).
Variables X Y W B : Q.
Variable St : style -> Prop.
Hypothesis St_ok : forall s, St s -> (0 <= s_mt s /\ 0 <= s_mb s /\ match s_min s with Some m => 0 < m | None => True end)%Q.
Hypothesis wide : forall l x w s, strip n0 gap0 elems0 X W l x w -> St s -> (s_ml s + s_mr s <= w)%Q.
Notation gelem := (@gelem E).
Notation elem := (@elem E).
Notation delem := (@delem E S).
Notation part := (@part E S).
Notation glob := (@glob O P L).
Notation placed := (@placed O P).
Notation runner := (@runner E O S P L).
Notation ext := (ext kind).
Notation rd := (rd (E := E) (S := S) kind false).
Notation adds := (adds kind).
Notation vd := (vd (E := E) (S := S) kind).
Notation vm := (vm (E := E) (S := S) kind).
Notation rp := (rp (E := E) (S := S) kind).
Notation left_at := (left_at (E := E) (S := S) kind).
Notation leaf := (process_leaf start crun save restore).
Notation dels := (add_delayed start crun save restore).
Notation els := (add_elements start crun save restore).
Notation chain := (chain (S := S) n0 gap0 elems0 X Y W B St False).
Notation inside := (inside (O := O) (P := P) n0 gap0 elems0 X Y W B St False).

(** *** A box without room *)
Definition thin (p : placed) : Prop := (p_height p <= 0)%Q.
Definition addn (g g1 : glob) : Prop := exists new, g_parts g1 = g_parts g ++ new /\ Forall thin new.
Lemma addn_refl g : addn g g.
Proof. exists []. split; [rewrite app_nil_r; reflexivity|constructor]. Qed.
Lemma addn_trans g g1 g2 : addn g g1 -> addn g1 g2 -> addn g g2.
Proof. intros (n1 & A1 & A2) (n2 & B1 & B2). exists (n1 ++ n2). split; [rewrite B1, A1, app_assoc; reflexivity|]. apply Forall_app. auto. Qed.
Lemma addn_low b g g1 : addn g g1 -> Forall (low b) (g_parts g) -> Forall (low b) (g_parts g1).
Proof. intros (n & -> & A) H. apply Forall_app. split; [exact H|]. revert A. apply Forall_impl. intros p Hp Hh. unfold thin in Hp. lra. Qed.
Definition zero (f : part) : Prop := (f_miny f <= f_maxy f)%Q.
Lemma zero_space f anc s top x y w h : chain f anc -> St s -> zero f -> space f s top = (x, y, w, h) -> (h <= 0)%Q.
Proof.
  intros Hc Hs Hz He. pose proof (chain_own _ _ _ _ _ _ _ _ _ _ _ Hc) as Ho. destruct (space_ok Y B St False St_ok f s top Ho Hs x y w h He) as (_ & Hy & _ & Hh).
  destruct (Qlt_le_dec 0 h) as [H0|H0]; [|exact H0]. specialize (Hh H0). pose proof (ow_y _ _ _ _ _ Ho). unfold zero in Hz. lra.
Qed.
Lemma leaf_zero f anc g s src add top r f1 g1 : chain f anc -> St s -> zero f -> leaf f g s src add top = Done (r, f1, g1) -> addn g g1.
Proof.
  intros Hc Hs Hz H. destruct (leaf_inv start crun save restore kind kind_run kind_restore same_restore _ _ _ _ _ _ _ _ _ H) as (ref & o & x & y & w & h & o' & ht & fin & ps & ls & H1 & _ & H3 & _ & _ & H6 & _).
  pose proof (zero_space _ _ _ _ _ _ _ _ Hc Hs Hz H1) as Hh. unfold addn. rewrite H6. destruct add; [|exists []; split; [rewrite app_nil_r; reflexivity|constructor]].
  eexists. split; [reflexivity|]. constructor; [|constructor]. unfold thin. cbn [p_height]. destruct (Qlt_le_dec 0 ht) as [H0|H0]; [|exact H0]. pose proof (fits _ _ _ _ _ _ _ _ _ _ H3 H0). lra.
Qed.
Lemma image_zero f anc (g : glob) s min shrink iw ih add top ok f1 g1 : chain f anc -> St s -> zero f -> process_image f g s min shrink iw ih add top = (ok, f1, g1) -> addn g g1.
Proof.
  intros Hc Hs Hz. unfold process_image. destruct (space f s top) as [[[x y] w] h] eqn:Es. pose proof (zero_space _ _ _ _ _ _ _ _ Hc Hs Hz Es) as Hh. cbv zeta.
  assert (Hgo : forall x' w' ht, (ht <= 0)%Q -> (true, with_y f (y - ht)%Q false (s_mb s), if add then with_parts g (g_parts g ++ [PlImage s x' (y - ht) w' ht iw ih]) else g) = (ok, f1, g1) -> addn g g1).
  { intros x' w' ht H0 H. injection H as <- <- <-. destruct add; [|apply addn_refl]. eexists. split; [reflexivity|]. constructor; [exact H0|constructor]. }
  destruct (qlt (w * ih / iw) h) eqn:E1; [apply qlt_spec in E1; apply Hgo; lra|]. destruct min as [m|]; [|intros H; injection H as <- <- <-; apply addn_refl].
  destruct (Qle_bool m h) eqn:E2; [|intros H; injection H as <- <- <-; apply addn_refl]. apply Qle_bool_iff in E2. apply Hgo. destruct shrink; lra.
Qed.
Lemma gel_zero f anc g el min add top ok f1 g1 : chain f anc -> okg St el -> zero f -> group_element start crun save restore f g el min add top = Done (ok, f1, g1) -> addn g g1.
Proof.
  intros Hc Hg Hz. destruct el as [s e|s iw ih|]; cbn [group_element okg] in *; [| |discriminate].
  - destruct (leaf f g s (inl e) add top) as [[[r f2] g2]| |] eqn:El; cbn [abind]; try discriminate. intros H. injection H as <- <- <-. eapply leaf_zero; eassumption.
  - intros H. injection H as H. destruct Hg as [Hs _]. eapply image_zero; eassumption.
Qed.
Lemma zero_moves f f1 : zero f -> moves f f1 -> zero f1.
Proof. intros Hz (? & ? & ? & -> & _). exact Hz. Qed.
Lemma zero_lower f f1 : zero f -> lower f f1 -> zero f1.
Proof. intros Hz (? & ? & ? & -> & _). exact Hz. Qed.
Notation gel_geom := (group_element_geom start crun save restore fits n0 gap0 elems0 X Y W B St False St_ok wide).
Lemma try_zero : forall l f anc g first ok f1 g1, chain f anc -> Forall (okg St) l -> Forall inside (g_parts g) -> zero f -> group_try start crun save restore f g first l = Done (ok, f1, g1) -> addn g g1.
Proof.
  induction l as [|el l IH]; intros f anc g first ok f1 g1 Hc Hg Hp Hz; cbn [group_try]; [intros H; injection H as <- <- <-; apply addn_refl|].
  inversion Hg as [|a b Ha Hl]; subst. destruct (group_element start crun save restore f g el None false (negb first)) as [[[o2 f2] g2]| |] eqn:E0; cbn [abind]; try discriminate.
  pose proof (gel_zero _ _ _ _ _ _ _ _ _ _ Hc Ha Hz E0) as A. destruct (gel_geom f anc g el None false _ o2 f2 g2 Hc Ha I Hp E0) as (H1 & H2 & _).
  destruct o2; [|intros H; injection H as <- <- <-; exact A]. intros H. apply (addn_trans _ g2); [exact A|]. eapply IH; [|exact Hl|exact H2|exact (zero_moves _ _ Hz H1)|exact H]. eapply moves_chain; eassumption.
Qed.
Lemma add_zero : forall l f anc g ratio first f1 g1, chain f anc -> Forall (okg St) l -> (0 < ratio)%Q -> Forall inside (g_parts g) -> zero f -> group_add start crun save restore f g ratio first l = Done (f1, g1) -> addn g g1.
Proof.
  induction l as [|el l IH]; intros f anc g ratio first f1 g1 Hc Hg Hr Hp Hz; cbn [group_add]; [intros H; injection H as <- <-; apply addn_refl|].
  inversion Hg as [|a b Ha Hl]; subst. destruct (group_element start crun save restore f g el _ true (negb first)) as [[[o2 f2] g2]| |] eqn:E0; cbn [abind]; try discriminate.
  pose proof (gel_zero _ _ _ _ _ _ _ _ _ _ Hc Ha Hz E0) as A.
  assert (Hm : match (if has_min el then Some (min_of el * ratio)%Q else None) with Some m => (0 < m)%Q | None => True end).
  { destruct el as [s e|s iw ih|]; cbn [has_min min_of okg] in *; auto. destruct Ha as [Hs _]. destruct (St_ok s Hs) as (_ & _ & H0). destruct (s_min s); [nra|exact I]. }
  destruct (gel_geom f anc g el _ true _ o2 f2 g2 Hc Ha Hm Hp E0) as (H1 & H2 & _).
  intros H. apply (addn_trans _ g2); [exact A|]. eapply IH; [|exact Hl|exact Hr|exact H2|exact (zero_moves _ _ Hz H1)|exact H]. eapply moves_chain; eassumption.
Qed.
Lemma group_zero f anc g s l tries r f1 g1 : chain f anc -> St s -> Forall (okg St) l -> Forall inside (g_parts g) -> zero f -> process_group start crun save restore f g s l tries = Done (r, f1, g1) -> addn g g1.
Proof.
  intros Hc Hs Hg Hp Hz. unfold process_group. pose proof (chain_own _ _ _ _ _ _ _ _ _ _ _ Hc) as Ho. destruct (St_ok s Hs) as (Hmt & _ & _). pose proof (ow_lb _ _ _ _ f Ho) as Hlb.
  set (f2 := with_y f (if f_starting f then f_y f else (f_y f - s_mt s)%Q) (f_starting f) (f_lastbottom f)).
  assert (L0 : lower f f2) by (eexists _, _, _; split; [reflexivity|]; split; [destruct (f_starting f); lra|exact Hlb]).
  pose proof (lower_chain _ _ _ _ _ _ _ _ _ _ _ _ Hc L0) as Hc2.
  destruct (group_try start crun save restore f2 g true l) as [[[ok f3] g3]| |] eqn:Et; cbn [abind]; try discriminate.
  pose proof (try_zero _ _ _ _ _ _ _ _ Hc2 Hg Hp Hz Et) as A.
  destruct (group_try_geom start crun save restore fits n0 gap0 elems0 X Y W B St False St_ok wide l f2 anc g true ok f3 g3 Hc2 Hg Hp Et) as (H1 & H2 & H3).
  assert (Hf1 : exists y st lb, f3 = with_y f y st lb /\ (0 <= lb)%Q) by (destruct H1 as (y & st & lb & -> & _ & Hl & _); exists y, st, lb; split; [reflexivity|exact Hl]).
  destruct Hf1 as (y1 & st1 & lb1 & Hf1 & Hl1).
  assert (L2 : lower f (with_y f3 (f_y f) (f_starting f3) (f_lastbottom f3))) by (rewrite Hf1; eexists _, _, _; split; [reflexivity|]; split; [lra|exact Hl1]).
  destruct ok.
  - destruct (min_sum St St_ok l Hg) as [Hq1 Hq2].
    destruct (if existsb has_min l then if Qeq_bool (qsum (map min_of l)) 0 then Raise ZeroDivisionError else Done ((qsum (map min_of l) + f_y f3 - f_maxy f3) / qsum (map min_of l))%Q else Done 1%Q) as [ratio| |] eqn:Er; cbn [abind]; try discriminate.
    assert (Hr : (0 < ratio)%Q).
    { destruct (existsb has_min l); [|injection Er as <-; lra]. destruct (Qeq_bool (qsum (map min_of l)) 0); [discriminate|]. injection Er as <-.
      specialize (H3 eq_refl eq_refl). specialize (Hq2 eq_refl). assert (Hmx : f_maxy f2 = f_maxy f3) by (rewrite Hf1; reflexivity). rewrite Hmx in H3.
      apply Qlt_shift_div_l; lra. }
    match goal with |- abind ?e _ = _ -> _ => destruct e as [[f4 g4]| |] eqn:Ea end; cbn [abind]; try discriminate.
    assert (Hr2 : (0 < (if s_shrink s then 1 else ratio))%Q) by (destruct (s_shrink s); lra).
    intros H. injection H as <- <- <-. apply (addn_trans _ g3); [exact A|]. eapply add_zero; [exact (lower_chain _ _ _ _ _ _ _ _ _ _ _ _ Hc L2)|exact Hg|exact Hr2|exact H2|exact (zero_lower _ _ Hz L2)|exact Ea].
  - destruct (50 <=? tries); [discriminate|]. intros H. injection H as <- <- <-. exact A.
Qed.
Lemma delayed_zero f anc g d r f1 g1 : chain f anc -> okd St d -> Forall inside (g_parts g) -> zero f -> process_delayed start crun save restore f g d = Done (r, f1, g1) -> addn g g1.
Proof.
  intros Hc Hd Hp Hz. destruct d as [s ref sv|s iw ih t|s l t]; cbn [process_delayed okd] in *.
  - intros H. eapply leaf_zero; eassumption.
  - destruct Hd as [Hs _]. destruct (process_image f g s _ _ iw ih true true) as [[ok f2] g2] eqn:Ei. pose proof (image_zero _ _ _ _ _ _ _ _ _ _ _ _ _ Hc Hs Hz Ei) as A. destruct ok; [intros H; injection H as <- <- <-; exact A|].
    destruct (image_ret s iw ih t); cbn [abind]; try discriminate. intros H. injection H as <- <- <-. exact A.
  - destruct Hd as [Hs Hg]. intros H. eapply group_zero; eassumption.
Qed.
Lemma delayeds_zero anc : forall fuel n f g a f1 g1, chain f anc -> Forall inside (g_parts g) -> zero f -> dels fuel n f g = Done (a, f1, g1) -> addn g g1.
Proof.
  induction fuel as [|fuel IH]; intros n f g a f1 g1 Hc Hp Hz; cbn [add_delayed]; [discriminate|]. destruct (nth_error (f_delayed f) n) as [d|] eqn:En; [|intros H; injection H as <- <- <-; apply addn_refl].
  destruct (process_delayed start crun save restore f g d) as [[[r f2] g2]| |] eqn:Ed; cbn [abind]; try discriminate.
  pose proof (chain_own _ _ _ _ _ _ _ _ _ _ _ Hc) as Ho. pose proof (proj1 (Forall_forall _ _) (ow_del _ _ _ _ f Ho) d (nth_error_In _ _ En)) as Hd.
  pose proof (delayed_zero _ _ _ _ _ _ _ Hc Hd Hp Hz Ed) as A.
  destruct (delayed_geom start crun save restore fits n0 gap0 elems0 X Y W B St False St_ok wide f anc g d r f2 g2 Hc Hd Hp Ed) as (H1 & H2 & H3). cbv zeta.
  pose proof (lower_chain _ _ _ _ _ _ _ _ _ _ _ _ Hc H1) as Hc1. destruct (r_next r); [intros H; injection H as <- <- <-; exact A|].
  intros H. apply (addn_trans _ g2); [exact A|]. eapply IH; [| | |exact H]; [|exact H2|exact (zero_lower _ _ Hz H1)].
  apply todo_chain; [exact Hc1|]. apply Forall_replace; [apply (ow_del _ _ _ _ f2 (chain_own _ _ _ _ _ _ _ _ _ _ _ Hc1))|exact H3].
Qed.
(** One element without boxes inside. *)
Lemma process_geom rec f anc g el lst q f1 anc1 g1 : chain f anc -> Forall inside (g_parts g) -> okel St False el -> flat1 el -> process start crun save restore rec f anc g el lst = Done (inr q, (f1, anc1, g1)) ->
  lower f f1 /\ Forall inside (g_parts g1) /\ match r_delayed q with Some d => okd St d | None => True end /\ (zero f -> addn g g1).
Proof.
  intros Hc Hp Hel Hf. destruct el as [s e|s id iw ih|s id l|s n gap l]; cbn [process okel flat1] in *; [| | |contradiction].
  - destruct (leaf f g s (inl e) true true) as [[[q0 f2] g2]| |] eqn:El; cbn [abind]; try discriminate. intros H. injection H as <- <- <- <-.
    destruct (leaf_geom start crun save restore fits n0 gap0 elems0 X Y W B St False St_ok f anc g s (inl e) true true q0 f2 g2 Hc Hel Hp El) as (H1 & H2 & H3). split; [apply moves_lower; exact H1|]. split; [exact H2|]. split; [exact H3|].
    intros Hz. eapply leaf_zero; eassumption.
  - destruct Hel as [Hs Hi]. destruct (process_image f g s (s_min s) (s_shrink s) iw ih true true) as [[ok f2] g2] eqn:Ei.
    destruct (image_geom n0 gap0 elems0 X Y W B St False St_ok wide f anc g s _ _ iw ih true true ok f2 g2 Hc Hs Hi ltac:(apply (St_ok s Hs)) Hp Ei) as (H1 & H2 & _). destruct ok.
    + intros H. injection H as <- <- <- <-. split; [apply moves_lower; exact H1|]. split; [exact H2|]. split; [exact I|]. intros Hz. eapply image_zero; eassumption.
    + unfold image_ret. destruct (50 <=? g_tries g id); cbn [abind]; [discriminate|]. intros H. injection H as <- <- <- <-. split; [apply moves_lower; exact H1|]. split; [exact H2|]. split; [split; [exact Hs|exact Hi]|]. intros Hz. exact (image_zero _ _ _ _ _ _ _ _ _ _ _ _ _ Hc Hs Hz Ei).
  - destruct Hel as [Hs Hg]. destruct (process_group start crun save restore f g s l (g_tries g id)) as [[[q0 f2] g2]| |] eqn:Eg; cbn [abind]; try discriminate. intros H. injection H as <- <- <- <-.
    destruct (group_geom start crun save restore fits n0 gap0 elems0 X Y W B St False St_ok wide f anc g s l _ q0 f2 g2 Hc Hs Hg Hp Eg) as (H1 & H2 & H3).
    split; [exact H1|]. split; [destruct (r_delayed q0); exact H2|]. split; [exact H3|]. intros Hz. pose proof (group_zero _ _ _ _ _ _ _ _ _ Hc Hs Hg Hp Hz Eg) as A. destruct (r_delayed q0); exact A.
Qed.
Lemma elements_zero rec anc : forall fuel f g a f1 anc1 g1, chain f anc -> Forall inside (g_parts g) -> Forall flat1 (f_elems f) -> zero f -> els rec fuel f anc g = Done (a, (f1, anc1, g1)) ->
  addn g g1 /\ chain f1 anc /\ Forall inside (g_parts g1).
Proof.
  induction fuel as [|fuel IH]; intros f g a f1 anc1 g1 Hc Hp Hf Hz; cbn [add_elements]; [discriminate|]. destruct (nth_error (f_elems f) (f_index f)) as [el|] eqn:En; [|intros H; injection H as <- <- <- <-; split; [apply addn_refl|auto]].
  destruct (process start crun save restore rec f anc g el _) as [[r [[f2 anc2] g2]]| |] eqn:Ep; cbn [abind]; try discriminate.
  pose proof (proj1 (Forall_forall _ _) Hf el (nth_error_In _ _ En)) as Hel. pose proof (chain_own _ _ _ _ _ _ _ _ _ _ _ Hc) as Ho. pose proof (okels_nth _ _ _ _ _ (ow_els _ _ _ _ f Ho) En) as Hok.
  destruct (process_one start crun save restore kind fits kind_run kind_restore same_restore _ _ _ _ _ _ _ _ _ _ Hel Ep) as (_ & _ & -> & q & ->). destruct (process_geom _ _ _ _ _ _ _ _ _ _ Hc Hp Hok Hel Ep) as (H1 & H2 & H3 & H4). specialize (H4 Hz).
  pose proof (lower_chain _ _ _ _ _ _ _ _ _ _ _ _ Hc H1) as Hc1. cbv zeta.
  assert (Hc2 : chain (with_todo f2 (Datatypes.S (f_index f2)) (f_delayed f2 ++ match r_delayed q with Some d => [d] | None => [] end)) anc).
  { apply todo_chain; [exact Hc1|]. apply Forall_app. split; [apply (ow_del _ _ _ _ f2 (chain_own _ _ _ _ _ _ _ _ _ _ _ Hc1))|]. destruct (r_delayed q); constructor; auto. }
  destruct (r_next q); [intros H; injection H as <- <- <- <-; auto|]. intros H.
  assert (Hf2 : Forall flat1 (f_elems (with_todo f2 (Datatypes.S (f_index f2)) (f_delayed f2 ++ match r_delayed q with Some d => [d] | None => [] end)))) by (destruct H1 as (? & ? & ? & -> & _); exact Hf).
  destruct (IH _ _ _ _ _ _ Hc2 H2 Hf2 (zero_lower _ _ Hz H1) H) as (K1 & K2 & K3). split; [exact (addn_trans _ _ _ H4 K1)|auto].
Qed.

Notation delayeds_one := (delayeds_one start crun save restore kind fits kind_run kind_restore same_restore).
Notation delayeds_two := (delayeds_two start crun save restore kind kind_run kind_restore same_restore run_same).
Notation elements_one := (elements_one start crun save restore kind fits kind_run kind_restore same_restore).
Notation elements_two := (elements_two start crun save restore kind fits kind_run kind_restore same_restore run_same).
Lemma low_firstn b n (l : list placed) : Forall (low b) l -> Forall (low b) (firstn n l).
Proof. intros H. apply Forall_forall. intros p Hi. apply (proj1 (Forall_forall _ _) H). rewrite <- (firstn_skipn n l). apply in_or_app. left. exact Hi. Qed.
Lemma rp_refl h (f : part) : vd h (f_delayed f) -> rp h h f f.
Proof. intros H. constructor; try reflexivity. exact H. Qed.

Section ZeroBox.
Variables (f0 : part) (g0 : glob) (anc : list part).
Hypothesis anc_quiet : Forall quiet anc.
Hypothesis f0_flat : Forall flat1 (f_elems f0).
Hypothesis f0_valid : vd (g_heap g0) (f_sdelayed f0) /\ vm (g_heap g0) (f_memory f0).
Hypothesis anc_valid : Forall (fun p => vd (g_heap g0) (f_delayed p)) anc.
Notation M := (f_maxy f0).
Notation frame := (frame f0).
Notation ends := (ends kind f0 g0 anc).
Definition calm (f : part) : Prop := f_will f = false /\ f_resetting f = false /\ f_difflast f = None /\ f_diff f = None /\ f_forward f = false.
Definition busy (f : part) : Prop := f_resetting f = true /\ exists d, f_diff f = Some d /\ (d <= 0)%Q /\ (f_miny f <= f_maxy f + d)%Q.
Record zinv (f : part) (g : glob) : Prop := {
  z_frame : frame f; z_ext : ext (g_heap g0) (g_heap g); z_low : Forall (low M) (g_parts g); z_chain : chain f anc; z_in : Forall inside (g_parts g);
  z_zero : zero f; z_del : vd (g_heap g) (f_delayed f); z_way : calm f \/ busy f }.
Lemma frame_ends0 f g : frame f -> Forall (low M) (g_parts g) -> ext (g_heap g0) (g_heap g) -> ends None f anc g.
Proof.
  intros (F1 & F2 & F3 & F4 & F5 & F6 & F7 & F8 & F9 & F10) Hl Hx. split; [exact Hl|]. split; [exact Hx|]. split; [exact F1|]. split; [exact F2|]. split; [exact F10|]. rewrite F8, F9.
  split; [eapply vd_ext; [exact Hx|apply f0_valid]|]. split; [eapply vm_ext; [exact Hx|apply f0_valid]|reflexivity].
Qed.
Lemma way_settled f f1 : settled f f1 -> calm f \/ busy f -> calm f1 \/ busy f1.
Proof. intros (? & ? & ? & ? & ? & ->) H. exact H. Qed.
(** The next bottom of a box without room. *)
Lemma reset_zero f g go f1 g1 : zinv f g -> busy f \/ f_diff f = None /\ f_difflast f = None -> reset f g = (go, f1, g1) ->
  if go then zinv f1 g1 else f_forward f = false /\ f1 = f /\ g1 = g.
Proof.
  intros Hz Hb Hr. destruct (reset_geom n0 gap0 elems0 X Y W B St False f anc g go f1 g1 ltac:(tauto) (z_chain _ _ Hz) (z_in _ _ Hz) Hr) as (R1 & R2 & _).
  destruct Hz as [Z1 Z2 Z3 Z4 Z5 Z6 Z7 Z8]. revert Hr. unfold reset. cbv zeta. match goal with |- context [?c && negb (f_forward f)] => set (stop := c) end.
  destruct (stop && negb (f_forward f)) eqn:Est; [intros H; injection H as <- <- <-; split; [|auto]; apply Bool.andb_true_iff in Est; destruct Est as [_ Est]; destruct (f_forward f); [discriminate|reflexivity]|].
  match goal with |- match ?e with _ => _ end = _ -> _ => destruct e as [[maxy dl] d] eqn:Ed end.
  assert (Hd : exists d1, d = Some d1 /\ (d1 <= 0)%Q /\ (f_miny f <= maxy + d1)%Q /\ (f_miny f <= maxy)%Q).
  { unfold zero in Z6. destruct Hb as [(_ & d0 & E0 & D1 & D2)|[E0 E1]].
    - rewrite E0 in Ed. unfold stop in *. destruct (match f_difflast f with Some l => _ | None => false end) eqn:Es.
      + cbn [andb] in Est. destruct (f_forward f); [|discriminate]. injection Ed as <- <- <-. eexists. split; [reflexivity|]. assert (Hq : (d0 * 2 / 2 == d0)%Q) by field. rewrite Hq. do 2 (split; [lra|]). lra.
      + destruct (f_forward f); injection Ed as <- <- <-; eexists; (split; [reflexivity|]); assert (Hq : (d0 / 2 + d0 / 2 == d0)%Q) by field; (split; [lra|]); split; lra.
    - assert (Hs0 : stop = false) by (unfold stop; rewrite E1; reflexivity). rewrite Hs0, E0 in Ed. injection Ed as <- <- <-. eexists. split; [reflexivity|]. set (q := ((f_miny f - f_maxy f) / 2)%Q).
      assert (Hq : (q + q == f_miny f - f_maxy f)%Q) by (unfold q; field). split; [lra|]. split; lra. }
  destruct Hd as (d1 & -> & D1 & D2 & D3). intros H. injection H as <- <- <-. constructor; try assumption.
  - cbn [with_parts g_parts]. apply low_firstn. exact Z3.
  - cbn [with_todo f_delayed with_parts g_heap]. destruct Z1 as (F1 & F2 & F3 & F4 & F5 & F6 & F7 & F8 & F9 & F10). rewrite F8. eapply vd_ext; [exact Z2|apply f0_valid].
  - right. split; [reflexivity|]. exists d1. split; [reflexivity|]. split; [exact D1|exact D2].
Qed.
Lemma zero_loop rec : forall fuel f g act f' anc' g', zinv f g -> loop start crun save restore rec fuel f anc g = Done (act, (f', anc', g')) -> ends act f' anc' g'.
Proof.
  induction fuel as [|fuel IH]; intros f g act f' anc' g' Hz; cbn [loop]; [discriminate|].
  assert (Hav : forall h, ext (g_heap g0) h -> Forall (fun q => vd h (f_delayed q)) anc) by (intros h Hh; revert anc_valid; apply Forall_impl; intros q; apply vd_ext; exact Hh).
  assert (Hstep : forall fx gx fy gy, zinv fx gx -> settled fx fy -> addn gx gy -> adds (f_maxy fx) gx gy -> rp (g_heap gy) (g_heap gy) fy fy -> chain fy anc -> Forall inside (g_parts gy) -> zinv fy gy).
  { intros fx gx fy gy [Z1 Z2 Z3 Z4 Z5 Z6 Z7 Z8] S1 A1 A2 V1 C1 I1. constructor; auto.
    - exact (frame_settled _ _ _ S1 Z1).
    - eapply ext_trans; [exact Z2|apply A2].
    - eapply addn_low; eassumption.
    - destruct S1 as (? & ? & ? & ? & ? & ->). exact Z6.
    - apply (rp_del _ _ _ _ _ V1).
    - exact (way_settled _ _ S1 Z8). }
  assert (Hcol : forall fx gx sx fy ancy gy, zinv fx gx -> after Next fx anc gx = Done (sx, (fy, ancy, gy)) ->
     match sx with Retry => zinv fy gy /\ ancy = anc | Return a => ends (Some a) fy ancy gy | Proceed => False end).
  { intros fx gx sx fy ancy gy HZ Ha. assert (Hc : match @Next with Stop PartialNext => partial_ok n0 gap0 elems0 X Y W B St False (fx :: anc) | _ => chain fx anc end) by (apply HZ).
    destruct (after_geom n0 gap0 elems0 X Y W B St False Next fx anc gx sx fy ancy gy Hc (z_in _ _ HZ) Ha) as (G1 & _ & _ & G4).
    assert (HZ' := HZ). destruct HZ as [Z1 Z2 Z3 Z4 Z5 Z6 Z7 Z8]. revert Ha. cbn [after]. destruct (Nat.eq_dec (Datatypes.S (f_column fx)) (f_cols fx)) as [Ec|Ec].
    - destruct (f_resetting fx) eqn:Er.
      + rewrite next_section_cons, Ec, Nat.eqb_refl, Er. unfold if_resetting. cbn [with_reset f_will f_resetting]. rewrite Bool.orb_true_r.
        set (fz := with_reset fx (f_will fx) true (f_maxy fx) (f_difflast fx) (f_diff fx) true).
        assert (HF : zinv fz gx /\ busy fz).
        { destruct Z8 as [(_ & Z8 & _)|(Z8 & Z9)]; [congruence|]. assert (Hb : busy fz) by (split; [reflexivity|exact Z9]). split; [|exact Hb]. constructor; try assumption; [|right; exact Hb].
          apply (chain_fixed _ _ _ _ _ _ _ _ _ fx fz anc Z4); [|repeat split]. destruct (chain_own _ _ _ _ _ _ _ _ _ _ _ Z4) as [q1 q2 q3 q4 q5 q6 q7 q8 q9 q10]. constructor; try assumption. intros []. }
        destruct (reset fz gx) as [[go f2] g2] eqn:Ers. pose proof (reset_zero fz gx go f2 g2 (proj1 HF) (or_introl (proj2 HF)) Ers) as KK. intros H. injection H as <- <- <- <-. destruct go; [split; [exact KK|reflexivity]|]. destruct KK as [KK _]. discriminate.
      + destruct (next_last kind (length (g_parts gx)) (g_heap gx) fx anc anc_quiet Z7 (Hav _ Z2) Ec Er) as (fl & ancl & -> & (m & -> & Hm) & Hl). intros H. injection H as <- <- <- <-.
        destruct Z1 as (F1 & F2 & F3 & F4 & F5 & F6 & F7 & F8 & F9 & F10). split; [exact Z3|]. split; [exact Z2|]. split; [exact F1|]. split; [exact F2|]. split; [exact F10|]. split; [exact Z7|]. split; [exact Hm|exact Hl].
    - rewrite next_section_cons. destruct (Nat.eqb_spec (Datatypes.S (f_column fx)) (f_cols fx)) as [Ec'|_]; [contradiction|]. intros H. injection H as <- <- <- <-. split; [|reflexivity].
      constructor; assumption. }
  destruct (dels fuel 0 f g) as [[[a1 f1] g1]| |] eqn:E1; cbn [abind]; try discriminate. destruct (delayeds_one _ _ _ _ _ _ _ E1) as (S1 & A1 & N1).
  pose proof (delayeds_zero anc _ _ _ _ _ _ _ (z_chain _ _ Hz) (z_in _ _ Hz) (z_zero _ _ Hz) E1) as T1.
  destruct (delayeds_two _ _ _ _ _ _ _ _ _ _ _ _ _ (rp_refl _ _ (z_del _ _ Hz)) E1 E1) as [_ V1].
  destruct (add_delayed_geom start crun save restore fits n0 gap0 elems0 X Y W B St False St_ok wide anc fuel 0 f g a1 f1 g1 (z_chain _ _ Hz) (z_in _ _ Hz) E1) as (G1 & G2 & _).
  pose proof (Hstep _ _ _ _ Hz S1 T1 A1 V1 G1 G2) as Hz1.
  destruct a1 as [x| |]; [destruct (N1 x eq_refl)| |].
  - destruct (after Next f1 anc g1) as [[s1 [[f2 anc2] g2]]| |] eqn:E2; cbn [abind]; try discriminate.
    pose proof (Hcol f1 g1 s1 f2 anc2 g2 Hz1 E2) as Hs. destruct s1 as [a| |]; [|destruct Hs as [Hs ->]; apply IH; exact Hs|contradiction].
    intros H. injection H as <- <- <- <-. exact Hs.
  - cbn [after abind]. destruct (els rec fuel f1 anc g1) as [[a2 [[f3 anc3] g3]]| |] eqn:E3; cbn [abind]; try discriminate.
    assert (Fl : Forall flat1 (f_elems f1)) by (destruct (z_frame _ _ Hz1) as (-> & _); exact f0_flat).
    destruct (elements_one _ _ _ _ _ _ _ _ _ Fl E3) as (S3 & A3 & -> & N3). destruct (elements_two _ _ _ _ _ _ _ _ _ _ _ _ _ _ _ _ _ _ Fl V1 E3 E3) as [_ V3].
    destruct (elements_zero _ _ _ _ _ _ _ _ _ (z_chain _ _ Hz1) (z_in _ _ Hz1) Fl (z_zero _ _ Hz1) E3) as (T3 & G3 & G4).
    pose proof (Hstep _ _ _ _ Hz1 S3 T3 A3 V3 G3 G4) as Hz3.
    destruct a2 as [x| |]; [destruct (N3 x eq_refl)| |].
    + destruct (after Next f3 anc g3) as [[s1 [[f2 anc2] g2]]| |] eqn:E2; cbn [abind]; try discriminate.
      pose proof (Hcol f3 g3 s1 f2 anc2 g2 Hz3 E2) as Hs. destruct s1 as [a| |]; [|destruct Hs as [Hs ->]; apply IH; exact Hs|contradiction].
      intros H. injection H as <- <- <- <-. exact Hs.
    + cbn [after abind]. destruct (f_delayed f3) as [|d0 ds] eqn:Edl; [|apply IH; exact Hz3].
      assert (Hend : ends None f3 anc g3) by (apply frame_ends0; apply Hz3).
      destruct (z_way _ _ Hz3) as [(D1 & D2 & D3 & D4 & D5)|Hb].
      * rewrite D2. cbn [negb andb]. destruct (1 <? f_cols f3); [|intros H; injection H as <- <- <- <-; exact Hend].
        rewrite (last_child_quiet anc f3 anc_quiet), (start_quiet anc f3 anc_quiet). cbn [with_reset f_will].
        match goal with |- context [reset ?a g3] => set (f5 := a) end.
        (* before the first step nothing but the flag changes *)
        assert (H5 : forall go f6 g6, reset f5 g3 = (go, f6, g6) -> zinv f6 g6).
        { intros go f6 g6 Er. assert (K5 : go = true /\ reset f3 g3 = (go, f6, g6)).
          { revert Er. unfold f5, reset. cbn [with_reset f_difflast f_diff f_forward f_miny f_maxy f_minx f_pindex f_sindex f_sdelayed]. rewrite D3, D4, D5. cbn [andb]. cbv zeta. intros H. injection H as <- <- <-. split; reflexivity. }
          destruct K5 as [-> K5]. exact (reset_zero f3 g3 true f6 g6 Hz3 (or_intror (conj D4 D3)) K5). }
        destruct (reset f5 g3) as [[go f6] g6] eqn:Er. apply IH. exact (H5 _ _ _ eq_refl).
      * assert (Er := proj1 Hb). rewrite Er. cbn [negb andb].
        match goal with |- context [reset ?a g3] => set (f5 := a) end.
        assert (Hb5 : busy f5) by (split; [reflexivity|exact (proj2 Hb)]).
        assert (Hz5 : zinv f5 g3).
        { destruct Hz3 as [Z1 Z2 Z3 Z4 Z5 Z6 Z7 Z8]. constructor; try assumption; [|right; exact Hb5].
          apply (chain_fixed _ _ _ _ _ _ _ _ _ f3 f5 anc Z4); [|repeat split]. destruct (chain_own _ _ _ _ _ _ _ _ _ _ _ Z4) as [q1 q2 q3 q4 q5 q6 q7 q8 q9 q10]. constructor; try assumption. intros []. }
        cbv zeta. destruct (reset f5 g3) as [[go f6] g6] eqn:Ers. pose proof (reset_zero f5 g3 go f6 g6 Hz5 (or_introl Hb5) Ers) as KK. destruct go; [apply IH; exact KK|].
        destruct KK as (_ & -> & ->). intros H. injection H as <- <- <- <-. apply frame_ends0; apply Hz5.
Qed.
End ZeroBox.

(** *** Boxes of one column *)
Fixpoint tame (el : elem) : Prop :=
  match el with
  | Child _ n _ l => (n = 1 -> fold_right (fun e acc => tame e /\ acc) True l) /\ (n <> 1 -> Forall flat1 l)
  | _ => True
  end.
Definition tames (l : list elem) : Prop := fold_right (fun e acc => tame e /\ acc) True l.
Lemma tames_nth l i el : tames l -> nth_error l i = Some el -> tame el.
Proof.
  revert i. induction l as [|a l IH]; intros [|i] H Hn; try discriminate; destruct H as [Ha Hl].
  - cbn in Hn. injection Hn as <-. exact Ha.
  - exact (IH i Hl Hn).
Qed.
Definition begins (f : part) : Prop := f_index f = f_sindex f /\ f_delayed f = f_sdelayed f /\ f_y f = f_miny f /\ f_column f = 0 /\ f_starting f = true.
Definition shape (n : nat) (l : list elem) : Prop := (n = 1 -> tames l) /\ (n <> 1 -> Forall flat1 l).
Definition safe (rec : runner) : Prop := forall f anc g act f' anc' g',
  begins f -> calm f -> f_partial f = None -> shape (f_cols f) (f_elems f) -> vd (g_heap g) (f_sdelayed f) /\ vm (g_heap g) (f_memory f) ->
  Forall quiet anc -> Forall (fun p => vd (g_heap g) (f_delayed p)) anc -> Forall (low (f_maxy f)) (g_parts g) -> chain f anc -> Forall inside (g_parts g) ->
  rec f anc g = Done (act, (f', anc', g')) -> ends kind f g anc act f' anc' g'.
Lemma no_partial (f : part) : f_partial f = None -> with_partial f None = f.
Proof. destruct f; cbn. intros ->. reflexivity. Qed.
Notation fine2 := (fine2 (O := O) (S := S) (P := P) (L := L) n0 gap0 elems0 X Y W B St False).

Lemma child_safe rec f anc g s n gap l lst r f' anc' g' : safe rec ->
  f_cols f = 1 -> f_column f = 0 -> calm f -> f_partial f = None -> In (Child s n gap l) (f_elems f) -> tame (Child s n gap l) -> okel St False (Child s n gap l) ->
  Forall quiet anc -> Forall (fun p => vd (g_heap g) (f_delayed p)) anc -> vd (g_heap g) (f_delayed f) -> vm (g_heap g) (f_memory f) ->
  Forall (low (f_maxy f)) (g_parts g) -> chain f anc -> Forall inside (g_parts g) -> process_child rec f anc g s n gap l lst = Done (r, (f', anc', g')) ->
  Forall (low (f_maxy f)) (g_parts g') /\ ext (g_heap g) (g_heap g') /\
  match r with
  | inl Interrupt => exists y st lb m, f' = with_y (with_section f (f_index f) (f_delayed f) m) y st lb /\ vm (g_heap g') m /\ Forall2 (left_at (g_heap g')) anc anc'
  | inl _ => False
  | inr q => q = mkRet None false false /\ still f f' /\ anc' = anc
  end.
Proof.
  intros Hsafe N1 N2 N3 N4 Hin Ht Hel Hq Hv Hd0 Hm0 Hlow Hc Hp. cbn [okel] in Hel. destruct Hel as (Hs & _ & Hl). change (okels St False l) in Hl. unfold process_child.
  pose proof (chain_own _ _ _ _ _ _ _ _ _ _ _ Hc) as Ho. destruct (space f s true) as [[[x y] w] h] eqn:Esp. destruct (space_ok Y B St False St_ok f s true Ho Hs x y w h Esp) as (_ & Hy & _).
  pose proof (ow_y _ _ _ _ f Ho) as Hoy. pose proof (ow_top _ _ _ _ f Ho) as Hot.
  set (f1 := with_y f y (f_starting f) (f_lastbottom f)).
  assert (Hc1 : chain f1 anc) by (apply (lower_chain _ _ _ _ _ _ _ _ _ f f1 anc Hc); eexists _, _, _; split; [reflexivity|]; split; [lra|apply (ow_lb _ _ _ _ f Ho)]).
  destruct (new_part l n gap lst (left_edge f) (f_colw f) y (f_maxy f) (length (g_parts g))) as [c0| |] eqn:Ec0; cbn [abind]; try discriminate.
  unfold new_part, setup in Ec0. cbn [f_cols f_gapspec f_sindex f_sdelayed f_memory f_partial f_elems f_last] in Ec0. destruct n as [|n]; [discriminate|]. injection Ec0 as Ec0.
  assert (Hc0 : forall i d m, Forall (okd St) d -> okm St m -> chain (with_todo (with_section c0 i d m) i d) (f1 :: anc)).
  { intros i d m Hd Hm. cbn [ContentGeom.chain]. split.
    - subst c0. constructor; cbn [with_todo with_section f_column f_cols f_lastbottom f_y f_miny f_elems f_delayed f_sdelayed f_memory f_partial f_maxy f_resetting f_will]; try assumption; try lra; try lia; auto.
    - split; [|split; [exact N4|exact Hc1]]. unfold link. subst c0. cbn [with_todo with_section f_elems f_cols f_gapspec f_minx f_gap f_colw f_miny].
      split; [exists s; exact Hin|]. split; [reflexivity|]. split; [destruct gap; reflexivity|]. split; [reflexivity|cbn [f1 with_y f_miny]; lra]. }
  assert (Hq1 : Forall quiet (f1 :: anc)) by (constructor; [destruct N3 as (_ & N3 & _); repeat split; assumption|exact Hq]).
  assert (Hv1 : Forall (fun p => vd (g_heap g) (f_delayed p)) (f1 :: anc)) by (constructor; assumption).
  assert (Hstep : forall i d m, Forall (okd St) d -> okm St m -> vd (g_heap g) d -> vm (g_heap g) m ->
    abind (rec (with_todo (with_section c0 i d m) i d) (f1 :: anc) g) (fun v => match v with (act, (c, anc1, g1)) =>
      match anc1 with
      | [] => Raise PyException
      | f3 :: anc2 =>
          let height := (f_miny c - (if 1 <? f_cols c then f_maxy c else f_y c))%Q in
          let f4 := match act with
                    | Some PartialNext => f3
                    | _ => if qlt 0 height then with_y f3 (f_y f3 - height)%Q false (s_mb s) else with_y f3 (f_y f) (f_starting f3) (f_lastbottom f3)
                    end in
          match act with
          | Some a => Done (inl a, (f4, anc2, g1))
          | None => Done (inr (mkRet None false false), (with_y f4 (f_y f4) false (f_lastbottom f4), anc2, g1))
          end
      end end) = Done (r, (f', anc', g')) ->
    Forall (low (f_maxy f)) (g_parts g') /\ ext (g_heap g) (g_heap g') /\
    match r with
    | inl Interrupt => exists y st lb m, f' = with_y (with_section f (f_index f) (f_delayed f) m) y st lb /\ vm (g_heap g') m /\ Forall2 (left_at (g_heap g')) anc anc'
    | inl _ => False
    | inr q => q = mkRet None false false /\ still f f' /\ anc' = anc
    end).
  { intros i d m Kd Km Vd Vm. set (c1 := with_todo (with_section c0 i d m) i d). destruct (rec c1 (f1 :: anc) g) as [[act [[c anc1] g1]]| |] eqn:Er; cbn [abind]; try discriminate.
    assert (He : ends kind c1 g (f1 :: anc) act c anc1 g1).
    { apply (Hsafe c1 (f1 :: anc) g act c anc1 g1); try assumption; try (subst c1 c0; repeat split; fail); [subst c1 c0; exact Ht|subst c1 c0; split; assumption|subst c1 c0; exact Hlow|apply Hc0; assumption]. }
    destruct He as (L1 & L2 & _ & _ & _ & _ & _ & L8). assert (Hmx : f_maxy c1 = f_maxy f) by (subst c1 c0; reflexivity). rewrite Hmx in L1.
    destruct act as [[| |]|]; try contradiction.
    - inversion L8 as [|a b p2 q2 (m3 & Hm3 & Hv3) Hanc]; subst a anc1 p2. subst b. cbv zeta. intros H. injection H as <- <- <- <-. split; [exact L1|]. split; [exact L2|].
      destruct (qlt 0 _); eexists _, _, _, m3; (split; [reflexivity|]); split; assumption.
    - subst anc1. cbv zeta. intros H. injection H as <- <- <- <-. split; [exact L1|]. split; [exact L2|]. split; [reflexivity|]. split; [|reflexivity]. destruct (qlt 0 _); eexists _, _, _; reflexivity. }
  destruct (match f_memory f with [] => false | _ => f_index f =? f_sindex f end).
  - assert (Hom : okm St (f_memory f)) by (apply (ow_mem _ _ _ _ f Ho)).
    destruct (rev (f_memory f)) as [|[i d] upm] eqn:Erv; cbn [abind]; [discriminate|]. destruct (Forall_rev_cons _ _ (i, d) upm Hom Erv) as [Kd Km]. destruct (Forall_rev_cons _ _ (i, d) upm Hm0 Erv) as [Vd Vm].
    rewrite (no_partial f1 N4). exact (Hstep i d (rev upm) Kd Km Vd Vm).
  - rewrite N4. cbn [abind]. replace c0 with (with_todo (with_section c0 0 [] []) 0 []) by (subst c0; reflexivity). apply Hstep; constructor.
Qed.

Lemma elements_tame rec anc : safe rec -> Forall quiet anc -> forall fuel f g a f1 anc1 g1,
  f_cols f = 1 -> f_column f = 0 -> calm f -> f_partial f = None -> tames (f_elems f) ->
  Forall (fun p => vd (g_heap g) (f_delayed p)) anc -> vd (g_heap g) (f_delayed f) -> vm (g_heap g) (f_memory f) ->
  Forall (low (f_maxy f)) (g_parts g) -> chain f anc -> Forall inside (g_parts g) -> fine2 rec -> els rec fuel f anc g = Done (a, (f1, anc1, g1)) ->
  Forall (low (f_maxy f)) (g_parts g1) /\ ext (g_heap g) (g_heap g1) /\
  match a with
  | Stop Interrupt => exists fm y st lb m, settled f fm /\ f1 = with_y (with_section fm (f_index fm) (f_delayed fm) m) y st lb /\ vd (g_heap g1) (f_delayed fm) /\ vm (g_heap g1) m /\ Forall2 (left_at (g_heap g1)) anc anc1
  | Stop _ => False
  | _ => settled f f1 /\ anc1 = anc /\ chain f1 anc /\ Forall inside (g_parts g1) /\ vd (g_heap g1) (f_delayed f1)
  end.
Proof.
  intros Hsafe Hq. induction fuel as [|fuel IH]; intros f g a f1 anc1 g1 N1 N2 N3 N4 Ht Hv Hd0 Hm0 Hlow Hc Hp Hfine; cbn [add_elements]; [discriminate|].
  destruct (nth_error (f_elems f) (f_index f)) as [el|] eqn:En.
  2:{ intros H. injection H as <- <- <- <-. split; [exact Hlow|]. split; [apply ext_refl|]. split; [apply settled_refl|]. auto. }
  destruct (process start crun save restore rec f anc g el _) as [[r [[f2 anc2] g2]]| |] eqn:Ep; cbn [abind]; try discriminate.
  pose proof (chain_own _ _ _ _ _ _ _ _ _ _ _ Hc) as Ho. pose proof (okels_nth _ _ _ _ _ (ow_els _ _ _ _ f Ho) En) as Hok. pose proof (tames_nth _ _ _ Ht En) as Hte.
  assert (Hone : forall q, r = inr q -> Forall (low (f_maxy f)) (g_parts g2) -> ext (g_heap g) (g_heap g2) -> still f f2 -> anc2 = anc -> chain f2 anc -> Forall inside (g_parts g2) ->
    vd (g_heap g2) (f_delayed f2) -> match r_delayed q with Some d => okd St d | None => True end -> vd (g_heap g2) (match r_delayed q with Some d => [d] | None => [] end) ->
    (let f3 := with_todo f2 (Datatypes.S (f_index f2)) (f_delayed f2 ++ match r_delayed q with Some d => [d] | None => [] end) in
     if r_next q then Done (Next, (f3, anc2, g2)) else els rec fuel f3 anc2 g2) = Done (a, (f1, anc1, g1)) ->
    Forall (low (f_maxy f)) (g_parts g1) /\ ext (g_heap g) (g_heap g1) /\
    match a with
    | Stop Interrupt => exists fm y st lb m, settled f fm /\ f1 = with_y (with_section fm (f_index fm) (f_delayed fm) m) y st lb /\ vd (g_heap g1) (f_delayed fm) /\ vm (g_heap g1) m /\ Forall2 (left_at (g_heap g1)) anc anc1
    | Stop _ => False
    | _ => settled f f1 /\ anc1 = anc /\ chain f1 anc /\ Forall inside (g_parts g1) /\ vd (g_heap g1) (f_delayed f1)
    end).
  { intros q -> L1 L2 S1 -> C1 I1 V1 K1 V2. cbv zeta. match goal with |- context [with_todo f2 ?i ?d] => pose proof (still_settled f f2 i d S1) as S2; set (f3 := with_todo f2 i d) in * end.
    assert (C3 : chain f3 anc).
    { apply todo_chain; [exact C1|]. apply Forall_app. split; [apply (ow_del _ _ _ _ f2 (chain_own _ _ _ _ _ _ _ _ _ _ _ C1))|]. destruct (r_delayed q); constructor; auto. }
    assert (V3 : vd (g_heap g2) (f_delayed f3)) by (apply Forall2_app; assumption).
    destruct (r_next q); [intros H; injection H as <- <- <- <-; auto 10|].
    intros H. assert (Y0 : f_cols f3 = 1 /\ f_column f3 = 0 /\ calm f3 /\ f_partial f3 = None /\ tames (f_elems f3) /\ f_memory f3 = f_memory f /\ f_maxy f3 = f_maxy f) by (destruct S2 as (? & ? & ? & ? & ? & ->); auto 10).
    destruct Y0 as (Y1 & Y2 & Y3 & Y4 & Y5 & Y6 & Y7).
    assert (Hv2 : Forall (fun p => vd (g_heap g2) (f_delayed p)) anc) by (revert Hv; apply Forall_impl; intros p; apply vd_ext; exact L2).
    assert (Hm2 : vm (g_heap g2) (f_memory f3)) by (rewrite Y6; eapply vm_ext; eassumption). rewrite <- Y7 in L1.
    destruct (IH f3 g2 a f1 anc1 g1 Y1 Y2 Y3 Y4 Y5 Hv2 V3 Hm2 L1 C3 I1 Hfine H) as (R1 & R2 & R3). rewrite Y7 in R1. split; [exact R1|]. split; [eapply ext_trans; eassumption|].
    destruct a as [[| |]| |]; try contradiction.
    - destruct R3 as (fm & y & st & lb & m & R3 & R4). exists fm, y, st, lb, m. split; [exact (settled_trans _ _ _ S2 R3)|exact R4].
    - destruct R3 as (R3 & R4). split; [exact (settled_trans _ _ _ S2 R3)|exact R4].
    - destruct R3 as (R3 & R4). split; [exact (settled_trans _ _ _ S2 R3)|exact R4]. }
  assert (Hflat : flat1 el \/ exists s n gap l, el = Child s n gap l) by (destruct el; cbn [flat1]; eauto 10).
  destruct Hflat as [Hf|(s & n & gap & l & ->)].
  - destruct (process_one start crun save restore kind fits kind_run kind_restore same_restore _ _ _ _ _ _ _ _ _ _ Hf Ep) as (S1 & A1 & -> & q & ->).
    destruct (process_geom _ _ _ _ _ _ _ _ _ _ Hc Hp Hok Hf Ep) as (G1 & G2 & G3 & _).
    destruct (process_two start crun save restore kind kind_run kind_restore same_restore run_same _ _ _ _ _ _ _ _ _ _ _ _ _ _ _ _ _ _ _ Hf (rp_refl _ _ Hd0) Ep Ep) as ((Q1 & _ & _) & Q2).
    apply (Hone q eq_refl); auto.
    + exact (adds_low _ _ _ _ A1 Hlow).
    + apply A1.
    + eapply lower_chain; eassumption.
    + apply (rp_del _ _ _ _ _ Q2).
    + destruct (r_delayed q); [constructor; [exact Q1|constructor]|constructor].
  - cbn [process] in Ep. destruct (child_safe rec f anc g s n gap l _ r f2 anc2 g2 Hsafe N1 N2 N3 N4 (nth_error_In _ _ En) Hte Hok Hq Hv Hd0 Hm0 Hlow Hc Hp Ep) as (L1 & L2 & L3).
    destruct (child_geom n0 gap0 elems0 X Y W B St False St_ok rec f anc g s n gap l _ r f2 anc2 g2 Hfine Hc Hp (nth_error_In _ _ En) Hok Ep) as (G1 & _ & _ & G4).
    destruct r as [[| |]|q]; try contradiction.
    + intros H. injection H as <- <- <- <-. split; [exact L1|]. split; [exact L2|]. destruct L3 as (y & st & lb & m & L3 & L4 & L5). exists f, y, st, lb, m. split; [apply settled_refl|]. split; [exact L3|]. split; [eapply vd_ext; eassumption|auto].
    + destruct L3 as (-> & S1 & ->). destruct G4 as [_ G4]. apply (Hone (mkRet None false false) eq_refl); auto; [|exact I|constructor]. destruct S1 as (? & ? & ? & ->). eapply vd_ext; [exact L2|exact Hd0].
Qed.

Section OneBox.
Variables (f0 : part) (g0 : glob) (anc : list part).
Hypothesis anc_quiet : Forall quiet anc.
Hypothesis f0_one : f_cols f0 = 1 /\ f_partial f0 = None /\ tames (f_elems f0).
Hypothesis f0_valid : vd (g_heap g0) (f_sdelayed f0) /\ vm (g_heap g0) (f_memory f0).
Hypothesis anc_valid : Forall (fun p => vd (g_heap g0) (f_delayed p)) anc.
Record oinv (f : part) (g : glob) : Prop := {
  n_frame : frame f0 f; n_maxy : f_maxy f = f_maxy f0; n_col : f_column f = 0; n_calm : calm f; n_ext : ext (g_heap g0) (g_heap g); n_low : Forall (low (f_maxy f0)) (g_parts g);
  n_chain : chain f anc; n_in : Forall inside (g_parts g); n_del : vd (g_heap g) (f_delayed f) }.
Lemma one_loop rec : safe rec -> fine2 rec -> forall fuel f g act f' anc' g', oinv f g -> loop start crun save restore rec fuel f anc g = Done (act, (f', anc', g')) -> ends kind f0 g0 anc act f' anc' g'.
Proof.
  intros Hsafe Hfine. induction fuel as [|fuel IH]; intros f g act f' anc' g' Hz; cbn [loop]; [discriminate|].
  assert (Hav : forall h, ext (g_heap g0) h -> Forall (fun q => vd h (f_delayed q)) anc) by (intros h Hh; revert anc_valid; apply Forall_impl; intros q; apply vd_ext; exact Hh).
  assert (Hcol : forall fx gx sx fy ancy gy, oinv fx gx -> after Next fx anc gx = Done (sx, (fy, ancy, gy)) -> match sx with Return a => ends kind f0 g0 anc (Some a) fy ancy gy | _ => False end).
  { intros fx gx sx fy ancy gy [Z1 Z2 Z3 Z4 Z5 Z6 Z7 Z8 Z9]. cbn [after]. destruct Z1 as (F1 & F2 & F3 & F4 & F5 & F6 & F7 & F8 & F9 & F10). destruct f0_one as (O1 & O2 & O3). destruct Z4 as (_ & Z4 & _).
    destruct (next_last kind (length (g_parts gx)) (g_heap gx) fx anc anc_quiet Z9 (Hav _ Z5) ltac:(congruence) Z4) as (fl & ancl & -> & (m & -> & Hm) & Hl). intros H. injection H as <- <- <- <-.
    split; [exact Z6|]. split; [exact Z5|]. split; [exact F1|]. split; [exact F2|]. split; [exact F10|]. split; [exact Z9|]. split; [exact Hm|exact Hl]. }
  destruct (dels fuel 0 f g) as [[[a1 f1] g1]| |] eqn:E1; cbn [abind]; try discriminate. destruct (delayeds_one _ _ _ _ _ _ _ E1) as (S1 & A1 & N1).
  destruct (delayeds_two _ _ _ _ _ _ _ _ _ _ _ _ _ (rp_refl _ _ (n_del _ _ Hz)) E1 E1) as [_ V1].
  destruct (add_delayed_geom start crun save restore fits n0 gap0 elems0 X Y W B St False St_ok wide anc fuel 0 f g a1 f1 g1 (n_chain _ _ Hz) (n_in _ _ Hz) E1) as (G1 & G2 & _).
  assert (Hz1 : oinv f1 g1).
  { destruct Hz as [Z1 Z2 Z3 Z4 Z5 Z6 Z7 Z8 Z9]. constructor; auto; try (destruct S1 as (? & ? & ? & ? & ? & ->); assumption).
    - eapply ext_trans; [exact Z5|apply A1].
    - rewrite Z2 in A1. eapply adds_low; eassumption.
    - apply (rp_del _ _ _ _ _ V1). }
  destruct a1 as [x| |]; [destruct (N1 x eq_refl)| |].
  - destruct (after Next f1 anc g1) as [[s1 [[f2 anc2] g2]]| |] eqn:E2; cbn [abind]; try discriminate.
    pose proof (Hcol f1 g1 s1 f2 anc2 g2 Hz1 E2) as Hs. destruct s1 as [a| |]; try contradiction. intros H. injection H as <- <- <- <-. exact Hs.
  - cbn [after abind]. destruct (els rec fuel f1 anc g1) as [[a2 [[f3 anc3] g3]]| |] eqn:E3; cbn [abind]; try discriminate.
    assert (HH : Forall (low (f_maxy f1)) (g_parts g3) /\ ext (g_heap g1) (g_heap g3) /\
      match a2 with
      | Stop Interrupt => exists fm y st lb m, settled f1 fm /\ f3 = with_y (with_section fm (f_index fm) (f_delayed fm) m) y st lb /\ vd (g_heap g3) (f_delayed fm) /\ vm (g_heap g3) m /\ Forall2 (left_at (g_heap g3)) anc anc3
      | Stop _ => False
      | _ => settled f1 f3 /\ anc3 = anc /\ chain f3 anc /\ Forall inside (g_parts g3) /\ vd (g_heap g3) (f_delayed f3)
      end).
    { destruct Hz1 as [(F1 & F2 & F3 & F4 & F5 & F6 & F7 & F8 & F9 & F10) Z2 Z3 Z4 Z5 Z6 Z7 Z8 Z9]. destruct f0_one as (O1 & O2 & O3).
      apply (elements_tame rec anc Hsafe anc_quiet fuel f1 g1 a2 f3 anc3 g3); try assumption; try congruence; try (apply Hav; exact Z5); try (rewrite Z2; exact Z6).
      rewrite F9. eapply vm_ext; [exact Z5|apply f0_valid]. }
    destruct HH as (L1 & L2 & L3). rewrite (n_maxy _ _ Hz1) in L1. assert (X3 : ext (g_heap g0) (g_heap g3)) by (eapply ext_trans; [apply Hz1|exact L2]).
    assert (Hz3 : settled f1 f3 -> chain f3 anc -> Forall inside (g_parts g3) -> vd (g_heap g3) (f_delayed f3) -> oinv f3 g3).
    { intros S3 C3 I3 V3. destruct Hz1 as [Z1 Z2 Z3 Z4 Z5 Z6 Z7 Z8 Z9]. constructor; auto; destruct S3 as (? & ? & ? & ? & ? & ->); assumption. }
    destruct a2 as [[| |]| |]; try contradiction.
    + cbn [after abind]. intros H. injection H as <- <- <- <-. destruct L3 as (fm & y & st & lb & m & S3 & -> & L4 & L5 & L6). pose proof (frame_settled _ _ _ S3 (n_frame _ _ Hz1)) as (F1 & F2 & F3 & F4 & F5 & F6 & F7 & F8 & F9 & F10).
      split; [exact L1|]. split; [exact X3|]. split; [exact F1|]. split; [exact F2|]. split; [exact F10|]. split; [exact L4|]. split; [exact L5|exact L6].
    + destruct L3 as (S3 & -> & C3 & I3 & V3). destruct (after Next f3 anc g3) as [[s1 [[f2 anc2] g2]]| |] eqn:E2; cbn [abind]; try discriminate.
      pose proof (Hcol f3 g3 s1 f2 anc2 g2 (Hz3 S3 C3 I3 V3) E2) as Hs. destruct s1 as [a| |]; try contradiction. intros H. injection H as <- <- <- <-. exact Hs.
    + destruct L3 as (S3 & -> & C3 & I3 & V3). specialize (Hz3 S3 C3 I3 V3). cbn [after abind]. destruct (f_delayed f3) as [|d0 ds] eqn:Edl; [|apply IH; exact Hz3].
      destruct (n_calm _ _ Hz3) as (_ & D2 & _). rewrite D2. assert (O1 : f_cols f3 = 1) by (destruct (n_frame _ _ Hz3) as (_ & -> & _); apply f0_one). rewrite O1. cbn [negb andb Nat.ltb Nat.leb].
      intros H. injection H as <- <- <- <-. apply frame_ends0; auto. apply Hz3.
Qed.
End OneBox.

Lemma run_part_safe : forall fuel, safe (run_part start crun save restore fuel).
Proof.
  induction fuel as [|fuel IH]; intros f anc g act f' anc' g' Hb Hc Hpt [Hs1 Hs2] Hv Hq Ha Hl Hch Hin; [discriminate|]. cbn [run_part].
  assert (Hdel : vd (g_heap g) (f_delayed f)) by (destruct Hb as (_ & -> & _); apply Hv).
  destruct (Nat.eq_dec (f_cols f) 1) as [E1|E1].
  - apply (one_loop f g anc Hq (conj E1 (conj Hpt (Hs1 E1))) Hv Ha _ IH (run_part_geom start crun save restore fits n0 gap0 elems0 X Y W B St False St_ok wide fuel)).
    constructor; auto; [repeat split|apply Hb|apply ext_refl].
  - destruct (Qlt_le_dec (f_miny f) (f_maxy f)) as [Hr|Hr].
    + apply (zero_loop f g anc Hq (Hs2 E1) Hv Ha). constructor; auto; [repeat split|apply ext_refl|unfold zero; lra].
    + apply (box_low start crun save restore kind fits kind_run kind_restore same_restore run_same f g anc Hq (Hs2 E1) Hb Hc Hr Hv Ha). exact Hl.
Qed.
End Tame.
