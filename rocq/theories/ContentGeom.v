(** Where content boxes put their elements: columns inside columns. *)
From Coq Require Import QArith ZArith Lia Lqa.
From Verif Require Import Py Table Content ContentFlow.
Open Scope list_scope.
Open Scope nat_scope.

Definition qn (n : nat) : Q := inject_Z (Z.of_nat n).
(** The gap of a box of width [w], and the width of its columns. *)
Definition gap_of (gap : option Q) (w : Q) : Q := match gap with Some g => g | None => qmax (w / 25) 7 end.
Definition col_of (gap : option Q) (n : nat) (w : Q) : Q := ((w - gap_of gap w * (qn n - 1)) / qn n)%Q.

Section Geom.
Context {E O S P L : Type}.
Variable start : E -> res O.
Variable crun : O -> Q -> Q -> Q -> Q -> res (O * Q * bool * list P * list L).
Variable save : O -> S.
Variable restore : O -> S -> O.
(** What has a height is not higher than the room. *)
Hypothesis fits : forall o x y w h o' ht fin ps ls, crun o x y w h = Ok (o', ht, fin, ps, ls) -> (0 < ht)%Q -> (ht <= h)%Q.

Notation elem := (@elem E).
Notation delem := (@delem E S).
Notation gelem := (@gelem E).
Notation part := (@part E S).
Notation glob := (@glob O P L).
Notation placed := (@placed O P).

(** The box, its rectangle, and a condition on styles. *)
Variables (n0 : nat) (gap0 : option Q) (elems0 : list elem).
Variables X Y W B : Q.
Variable St : style -> Prop.
Variable solo : Prop.
Hypothesis St_ok : forall s, St s -> (0 <= s_mt s /\ 0 <= s_mb s /\ match s_min s with Some m => 0 < m | None => True end)%Q.

(** [strip l x w]: a column of a box with elements [l] is at [x] with width
    [w]. *)
Inductive strip : list elem -> Q -> Q -> Prop :=
| strip_root k x : k < n0 -> (x == X + qn k * (col_of gap0 n0 W + gap_of gap0 W))%Q -> strip elems0 x (col_of gap0 n0 W)
| strip_in l x w s n gap l' k x' : strip l x w -> In (Child s n gap l') l -> k < n ->
    (x' == x + qn k * (col_of gap n w + gap_of gap w))%Q -> strip l' x' (col_of gap n w).
Hypothesis wide : forall l x w s, strip l x w -> St s -> (s_ml s + s_mr s <= w)%Q.

(** A part in a column: between its margins, below the top; above the bottom,
    when no box has columns.  An image in proportion, in the middle, not wider
    than the column. *)
Definition inside (p : placed) : Prop :=
  match p with
  | PlLeaf s x y w h _ _ ht _ _ => exists l left cw, strip l left cw /\ St s /\ (x == left + s_ml s /\ w == cw - s_ml s - s_mr s)%Q /\ (y <= Y)%Q /\ (solo -> (0 < ht)%Q -> (B <= y - ht)%Q)
  | PlImage s x y w h iw ih => exists l left cw, strip l left cw /\ St s /\
      (x - (left + s_ml s) == (left + cw - s_mr s) - (x + w))%Q /\ (w <= cw - s_ml s - s_mr s)%Q /\ (w * ih == h * iw)%Q /\ (y + h <= Y)%Q /\ (0 <= h)%Q /\ (solo -> (B <= y)%Q)
  end.

Definition okg (e : gelem) : Prop := match e with GLeaf s _ => St s | GImage s iw ih => St s /\ (0 < iw /\ 0 < ih)%Q | GBad => True end.
Fixpoint okel (el : elem) : Prop :=
  match el with
  | Leaf s _ => St s
  | Image s _ iw ih => St s /\ (0 < iw /\ 0 < ih)%Q
  | Group s _ l => St s /\ Forall okg l
  | Child s n _ l => St s /\ (solo -> n = 1) /\ fold_right (fun e acc => okel e /\ acc) True l
  end.
Definition okels (l : list elem) : Prop := fold_right (fun e acc => okel e /\ acc) True l.
Definition okd (d : delem) : Prop :=
  match d with DLeaf s _ _ => St s | DImage s iw ih _ => St s /\ (0 < iw /\ 0 < ih)%Q | DGroup s l _ => St s /\ Forall okg l end.
Definition okm (m : cmem) : Prop := Forall (fun x => Forall okd (snd x)) m.
Lemma okels_nth l i el : okels l -> nth_error l i = Some el -> okel el.
Proof.
  revert i. induction l as [|a l IH]; intros [|i] H Hn; try discriminate; destruct H as [Ha Hl].
  - cbn in Hn. injection Hn as <-. exact Ha.
  - exact (IH i Hl Hn).
Qed.

Record own (f : part) : Prop := {
  ow_col : f_column f < f_cols f; ow_lb : (0 <= f_lastbottom f)%Q; ow_y : (f_y f <= f_miny f)%Q; ow_top : (f_miny f <= Y)%Q;
  ow_els : okels (f_elems f); ow_del : Forall okd (f_delayed f); ow_sdel : Forall okd (f_sdelayed f); ow_mem : okm (f_memory f);
  ow_par : match f_partial f with Some m => okm m | None => True end;
  ow_solo : solo -> (f_maxy f == B)%Q /\ f_resetting f = false /\ f_will f = false /\ f_cols f = 1 }.
Definition at_root (f : part) : Prop :=
  f_elems f = elems0 /\ f_cols f = n0 /\ f_gapspec f = gap0 /\ (f_minx f == X)%Q /\ f_gap f = gap_of gap0 W /\ f_colw f = col_of gap0 n0 W.
Definition link (f p : part) : Prop :=
  (exists s, In (Child s (f_cols f) (f_gapspec f) (f_elems f)) (f_elems p)) /\ (f_minx f == left_edge p)%Q /\
  f_gap f = gap_of (f_gapspec f) (f_colw p) /\ f_colw f = col_of (f_gapspec f) (f_cols f) (f_colw p) /\ (f_miny f <= f_miny p)%Q.
Fixpoint chain (f : part) (anc : list part) : Prop :=
  own f /\ match anc with [] => at_root f | p :: rest => link f p /\ f_partial p = None /\ chain p rest end.
Fixpoint partial_ok (anc : list part) : Prop :=
  match anc with [] => False | p :: rest => (f_partial p <> None /\ chain p rest) \/ (f_partial p = None /\ partial_ok rest) end.
Definition up (f f' : part) : Prop := (f_miny f <= f_miny f')%Q.

Lemma chain_own f anc : chain f anc -> own f.
Proof. destruct anc; cbn [chain]; tauto. Qed.
Lemma chain_strip : forall anc f, chain f anc -> strip (f_elems f) (left_edge f) (f_colw f).
Proof.
  induction anc as [|p rest IH]; intros f; cbn [chain].
  - intros (Ho & He & Hn & Hg & Hx & Hgap & Hw). rewrite He, Hw. eapply strip_root; [rewrite <- Hn; apply (ow_col f Ho)|].
    unfold left_edge. rewrite Hx, Hgap, Hw. reflexivity.
  - intros (Ho & ((s & Hin) & Hx & Hg & Hw & _) & _ & Hc). rewrite Hw. eapply strip_in; [apply IH; exact Hc|exact Hin|apply (ow_col f Ho)|].
    unfold left_edge at 1. rewrite Hx, Hg, Hw. reflexivity.
Qed.
(** The place of a box in those around it does not change. *)
Definition fixed (f f' : part) : Prop :=
  f_elems f' = f_elems f /\ f_cols f' = f_cols f /\ f_gapspec f' = f_gapspec f /\ f_gap f' = f_gap f /\ f_colw f' = f_colw f /\ f_minx f' = f_minx f /\ f_miny f' = f_miny f.
Lemma chain_fixed f f' anc : chain f anc -> own f' -> fixed f f' -> chain f' anc.
Proof.
  intros Hc Ho (H1 & H2 & H3 & H4 & H5 & H6 & H7). destruct anc as [|p rest]; cbn [chain] in *.
  - destruct Hc as (_ & A1 & A2 & A3 & A4 & A5 & A6). split; [exact Ho|]. unfold at_root. rewrite H1, H2, H3, H4, H5, H6. auto 10.
  - destruct Hc as (_ & ((s & A1) & A2 & A3 & A4 & A5) & A6 & A7). split; [exact Ho|]. split; [|auto].
    unfold link. rewrite H1, H2, H3, H4, H5, H6, H7. split; [exists s; exact A1|auto].
Qed.

(** *** One element *)
Lemma space_ok f s top : own f -> St s ->
  forall x y w h, space f s top = (x, y, w, h) ->
  (x == left_edge f + s_ml s /\ w == f_colw f - s_ml s - s_mr s)%Q /\ (y <= f_y f)%Q /\ (0 <= h)%Q /\ ((0 < h)%Q -> (h == y - f_maxy f)%Q).
Proof.
  intros Ho Hs x y w h He. destruct (St_ok s Hs) as (Hm & _ & _). pose proof (ow_lb f Ho) as Hl. unfold space in He. injection He as <- <- <- <-.
  split; [split; reflexivity|]. split; [destruct (f_starting f); cbn [negb andb]; [lra|]; destruct top; lra|].
  split; [apply qmax_le|]. intros H0. destruct (qmax_or 0 ((if f_starting f then if negb (f_starting f) && top then (f_y f - s_mt s)%Q else f_y f else ((if negb (f_starting f) && top then (f_y f - s_mt s)%Q else f_y f) - f_lastbottom f)%Q) - f_maxy f)) as [Hq|Hq]; rewrite Hq in *; lra.
Qed.

(** The box after an element: a lower [y], or the same one. *)
Definition moves (f f' : part) : Prop :=
  exists y st lb, f' = with_y f y st lb /\ (y <= f_y f)%Q /\ (0 <= lb)%Q /\ (y = f_y f \/ (f_maxy f <= y)%Q).
Lemma moves_own f f' : own f -> moves f f' -> own f'.
Proof. intros [] (y & st & lb & -> & Hy & Hl & _). constructor; auto. cbn [with_y f_y f_miny]. lra. Qed.
Lemma moves_fixed f f' : moves f f' -> fixed f f'.
Proof. intros (y & st & lb & -> & _). repeat split. Qed.
Lemma moves_chain f f' anc : chain f anc -> moves f f' -> chain f' anc.
Proof. intros Hc Hm. apply (chain_fixed f f' anc Hc); [apply (moves_own f f' (chain_own _ _ Hc) Hm)|apply moves_fixed; exact Hm]. Qed.
Lemma moves_trans f f1 f2 : moves f f1 -> moves f1 f2 -> moves f f2.
Proof.
  intros (y & st & lb & -> & H1 & H2 & H3) (y' & st' & lb' & -> & H4 & H5 & H6). cbn [with_y f_y f_maxy] in *. exists y', st', lb'.
  split; [reflexivity|]. split; [lra|]. split; [exact H5|]. destruct H6 as [-> |H6]; auto.
Qed.
Lemma moves_refl f : own f -> moves f (with_y f (f_y f) (f_starting f) (f_lastbottom f)).
Proof. intros Ho. eexists _, _, _. split; [reflexivity|]. split; [lra|]. split; [apply (ow_lb f Ho)|auto]. Qed.

Lemma leaf_geom f anc g s src add top r f' g' :
  chain f anc -> St s -> Forall inside (g_parts g) -> process_leaf start crun save restore f g s src add top = Done (r, f', g') ->
  moves f f' /\ Forall inside (g_parts g') /\ match r_delayed r with Some d => okd d | None => True end.
Proof.
  intros Hc Hs Hp. unfold process_leaf. destruct (space f s top) as [[[x y] w] h] eqn:Esp.
  pose proof (chain_own _ _ Hc) as Ho. destruct (space_ok f s top Ho Hs x y w h Esp) as ((Hx & Hw) & Hy & Hh & Hh2). destruct (St_ok s Hs) as (_ & Hmb & _).
  destruct (match src with inl e => _ | inr _ => _ end) as [[ref o]| |]; cbn [abind]; try discriminate.
  destruct (crun o x y w h) as [[[[[o' ht] fin] parts] lines]|] eqn:Ec; cbn [lift abind]; try discriminate.
  intros Hd. injection Hd as <- <- <-. split; [|split].
  - destruct (qlt 0 ht) eqn:E0; [|apply moves_refl; exact Ho]. apply qlt_spec in E0. pose proof (fits _ _ _ _ _ _ _ _ _ _ Ec E0) as Hf.
    eexists _, _, _. split; [reflexivity|]. split; [lra|]. split; [exact Hmb|]. right. specialize (Hh2 ltac:(lra)). lra.
  - cbn [g_parts]. destruct add; [|exact Hp]. apply Forall_app. split; [exact Hp|]. constructor; [|constructor].
    exists (f_elems f), (left_edge f), (f_colw f). split; [apply (chain_strip anc); exact Hc|]. split; [exact Hs|]. split; [split; [exact Hx|exact Hw]|].
    pose proof (ow_y f Ho). pose proof (ow_top f Ho). split; [lra|]. intros So Hpos. pose proof (fits _ _ _ _ _ _ _ _ _ _ Ec Hpos) as Hf. specialize (Hh2 ltac:(lra)).
    destruct (ow_solo f Ho So) as (HB & _). lra.
  - destruct fin; cbn [r_delayed]; [exact I|exact Hs].
Qed.

Lemma image_geom f anc (g : glob) s min shrink iw ih add top ok f' (g' : glob) :
  chain f anc -> St s -> (0 < iw /\ 0 < ih)%Q -> match min with Some m => (0 < m)%Q | None => True end -> Forall inside (g_parts g) ->
  process_image f g s min shrink iw ih add top = (ok, f', g') ->
  moves f f' /\ Forall inside (g_parts g') /\ (ok = true -> (f_maxy f <= f_y f')%Q) /\ (ok = false -> g' = g /\ f_y f' = f_y f) /\ g_heap g' = g_heap g /\ g_tries g' = g_tries g.
Proof.
  intros Hc Hs [Hiw Hih] Hmin Hp. unfold process_image. destruct (space f s top) as [[[x y] w] h] eqn:Esp.
  pose proof (chain_own _ _ Hc) as Ho. destruct (space_ok f s top Ho Hs x y w h Esp) as ((Hx & Hw) & Hy & Hh & Hh2). destruct (St_ok s Hs) as (_ & Hmb & _).
  pose proof (chain_strip anc f Hc) as Hst. pose proof (wide _ _ _ s Hst Hs) as Hwide. pose proof (ow_y f Ho) as Hoy. pose proof (ow_top f Ho) as Hot.
  assert (Hgo : forall x' w' ht, (0 <= ht)%Q -> (ht <= h)%Q -> (0 < h)%Q -> (w' <= w)%Q -> (w' * ih == ht * iw)%Q -> (x' - x == (x + w) - (x' + w'))%Q ->
    (true, with_y f (y - ht)%Q false (s_mb s), if add then with_parts g (g_parts g ++ [PlImage s x' (y - ht) w' ht iw ih]) else g) = (ok, f', g') ->
    moves f f' /\ Forall inside (g_parts g') /\ (ok = true -> (f_maxy f <= f_y f')%Q) /\ (ok = false -> g' = g /\ f_y f' = f_y f) /\ g_heap g' = g_heap g /\ g_tries g' = g_tries g).
  { intros x' w' ht H1 H2 H3 H4 H5 H6 Heq. injection Heq as <- <- <-. specialize (Hh2 H3). split; [|split; [|split; [|split; [|split]]]].
    - eexists _, _, _. split; [reflexivity|]. split; [lra|]. split; [exact Hmb|]. right. lra.
    - destruct add; [|exact Hp]. cbn [with_parts g_parts]. apply Forall_app. split; [exact Hp|]. constructor; [|constructor].
      exists (f_elems f), (left_edge f), (f_colw f). split; [exact Hst|]. split; [exact Hs|]. split; [lra|]. split; [lra|]. split; [exact H5|]. split; [lra|]. split; [exact H1|].
      intros So. destruct (ow_solo f Ho So) as (HB & _). lra.
    - intros _. cbn [with_y f_y]. lra.
    - discriminate.
    - destruct add; reflexivity.
    - destruct add; reflexivity. }
  assert (Hno : (false, with_y f (f_y f) (f_starting f) (f_lastbottom f), g) = (ok, f', g') ->
    moves f f' /\ Forall inside (g_parts g') /\ (ok = true -> (f_maxy f <= f_y f')%Q) /\ (ok = false -> g' = g /\ f_y f' = f_y f) /\ g_heap g' = g_heap g /\ g_tries g' = g_tries g).
  { intros Heq. injection Heq as <- <- <-. split; [apply moves_refl; exact Ho|]. split; [exact Hp|]. split; [discriminate|]. split; [intros _; split; reflexivity|]. split; reflexivity. }
  assert (Hnat : (0 <= w * ih / iw)%Q) by (apply Qle_shift_div_l; [exact Hiw|]; nra).
  destruct (qlt (w * ih / iw) h) eqn:E1.
  - apply qlt_spec in E1. apply Hgo; [exact Hnat|lra|lra|lra| |lra]. field. lra.
  - apply qlt_false in E1. destruct min as [m|]; [|exact Hno]. destruct (Qle_bool m h) eqn:E2; [|exact Hno]. apply Qle_bool_iff in E2.
    assert (Hht : (0 <= (if shrink then m else h) /\ (if shrink then m else h) <= h)%Q) by (destruct shrink; lra).
    destruct Hht as [Ht1 Ht2]. apply Hgo; [exact Ht1|exact Ht2|lra| | |].
    + apply Qle_shift_div_r; [exact Hih|]. assert (Hk : (h * iw <= w * ih)%Q).
      { assert (Hz : (w * ih / iw * iw == w * ih)%Q) by (field; lra). nra. }
      nra.
    + field. lra.
    + field. lra.
Qed.

(** *** Groups *)
Lemma group_element_geom f anc g el min add top ok f' g' :
  chain f anc -> okg el -> match min with Some m => (0 < m)%Q | None => True end -> Forall inside (g_parts g) ->
  group_element start crun save restore f g el min add top = Done (ok, f', g') ->
  moves f f' /\ Forall inside (g_parts g') /\ (ok = true -> has_min el = true -> (f_maxy f <= f_y f')%Q).
Proof.
  intros Hc Hg Hmin Hp. destruct el as [s e|s iw ih|]; cbn [group_element okg] in *; [| |discriminate].
  - destruct (process_leaf start crun save restore f g s (inl e) add top) as [[[r f1] g1]| |] eqn:El; cbn [abind]; try discriminate.
    destruct (leaf_geom f anc g s (inl e) add top r f1 g1 Hc Hg Hp El) as (H1 & H2 & _). intros H. injection H as <- <- <-. split; [exact H1|]. split; [exact H2|discriminate].
  - destruct Hg as [Hs Hi]. intros H. injection H as H.
    assert (Hm : match (match min with Some m => Some m | None => s_min s end) with Some m => (0 < m)%Q | None => True end).
    { destruct min; [exact Hmin|]. apply (St_ok s Hs). }
    destruct (image_geom f anc g s _ true iw ih add top ok f' g' Hc Hs Hi Hm Hp H) as (H1 & H2 & H3 & _). split; [exact H1|]. split; [exact H2|]. intros Hk _. exact (H3 Hk).
Qed.
Lemma moves_none f : own f -> moves f f.
Proof. intros Ho. exists (f_y f), (f_starting f), (f_lastbottom f). split; [destruct f; reflexivity|]. split; [lra|]. split; [apply (ow_lb f Ho)|auto]. Qed.
Lemma group_try_geom : forall l f anc g first ok f' g',
  chain f anc -> Forall okg l -> Forall inside (g_parts g) -> group_try start crun save restore f g first l = Done (ok, f', g') ->
  moves f f' /\ Forall inside (g_parts g') /\ (ok = true -> existsb has_min l = true -> (f_maxy f <= f_y f')%Q).
Proof.
  induction l as [|el l IH]; intros f anc g first ok f' g' Hc Hg Hp; cbn [group_try].
  - intros H. injection H as <- <- <-. split; [apply moves_none; exact (chain_own _ _ Hc)|]. split; [exact Hp|discriminate].
  - inversion Hg as [|a b Ha Hl]; subst.
    destruct (group_element start crun save restore f g el None false (negb first)) as [[[ok1 f1] g1]| |] eqn:Ee; cbn [abind]; try discriminate.
    destruct (group_element_geom f anc g el None false _ ok1 f1 g1 Hc Ha I Hp Ee) as (H1 & H2 & H3). destruct ok1.
    + intros H. destruct (IH f1 anc g1 false ok f' g' (moves_chain _ _ _ Hc H1) Hl H2 H) as (K1 & K2 & K3).
      split; [exact (moves_trans _ _ _ H1 K1)|]. split; [exact K2|]. intros Hk Hm. cbn [existsb] in Hm.
      assert (Hmx : f_maxy f1 = f_maxy f) by (destruct H1 as (? & ? & ? & -> & _); reflexivity).
      apply Bool.orb_true_iff in Hm. destruct Hm as [Hm|Hm]; [|rewrite <- Hmx; exact (K3 Hk Hm)].
      specialize (H3 eq_refl Hm). destruct K1 as (y & st & lb & -> & _ & _ & [-> |K]); cbn [with_y f_y] in *; [exact H3|rewrite <- Hmx; exact K].
    + intros H. injection H as <- <- <-. split; [exact H1|]. split; [exact H2|discriminate].
Qed.
Lemma group_add_geom : forall l f anc g ratio first f' g',
  chain f anc -> Forall okg l -> (0 < ratio)%Q -> Forall inside (g_parts g) -> group_add start crun save restore f g ratio first l = Done (f', g') ->
  moves f f' /\ Forall inside (g_parts g').
Proof.
  induction l as [|el l IH]; intros f anc g ratio first f' g' Hc Hg Hr Hp; cbn [group_add].
  - intros H. injection H as <- <-. split; [apply moves_none; exact (chain_own _ _ Hc)|exact Hp].
  - inversion Hg as [|a b Ha Hl]; subst.
    destruct (group_element start crun save restore f g el (if has_min el then Some (min_of el * ratio)%Q else None) true (negb first)) as [[[ok1 f1] g1]| |] eqn:Ee; cbn [abind]; try discriminate.
    assert (Hm : match (if has_min el then Some (min_of el * ratio)%Q else None) with Some m => (0 < m)%Q | None => True end).
    { destruct el as [s e|s iw ih|]; cbn [has_min min_of okg] in *; auto. destruct Ha as [Hs _]. destruct (St_ok s Hs) as (_ & _ & H0). destruct (s_min s); [nra|exact I]. }
    destruct (group_element_geom f anc g el _ true _ ok1 f1 g1 Hc Ha Hm Hp Ee) as (H1 & H2 & _).
    intros H. destruct (IH f1 anc g1 ratio false f' g' (moves_chain _ _ _ Hc H1) Hl Hr H2 H) as (K1 & K2). split; [exact (moves_trans _ _ _ H1 K1)|exact K2].
Qed.
Lemma min_sum l : Forall okg l -> (0 <= qsum (map min_of l))%Q /\ (existsb has_min l = true -> (0 < qsum (map min_of l))%Q).
Proof.
  induction l as [|el l IH]; intros H; cbn [map qsum existsb]; [split; [lra|discriminate]|]. inversion H as [|a b Ha Hl]; subst. destruct (IH Hl) as [I1 I2].
  assert (Hel : (0 <= min_of el)%Q /\ (has_min el = true -> (0 < min_of el)%Q)).
  { destruct el as [s e|s iw ih|]; cbn [has_min min_of okg] in *; try (split; [lra|discriminate]). destruct Ha as [Hs _]. destruct (St_ok s Hs) as (_ & _ & Hm). destruct (s_min s); split; try discriminate; intros; lra. }
  destruct Hel as [E1 E2]. split; [lra|]. intros Hm. apply Bool.orb_true_iff in Hm. destruct Hm as [Hm|Hm]; [specialize (E2 Hm); lra|specialize (I2 Hm); lra].
Qed.

(** The box after an element, in general. *)
Definition lower (f f' : part) : Prop := exists y st lb, f' = with_y f y st lb /\ (y <= f_y f)%Q /\ (0 <= lb)%Q.
Lemma moves_lower f f' : moves f f' -> lower f f'.
Proof. intros (y & st & lb & H1 & H2 & H3 & _). exists y, st, lb. auto. Qed.
Lemma lower_fixed f f' : lower f f' -> fixed f f'.
Proof. intros (y & st & lb & -> & _). repeat split. Qed.
Lemma lower_own f f' : own f -> lower f f' -> own f'.
Proof. intros [] (y & st & lb & -> & Hy & Hl). constructor; auto. cbn [with_y f_y f_miny]. lra. Qed.
Lemma lower_chain f f' anc : chain f anc -> lower f f' -> chain f' anc.
Proof. intros Hc Hm. apply (chain_fixed f f' anc Hc); [apply (lower_own f f' (chain_own _ _ Hc) Hm)|apply lower_fixed; exact Hm]. Qed.

Lemma group_geom f anc g s l tries r f' g' :
  chain f anc -> St s -> Forall okg l -> Forall inside (g_parts g) -> process_group start crun save restore f g s l tries = Done (r, f', g') ->
  lower f f' /\ Forall inside (g_parts g') /\ match r_delayed r with Some d => okd d | None => True end.
Proof.
  intros Hc Hs Hg Hp. unfold process_group. pose proof (chain_own _ _ Hc) as Ho. destruct (St_ok s Hs) as (Hmt & _ & _). pose proof (ow_lb f Ho) as Hlb.
  set (f0 := with_y f (if f_starting f then f_y f else (f_y f - s_mt s)%Q) (f_starting f) (f_lastbottom f)).
  assert (L0 : lower f f0) by (eexists _, _, _; split; [reflexivity|]; split; [destruct (f_starting f); lra|exact Hlb]).
  pose proof (lower_chain _ _ _ Hc L0) as Hc0.
  destruct (group_try start crun save restore f0 g true l) as [[[ok f1] g1]| |] eqn:Et; cbn [abind]; try discriminate.
  destruct (group_try_geom l f0 anc g true ok f1 g1 Hc0 Hg Hp Et) as (H1 & H2 & H3).
  assert (Hf1 : exists y st lb, f1 = with_y f y st lb /\ (0 <= lb)%Q) by (destruct H1 as (y & st & lb & -> & _ & Hl & _); exists y, st, lb; split; [reflexivity|exact Hl]).
  destruct Hf1 as (y1 & st1 & lb1 & Hf1 & Hl1).
  assert (L2 : lower f (with_y f1 (f_y f) (f_starting f1) (f_lastbottom f1))) by (rewrite Hf1; eexists _, _, _; split; [reflexivity|]; split; [lra|exact Hl1]).
  destruct ok.
  - destruct (min_sum l Hg) as [Hq1 Hq2].
    destruct (if existsb has_min l then if Qeq_bool (qsum (map min_of l)) 0 then Raise ZeroDivisionError else Done ((qsum (map min_of l) + f_y f1 - f_maxy f1) / qsum (map min_of l))%Q else Done 1%Q) as [ratio| |] eqn:Er; cbn [abind]; try discriminate.
    assert (Hr : (0 < ratio)%Q).
    { destruct (existsb has_min l); [|injection Er as <-; lra]. destruct (Qeq_bool (qsum (map min_of l)) 0); [discriminate|]. injection Er as <-.
      specialize (H3 eq_refl eq_refl). specialize (Hq2 eq_refl). assert (Hmx : f_maxy f0 = f_maxy f1) by (rewrite Hf1; reflexivity). rewrite Hmx in H3.
      apply Qlt_shift_div_l; lra. }
    destruct (group_add start crun save restore (with_y f1 (f_y f) (f_starting f1) (f_lastbottom f1)) g1 (if s_shrink s then 1%Q else ratio) true l) as [[f2 g2]| |] eqn:Ea; cbn [abind]; try discriminate.
    assert (Hr2 : (0 < (if s_shrink s then 1 else ratio))%Q) by (destruct (s_shrink s); lra).
    destruct (group_add_geom l _ anc g1 _ true f2 g2 (lower_chain _ _ _ Hc L2) Hg Hr2 H2 Ea) as (K1 & K2).
    intros H. injection H as <- <- <-. split; [|split; [exact K2|exact I]].
    destruct K1 as (y & st & lb & -> & Ky & Kl & _). rewrite Hf1 in *. cbn [with_y f_y] in *. exists y, st, lb. split; [reflexivity|auto].
  - destruct (50 <=? tries); [discriminate|]. intros H. injection H as <- <- <-. split; [exact L2|]. split; [exact H2|]. split; [exact Hs|exact Hg].
Qed.

Lemma delayed_geom f anc g d r f' g' :
  chain f anc -> okd d -> Forall inside (g_parts g) -> process_delayed start crun save restore f g d = Done (r, f', g') ->
  lower f f' /\ Forall inside (g_parts g') /\ match r_delayed r with Some d => okd d | None => True end.
Proof.
  intros Hc Hd Hp. destruct d as [s ref sv|s iw ih tries|s l tries]; cbn [process_delayed okd] in *.
  - intros H. destruct (leaf_geom f anc g s _ true true r f' g' Hc Hd Hp H) as (H1 & H2 & H3). split; [apply moves_lower; exact H1|auto].
  - destruct Hd as [Hs Hi]. destruct (process_image f g s (s_min s) (s_shrink s) iw ih true true) as [[ok f1] g1] eqn:Ei.
    destruct (image_geom f anc g s _ _ iw ih true true ok f1 g1 Hc Hs Hi ltac:(apply (St_ok s Hs)) Hp Ei) as (H1 & H2 & _). destruct ok.
    + intros H. injection H as <- <- <-. split; [apply moves_lower; exact H1|]. split; [exact H2|exact I].
    + unfold image_ret. destruct (50 <=? tries); cbn [abind]; [discriminate|]. intros H. injection H as <- <- <-. split; [apply moves_lower; exact H1|]. split; [exact H2|]. split; [exact Hs|exact Hi].
  - destruct Hd as [Hs Hg]. apply (group_geom f anc); auto.
Qed.

Lemma todo_chain f anc i d : chain f anc -> Forall okd d -> chain (with_todo f i d) anc.
Proof. intros Hc Hd. apply (chain_fixed f _ anc Hc); [|repeat split]. destruct (chain_own _ _ Hc). constructor; auto. Qed.
Lemma Forall_replace n d (l : list delem) : Forall okd l -> match d with Some x => okd x | None => True end -> Forall okd (replace_nth n d l).
Proof.
  intros Hl Hd. unfold replace_nth. rewrite <- (firstn_skipn n l) in Hl. apply Forall_app in Hl. destruct Hl as [H1 H2].
  apply Forall_app. split; [exact H1|]. apply Forall_app. split; [destruct d; [constructor; [exact Hd|constructor]|constructor]|].
  clear H1. revert n H2. induction l as [|a l IH]; intros [|n] H2; cbn [skipn] in *; auto; try (apply IH; exact H2); inversion H2; assumption.
Qed.
Lemma add_delayed_geom anc : forall fuel n f g a f' g',
  chain f anc -> Forall inside (g_parts g) -> add_delayed start crun save restore fuel n f g = Done (a, f', g') ->
  chain f' anc /\ Forall inside (g_parts g') /\ f_miny f' = f_miny f /\ f_partial f' = f_partial f /\ f_elems f' = f_elems f /\ (forall x, a <> Stop x).
Proof.
  induction fuel as [|fuel IH]; intros n f g a f' g' Hc Hp; [discriminate|]. cbn [add_delayed].
  destruct (nth_error (f_delayed f) n) as [d|] eqn:En.
  - destruct (process_delayed start crun save restore f g d) as [[[r f1] g1]| |] eqn:Ep; cbn [abind]; try discriminate.
    pose proof (chain_own _ _ Hc) as Ho. pose proof (proj1 (Forall_forall _ _) (ow_del f Ho) d (nth_error_In _ _ En)) as Hd.
    destruct (delayed_geom f anc g d r f1 g1 Hc Hd Hp Ep) as (H1 & H2 & H3). pose proof (lower_chain _ _ _ Hc H1) as Hc1.
    assert (Hc2 : chain (with_todo f1 (f_index f1) (replace_nth n (r_delayed r) (f_delayed f1))) anc).
    { apply todo_chain; [exact Hc1|]. apply Forall_replace; [apply (ow_del f1 (chain_own _ _ Hc1))|exact H3]. }
    assert (Hk : f_miny f1 = f_miny f /\ f_partial f1 = f_partial f /\ f_elems f1 = f_elems f) by (destruct H1 as (? & ? & ? & -> & _); repeat split). destruct Hk as (K1 & K2 & K3).
    destruct (r_next r).
    + intros H. injection H as <- <- <-. split; [exact Hc2|]. split; [exact H2|]. split; [exact K1|]. split; [exact K2|]. split; [exact K3|discriminate].
    + intros H. destruct (IH _ _ _ _ _ _ Hc2 H2 H) as (A1 & A2 & A3 & A4 & A5 & A6). split; [exact A1|]. split; [exact A2|]. split; [rewrite A3; exact K1|]. split; [rewrite A4; exact K2|]. split; [rewrite A5; exact K3|exact A6].
  - intros H. injection H as <- <- <-. split; [exact Hc|]. split; [exact Hp|]. do 3 (split; [reflexivity|]). intros x. destruct (f_delayed f); [discriminate|]. destruct (_ <=? _); discriminate.
Qed.

(** *** Sections *)
Definition belowp (cm : option cmem) : Prop := match cm with Some c => okm c | None => True end.
Lemma section_own f i d m : own f -> Forall okd d -> okm m -> own (with_section f i d m).
Proof. intros [] Hd Hm. constructor; auto. Qed.
Lemma okm_below (cm : option (@cmem E S)) : belowp cm -> okm (below cm).
Proof. destruct cm; [auto|constructor]. Qed.
Definition same_shape (f f' : part) : Prop :=
  f_elems f' = f_elems f /\ f_cols f' = f_cols f /\ f_gapspec f' = f_gapspec f /\ f_gap f' = f_gap f /\ f_colw f' = f_colw f.
Lemma next_geom n : forall anc f cm r st,
  chain f anc -> belowp cm -> next_section n cm (f :: anc) = (r, st) ->
  exists f' anc', st = f' :: anc' /\ up f f' /\ Forall2 up anc anc' /\ same_shape f f' /\
  match r with
  | SPartial => (cm <> None /\ f_partial f' <> None /\ chain f' anc') \/ (f_partial f' = f_partial f /\ partial_ok anc')
  | SPos x y => chain f' anc' /\ (x == left_edge f')%Q /\ y = f_miny f' /\ f_partial f' = f_partial f
  | _ => chain f' anc' /\ f_partial f' = f_partial f
  end.
Proof.
  assert (Hrefl : forall l : list part, Forall2 up l l) by (induction l; constructor; auto; unfold up; lra).
  induction anc as [|p rest IH]; intros f cm r st Hc Hcm; rewrite next_section_cons; pose proof (chain_own _ _ Hc) as Ho; pose proof (okm_below cm Hcm) as Hb.
  - (* the box is the root *)
    destruct (Datatypes.S (f_column f) =? f_cols f) eqn:El; [destruct (f_resetting f) eqn:Er|]; cbv zeta.
    + intros H. injection H as <- <-. eexists _, []. split; [reflexivity|]. split; [unfold up; cbn; lra|]. split; [constructor|]. split; [repeat split|]. split; [|reflexivity].
      apply (chain_fixed f _ [] Hc); [|repeat split]. destruct Ho as [q1 q2 q3 q4 q5 q6 q7 q8 q9 q10]. constructor; try assumption. intros So. destruct (q10 So) as (Q1 & Q2 & Q3 & Q4). split; [assumption|split; [congruence|split; assumption]].
    + intros H. injection H as <- <-. eexists _, []. split; [reflexivity|]. split; [unfold up; cbn; lra|]. split; [constructor|]. split; [repeat split|]. split; [|reflexivity].
      apply (chain_fixed f _ [] Hc); [|repeat split]. apply section_own; [exact Ho|apply (ow_del f Ho)|exact Hb].
    + apply Nat.eqb_neq in El.
      assert (Ho1 : own (with_column f (Datatypes.S (f_column f)))).
      { pose proof (ow_col f Ho). destruct Ho as [q1 q2 q3 q4 q5 q6 q7 q8 q9 q10]. constructor; try assumption; cbn [with_column f_column f_cols f_y f_miny]; [lia|lra]. }
      assert (Hc1 : chain (with_column f (Datatypes.S (f_column f))) []) by (apply (chain_fixed f _ [] Hc Ho1); repeat split).
      destruct cm as [c|].
      * destruct (f_delayed f) as [|d ds] eqn:Ed; intros H; injection H as <- <-; eexists _, []; (split; [reflexivity|]); (split; [unfold up; cbn; lra|]); (split; [constructor|]); (split; [repeat split|]).
        { split; [exact Hc1|]. split; [reflexivity|]. split; reflexivity. }
        { left. split; [discriminate|]. split; [discriminate|]. apply (chain_fixed _ _ [] Hc1); [|repeat split]. destruct Ho1 as [q1 q2 q3 q4 q5 q6 q7 q8 q9 q10]. constructor; try assumption; auto. }
      * intros H. injection H as <- <-. eexists _, []. split; [reflexivity|]. split; [unfold up; cbn; lra|]. split; [constructor|]. split; [repeat split|]. split; [exact Hc1|reflexivity].
  - destruct (Datatypes.S (f_column f) =? f_cols f) eqn:El; [destruct (f_resetting f) eqn:Er|]; cbv zeta.
    + intros H. injection H as <- <-. eexists _, (p :: rest). split; [reflexivity|]. split; [unfold up; cbn; lra|]. split; [apply Hrefl|]. split; [repeat split|]. split; [|reflexivity].
      apply (chain_fixed f _ (p :: rest) Hc); [|repeat split]. destruct Ho as [q1 q2 q3 q4 q5 q6 q7 q8 q9 q10]. constructor; try assumption. intros So. destruct (q10 So) as (Q1 & Q2 & Q3 & Q4). split; [assumption|split; [congruence|split; assumption]].
    + set (f1 := with_section f (f_index f) (f_delayed f) (below cm)).
      assert (Ho1 : own f1) by (apply section_own; [exact Ho|apply (ow_del f Ho)|exact Hb]).
      destruct (next_section n (Some (below cm ++ [(f_index f, f_delayed f)])) (p :: rest)) as [r0 st0] eqn:En.
      cbn [chain] in Hc. destruct Hc as (_ & Hlk & Hpp & Hcp).
      assert (Hcm2 : belowp (Some (below cm ++ [(f_index f, f_delayed f)]))).
      { cbn [belowp]. apply Forall_app. split; [exact Hb|]. constructor; [apply (ow_del f Ho)|constructor]. }
      destruct (IH p _ r0 st0 Hcp Hcm2 En) as (p' & rest' & -> & U1 & U2 & (S1 & S2 & S3 & S4 & S5) & HR).
      destruct Hlk as ((sx & Hin) & Hx & Hg & Hw & Hmy).
      assert (Hst : forall x y, (x == left_edge p')%Q -> y = f_miny p' -> chain p' rest' -> f_partial p' = None -> chain (moved f1 x y n) (p' :: rest')).
      { intros x y Hx' Hy' Hc' Hp'. cbn [chain]. pose proof (chain_own _ _ Hc') as Ho'. split.
        - pose proof (ow_top p' Ho'). pose proof (ow_col f1 Ho1) as Hcol. destruct Ho1 as [q1 q2 q3 q4 q5 q6 q7 q8 q9 q10]. constructor; try assumption; cbn [moved f_column f_cols f_y f_miny]; [lia|lra|rewrite Hy'; assumption].
        - split; [|split; [exact Hp'|exact Hc']]. unfold link. cbn [moved f1 with_section f_elems f_cols f_gapspec f_minx f_gap f_colw f_miny].
          rewrite S1, S5, Hy'. split; [exists sx; exact Hin|]. split; [exact Hx'|]. split; [exact Hg|]. split; [exact Hw|lra]. }
      assert (Hstay : chain p' rest' -> f_partial p' = None -> f_minx p' = f_minx p -> f_column p' = f_column p -> chain f1 (p' :: rest')).
      { intros Hc' Hp' Hmx Hcl. cbn [chain]. split; [exact Ho1|]. split; [|split; [exact Hp'|exact Hc']]. unfold link.
        cbn [f1 with_section f_elems f_cols f_gapspec f_minx f_gap f_colw f_miny]. rewrite S1, S5. split; [exists sx; exact Hin|].
        split; [rewrite Hx; unfold left_edge; rewrite S4, S5, Hmx, Hcl; reflexivity|]. split; [exact Hg|]. split; [exact Hw|]. unfold up in U1. lra. }
      (* those that stop do not move *)
      assert (Hnm : r0 = SInterrupt \/ r0 = SBreak -> f_minx p' = f_minx p /\ f_column p' = f_column p).
      { clear - En. revert En. generalize (Some (below cm ++ [(f_index f, f_delayed f)])). intros c En H. rewrite next_section_cons in En.
        destruct (Datatypes.S (f_column p) =? f_cols p); [destruct (f_resetting p)|].
        - injection En as _ <- _. split; reflexivity.
        - cbv zeta in En. destruct rest as [|q rest]; [injection En as _ <- _; split; reflexivity|].
          destruct (next_section n (Some (below c ++ [(f_index p, f_delayed p)])) (q :: rest)) as [r1 st1].
          destruct r1; injection En as E1 E2 E3; subst p'; try (split; reflexivity); destruct c; destruct H as [H|H]; congruence.
        - cbv zeta in En. destruct c; [destruct (f_delayed p)|]; injection En as E1 E2 E3; destruct H as [H|H]; congruence. }
      destruct r0 as [| | | |x y].
      * intros H. injection H as <- <-. exists f1, (p' :: rest'). destruct HR as [HR1 HR2]. destruct (Hnm ltac:(auto)) as [N1 N2]. rewrite Hpp in HR2.
        split; [reflexivity|]. split; [unfold up; cbn; lra|]. split; [constructor; assumption|]. split; [repeat split|]. split; [apply Hstay; auto|reflexivity].
      * intros H. injection H as <- <-. exists f1, (p' :: rest'). destruct HR as [HR1 HR2]. destruct (Hnm ltac:(auto)) as [N1 N2]. rewrite Hpp in HR2.
        split; [reflexivity|]. split; [unfold up; cbn; lra|]. split; [constructor; assumption|]. split; [repeat split|]. split; [apply Hstay; auto|reflexivity].
      * intros H. injection H as <- <-. exists f1, (p' :: rest'). split; [reflexivity|]. split; [unfold up; cbn; lra|]. split; [constructor; assumption|]. split; [repeat split|].
        right. split; [reflexivity|]. cbn [partial_ok]. destruct HR as [(_ & HR1 & HR2)|(HR1 & HR2)]; [left; auto|right; split; [rewrite HR1; exact Hpp|exact HR2]].
      * exfalso. clear - En. revert En. generalize (below cm ++ [(f_index f, f_delayed f)]). intros c En. rewrite next_section_cons in En.
        destruct (Datatypes.S (f_column p) =? f_cols p); [destruct (f_resetting p); [discriminate|]|].
        -- cbv zeta in En. destruct rest as [|q rest]; [discriminate|]. revert En. generalize (below (Some c) ++ [(f_index p, f_delayed p)]). intros c1 En.
           assert (Hno : forall (st : list part) (c : @cmem E S) (p : part), fst (next_section n (Some c) (p :: st)) <> SRetry).
           { clear. induction st as [|q st IH]; intros c p; rewrite next_section_cons; (destruct (Datatypes.S (f_column p) =? f_cols p); [destruct (f_resetting p)|]); cbv zeta; try discriminate;
               try (destruct (f_delayed p); discriminate).
             specialize (IH (below (Some c) ++ [(f_index p, f_delayed p)]) q). destruct (next_section n _ (q :: st)) as [r1 st1]. cbn [fst] in IH. destruct r1; cbn [fst]; congruence. }
           destruct (next_section n (Some c1) (q :: rest)) as [r1 st1] eqn:Ex. destruct r1; try discriminate. exact (Hno rest c1 q (f_equal fst Ex)).
        -- cbv zeta in En. destruct (f_delayed p); discriminate.
      * destruct HR as (HR1 & HR2 & HR3 & HR4). rewrite Hpp in HR4. intros H.
        exists (moved f1 x y n), (p' :: rest'). assert (Hst' : chain (moved f1 x y n) (p' :: rest')) by (apply Hst; assumption).
        assert (Hup : up f (moved f1 x y n)) by (unfold up in *; cbn [moved f_miny]; rewrite HR3; lra).
        assert (Hle : (x == left_edge (moved f1 x y n))%Q) by (unfold left_edge; cbn [moved f_minx f_column f_colw f_gap]; change (inject_Z (Z.of_nat 0)) with 0%Q; lra).
        destruct cm; injection H as <- <-; (split; [reflexivity|]); (split; [exact Hup|]); (split; [constructor; assumption|]); (split; [repeat split|]); (split; [exact Hst'|]); [|reflexivity].
        split; [exact Hle|]. split; reflexivity.
    + apply Nat.eqb_neq in El.
      assert (Ho1 : own (with_column f (Datatypes.S (f_column f)))).
      { pose proof (ow_col f Ho). destruct Ho as [q1 q2 q3 q4 q5 q6 q7 q8 q9 q10]. constructor; try assumption; cbn [with_column f_column f_cols f_y f_miny]; [lia|lra]. }
      assert (Hc1 : chain (with_column f (Datatypes.S (f_column f))) (p :: rest)) by (apply (chain_fixed f _ (p :: rest) Hc Ho1); repeat split).
      destruct cm as [c|].
      * destruct (f_delayed f) as [|d ds] eqn:Ed; intros H; injection H as <- <-; eexists _, (p :: rest); (split; [reflexivity|]); (split; [unfold up; cbn; lra|]); (split; [apply Hrefl|]); (split; [repeat split|]).
        { split; [exact Hc1|]. split; [reflexivity|]. split; reflexivity. }
        { left. split; [discriminate|]. split; [discriminate|]. apply (chain_fixed _ _ (p :: rest) Hc1); [|repeat split]. destruct Ho1 as [q1 q2 q3 q4 q5 q6 q7 q8 q9 q10]. constructor; try assumption; auto. }
      * intros H. injection H as <- <-. eexists _, (p :: rest). split; [reflexivity|]. split; [unfold up; cbn; lra|]. split; [apply Hrefl|]. split; [repeat split|]. split; [exact Hc1|reflexivity].
Qed.

Lemma up_refl (l : list part) : Forall2 up l l.
Proof. induction l; constructor; auto. unfold up. lra. Qed.
Lemma up_trans (a b c : list part) : Forall2 up a b -> Forall2 up b c -> Forall2 up a c.
Proof.
  intros H. revert c. induction H as [|x y a b Hxy Hab IH]; intros c Hc; inversion Hc as [|y' z b' c' Hyz Hbc]; subst; constructor; [unfold up in *; lra|auto].
Qed.

Lemma reset_geom f anc (g : glob) go f' g' : (solo -> False) -> chain f anc -> Forall inside (g_parts g) -> reset f g = (go, f', g') ->
  chain f' anc /\ Forall inside (g_parts g') /\ up f f'.
Proof.
  intros Hs Hc Hp. unfold reset. cbv zeta. pose proof (chain_own _ _ Hc) as Ho.
  match goal with |- (if ?c && _ then _ else _) = _ -> _ => set (stop := c) end.
  destruct (stop && negb (f_forward f)).
  - intros H. injection H as <- <- <-. split; [exact Hc|]. split; [exact Hp|]. unfold up. lra.
  - match goal with |- match ?e with _ => _ end = _ -> _ => destruct e as [[maxy dl] d] end.
    intros H. injection H as <- <- <-. split; [|split].
    + apply (chain_fixed f _ anc Hc); [|repeat split]. pose proof (ow_col f Ho). destruct Ho as [q1 q2 q3 q4 q5 q6 q7 q8 q9 q10].
      constructor; try assumption; cbn [with_todo with_reset moved f_column f_cols f_y f_miny]; [lia|lra|intros So; destruct (Hs So)].
    + cbn [with_parts g_parts]. apply Forall_forall. intros p Hi. apply (proj1 (Forall_forall _ _) Hp). rewrite <- (firstn_skipn (f_pindex f) (g_parts g)). apply in_or_app. left. exact Hi.
    + unfold up. cbn. lra.
Qed.
Lemma resetting_geom f anc (g : glob) s f' g' : chain f anc -> Forall inside (g_parts g) -> if_resetting f g = (s, f', g') ->
  chain f' anc /\ Forall inside (g_parts g') /\ up f f' /\ s <> Return PartialNext.
Proof.
  intros Hc Hp. unfold if_resetting. destruct (f_will f || f_resetting f) eqn:E0.
  - destruct (reset f g) as [[go f1] g1] eqn:Er. intros H. injection H as <- <- <-.
    assert (Hs : solo -> False).
    { intros So. destruct (ow_solo f (chain_own _ _ Hc) So) as (_ & H1 & H2 & _). rewrite H1, H2 in E0. discriminate. }
    destruct (reset_geom f anc g go f1 g1 Hs Hc Hp Er) as (H1 & H2 & H3). split; [exact H1|]. split; [exact H2|]. split; [exact H3|]. destruct go; discriminate.
  - intros H. injection H as <- <- <-. split; [exact Hc|]. split; [exact Hp|]. split; [unfold up; lra|discriminate].
Qed.
Lemma start_geom : (solo -> False) -> forall anc f st, chain f anc -> start_resetting (f :: anc) = st ->
  exists f' anc', st = f' :: anc' /\ chain f' anc' /\ up f f' /\ Forall2 up anc anc' /\ f_partial f' = f_partial f /\ fixed f f' /\ f_column f' = f_column f.
Proof.
  intros Hs. assert (Hone : forall f anc, chain f anc -> chain (with_reset f true (f_resetting f) (f_maxy f) (f_difflast f) (f_diff f) (f_forward f)) anc).
  { intros f anc Hc. apply (chain_fixed f _ anc Hc); [|repeat split]. destruct (chain_own _ _ Hc) as [q1 q2 q3 q4 q5 q6 q7 q8 q9 q10]. constructor; try assumption. intros So. destruct (Hs So). }
  assert (Hup : forall f, up f (with_reset f true (f_resetting f) (f_maxy f) (f_difflast f) (f_diff f) (f_forward f))) by (intros f; unfold up; cbn; lra).
  induction anc as [|p rest IH]; intros f st Hc H.
  - cbn [start_resetting] in H. subst st. eexists _, []. split; [reflexivity|]. split; [apply Hone; exact Hc|]. split; [apply Hup|]. split; [constructor|]. split; [reflexivity|]. split; [repeat split|reflexivity].
  - change (start_resetting (f :: p :: rest)) with (if f_last f && (1 <? f_cols p) then f :: start_resetting (p :: rest) else with_reset f true (f_resetting f) (f_maxy f) (f_difflast f) (f_diff f) (f_forward f) :: p :: rest) in H.
    destruct (f_last f && (1 <? f_cols p)).
    + subst st. assert (Hc' := Hc). cbn [chain] in Hc'. destruct Hc' as (Ho & ((sx & L1) & L2 & L3 & L4 & L5) & Hpp & Hcp). destruct (IH p _ Hcp eq_refl) as (p' & rest' & -> & H1 & H2 & H3 & H4 & (F1 & F2 & F3 & F4 & F5 & F6 & F7) & F8).
      exists f, (p' :: rest'). split; [reflexivity|]. split; [|split; [unfold up; lra|split; [constructor; assumption|split; [reflexivity|split; [repeat split|reflexivity]]]]].
      cbn [chain]. split; [exact Ho|]. split; [|split; [congruence|exact H1]]. unfold link. rewrite F1, F5, F7. split; [exists sx; exact L1|].
      split; [rewrite L2; unfold left_edge; rewrite F4, F5, F6, F8; reflexivity|]. split; [exact L3|]. split; [exact L4|exact L5].
    + subst st. eexists _, (p :: rest). split; [reflexivity|]. split; [apply Hone; exact Hc|]. split; [apply Hup|]. split; [apply up_refl|]. split; [reflexivity|]. split; [repeat split|reflexivity].
Qed.

Lemma after_geom a f anc (g : glob) s f' anc' g' :
  match a with Stop PartialNext => partial_ok (f :: anc) | _ => chain f anc end -> Forall inside (g_parts g) ->
  after a f anc g = Done (s, (f', anc', g')) ->
  Forall inside (g_parts g') /\ up f f' /\ Forall2 up anc anc' /\ match s with Return PartialNext => partial_ok anc' | _ => chain f' anc' end.
Proof.
  intros Ha Hp. assert (Hu : up f f) by (unfold up; lra). destruct a as [[| |]| |]; cbn [after].
  - intros H. injection H as <- <- <- <-. split; [exact Hp|]. split; [exact Hu|]. split; [apply up_refl|exact Ha].
  - destruct (if_resetting f g) as [[s1 f1] g1] eqn:Er. intros H. injection H as <- <- <- <-. destruct (resetting_geom f anc g s1 f1 g1 Ha Hp Er) as (H1 & H2 & H3 & H4).
    split; [exact H2|]. split; [exact H3|]. split; [apply up_refl|]. destruct s1 as [[| |]| |]; try exact H1. congruence.
  - cbn [partial_ok] in Ha. destruct (f_partial f) eqn:E0; intros H; injection H as <- <- <- <-; (split; [exact Hp|]); (split; [exact Hu|]); (split; [apply up_refl|]); destruct Ha as [[A1 A2]|[A1 A2]]; try congruence; assumption.
  - destruct (next_section (length (g_parts g)) None (f :: anc)) as [r st] eqn:En. destruct (next_geom _ anc f None r st Ha I En) as (f1 & anc1 & -> & U1 & U2 & _ & HR).
    destruct r as [| | | |x y].
    + intros H. injection H as <- <- <- <-. split; [exact Hp|]. split; [exact U1|]. split; [exact U2|apply HR].
    + destruct (if_resetting f1 g) as [[s1 f2] g1] eqn:Er. intros H. injection H as <- <- <- <-. destruct HR as [HR _]. destruct (resetting_geom f1 anc1 g s1 f2 g1 HR Hp Er) as (H1 & H2 & H3 & H4).
      split; [exact H2|]. split; [unfold up in *; lra|]. split; [exact U2|]. destruct s1 as [[| |]| |]; try exact H1. congruence.
    + intros H. injection H as <- <- <- <-. split; [exact Hp|]. split; [exact U1|]. split; [exact U2|]. destruct HR as [(HR & _)|(_ & HR)]; [congruence|exact HR].
    + intros H. injection H as <- <- <- <-. split; [exact Hp|]. split; [exact U1|]. split; [exact U2|apply HR].
    + intros H. injection H as <- <- <- <-. split; [exact Hp|]. split; [exact U1|]. split; [exact U2|apply HR].
  - intros H. injection H as <- <- <- <-. split; [exact Hp|]. split; [exact Hu|]. split; [apply up_refl|exact Ha].
Qed.

(** *** The boxes *)
Definition fine2 (rec : @runner E O S P L) : Prop :=
  forall f anc g act f' anc' g', chain f anc -> Forall inside (g_parts g) -> rec f anc g = Done (act, (f', anc', g')) ->
  Forall inside (g_parts g') /\ Forall2 up anc anc' /\ match act with Some PartialNext => partial_ok anc' | _ => chain f' anc' end.

Lemma Forall_rev_cons {A} (Pr : A -> Prop) l a r : Forall Pr l -> rev l = a :: r -> Pr a /\ Forall Pr (rev r).
Proof. intros H E0. apply (f_equal (@rev A)) in E0. rewrite rev_involutive in E0. subst l. cbn [rev] in H. apply Forall_app in H. destruct H as [H1 H2]. inversion H2; subst. auto. Qed.

Lemma child_geom rec f anc g s n gap l lst r f' anc' g' :
  fine2 rec -> chain f anc -> Forall inside (g_parts g) -> In (Child s n gap l) (f_elems f) -> okel (Child s n gap l) ->
  process_child rec f anc g s n gap l lst = Done (r, (f', anc', g')) ->
  Forall inside (g_parts g') /\ up f f' /\ Forall2 up anc anc' /\ match r with inl PartialNext => partial_ok (f' :: anc') | inl _ => chain f' anc' | inr q => q = mkRet None false false /\ chain f' anc' end.
Proof.
  intros Hrec Hc Hp Hin Hel. cbn [okel] in Hel. destruct Hel as (Hs & Hn1 & Hl). change (okels l) in Hl. unfold process_child.
  pose proof (chain_own _ _ Hc) as Ho. destruct (space f s true) as [[[x y] w] h] eqn:Esp. destruct (space_ok f s true Ho Hs x y w h Esp) as (_ & Hy & _).
  destruct (St_ok s Hs) as (_ & Hmb & _). pose proof (ow_y f Ho) as Hoy. pose proof (ow_top f Ho) as Hot.
  set (f1 := with_y f y (f_starting f) (f_lastbottom f)).
  assert (Hc1 : chain f1 anc) by (apply (lower_chain f f1 anc Hc); eexists _, _, _; split; [reflexivity|]; split; [lra|apply (ow_lb f Ho)]).
  destruct (new_part l n gap lst (left_edge f) (f_colw f) y (f_maxy f) (length (g_parts g))) as [c0| |] eqn:Ec0; cbn [abind]; try discriminate.
  unfold new_part, setup in Ec0. cbn [f_cols f_gapspec f_sindex f_sdelayed f_memory f_partial f_elems f_last] in Ec0. destruct n as [|n]; [discriminate|]. injection Ec0 as Ec0.
  assert (Hc0 : forall i d m f2, Forall okd d -> okm m -> chain f2 anc -> f_partial f2 = None -> f_elems f2 = f_elems f -> f_colw f2 = f_colw f -> left_edge f2 = left_edge f -> f_miny f2 = f_miny f ->
     chain (with_todo (with_section c0 i d m) i d) (f2 :: anc)).
  { intros i d m f2 Hd Hm Hcf Hpf He Hw Hx Hmy. cbn [chain]. split.
    - subst c0. constructor; cbn [with_todo with_section f_column f_cols f_lastbottom f_y f_miny f_elems f_delayed f_sdelayed f_memory f_partial f_maxy f_resetting f_will]; try assumption; try lra; try lia; auto.
      intros So. destruct (ow_solo f Ho So) as (A1 & _ & _ & _). split; [exact A1|]. split; [reflexivity|]. split; [reflexivity|]. exact (Hn1 So).
    - split; [|split; [exact Hpf|exact Hcf]]. unfold link. subst c0. cbn [with_todo with_section f_elems f_cols f_gapspec f_minx f_gap f_colw f_miny]. rewrite He, Hw, Hx, Hmy.
      split; [exists s; exact Hin|]. split; [reflexivity|]. split; [destruct gap; reflexivity|]. split; [reflexivity|lra]. }
  set (mem := if match f_memory f with [] => false | _ => f_index f =? f_sindex f end then Some (f_memory f) else f_partial f).
  assert (Hmem : match mem with Some m => okm m | None => f_partial f = None end).
  { unfold mem. destruct (match f_memory f with [] => false | _ => f_index f =? f_sindex f end); [apply (ow_mem f Ho)|]. pose proof (ow_par f Ho) as H1. destruct (f_partial f); auto. }
  assert (Hstep : forall c1 f2, chain c1 (f2 :: anc) -> f_miny f2 = f_miny f ->
    abind (rec c1 (f2 :: anc) g) (fun v => match v with (act, (c, anc1, g1)) =>
      match anc1 with
      | [] => Raise PyException
      | f3 :: anc2 =>
          let height := (f_miny c - (if 1 <? f_cols c then f_maxy c else f_y c))%Q in
          let f4 := match act with
                    | Some PartialNext => f3
                    | _ => if qlt 0 height then with_y f3 (f_y f3 - height)%Q false (s_mb s) else with_y f3 (f_y f) (f_starting f3) (f_lastbottom f3)
                    end in
          match act with
          | Some a => Done (inl a, (f4, anc2, g1))
          | None => Done (inr (mkRet None false false), (with_y f4 (f_y f4) false (f_lastbottom f4), anc2, g1))
          end
      end end) = Done (r, (f', anc', g')) ->
    Forall inside (g_parts g') /\ up f f' /\ Forall2 up anc anc' /\ match r with inl PartialNext => partial_ok (f' :: anc') | inl _ => chain f' anc' | inr q => q = mkRet None false false /\ chain f' anc' end).
  { intros c1 f2 Hcc Hmy. destruct (rec c1 (f2 :: anc) g) as [[act [[c anc1] g1]]| |] eqn:Er; cbn [abind]; try discriminate.
    destruct (Hrec _ _ _ _ _ _ _ Hcc Hp Er) as (H1 & H2 & H3). inversion H2 as [|a b p2 q2 Hf3 Hanc]; subst.
    set (f3 := b) in *. set (height := (f_miny c - (if 1 <? f_cols c then f_maxy c else f_y c))%Q). cbv zeta.
    assert (Hu3 : up f f3) by (unfold up in *; rewrite <- Hmy; exact Hf3).
    assert (Hch : chain f3 q2 -> chain (if qlt 0 height then with_y f3 (f_y f3 - height)%Q false (s_mb s) else with_y f3 (f_y f) (f_starting f3) (f_lastbottom f3)) q2).
    { intros Hc3. pose proof (chain_own _ _ Hc3) as Ho3. pose proof (ow_y f3 Ho3) as Hy3. pose proof (ow_lb f3 Ho3) as Hl3. destruct (qlt 0 height) eqn:E0.
      - apply qlt_spec in E0. apply (lower_chain f3 _ q2 Hc3). eexists _, _, _. split; [reflexivity|]. split; [lra|exact Hmb].
      - apply (chain_fixed f3 _ q2 Hc3); [|repeat split]. destruct Ho3 as [q1 q2' q3 q4 q5 q6 q7 q8 q9 q10]. constructor; try assumption. cbn [with_y f_y f_miny]. unfold up in Hu3. lra. }
    assert (Hup4 : forall y4 st4 lb4, up f (with_y f3 y4 st4 lb4)) by (intros; exact Hu3).
    destruct act as [[| |]|]; intros H; injection H as <- <- <- <-; (split; [exact H1|]).
    - cbn [chain] in H3. destruct H3 as (_ & _ & _ & H3). split; [destruct (qlt 0 height); apply Hup4|]. split; [exact Hanc|apply Hch; exact H3].
    - cbn [chain] in H3. destruct H3 as (_ & _ & _ & H3). split; [destruct (qlt 0 height); apply Hup4|]. split; [exact Hanc|apply Hch; exact H3].
    - split; [exact Hu3|]. split; [exact Hanc|exact H3].
    - cbn [chain] in H3. destruct H3 as (_ & _ & _ & H3). specialize (Hch H3). pose proof (chain_own _ _ Hch) as Hoo. split; [destruct (qlt 0 height); apply Hup4|]. split; [exact Hanc|]. split; [reflexivity|].
      apply (lower_chain _ _ _ Hch). eexists _, _, _. split; [reflexivity|]. split; [lra|apply (ow_lb _ Hoo)]. }
  destruct mem as [m|].
  - destruct (rev m) as [|[i d] upm] eqn:Erv; cbn [abind]; [discriminate|]. destruct (Forall_rev_cons _ m (i, d) upm Hmem Erv) as [Hd Hm].
    apply Hstep; [|reflexivity]. apply Hc0; auto.
    apply (chain_fixed f1 _ anc Hc1); [|repeat split]. destruct (chain_own _ _ Hc1) as [q1 q2 q3 q4 q5 q6 q7 q8 q9 q10]. constructor; try assumption. exact I.
  - cbn [abind]. apply Hstep; [|reflexivity]. replace c0 with (with_todo (with_section c0 0 [] []) 0 []) by (subst c0; reflexivity).
    apply Hc0; auto; constructor.
Qed.

Lemma elements_geom rec : fine2 rec -> forall fuel f anc g a f' anc' g',
  chain f anc -> Forall inside (g_parts g) -> add_elements start crun save restore rec fuel f anc g = Done (a, (f', anc', g')) ->
  Forall inside (g_parts g') /\ up f f' /\ Forall2 up anc anc' /\ match a with Stop PartialNext => partial_ok (f' :: anc') | _ => chain f' anc' end.
Proof.
  intros Hrec. induction fuel as [|fuel IH]; intros f anc g a f' anc' g' Hc Hp; [discriminate|]. cbn [add_elements].
  destruct (nth_error (f_elems f) (f_index f)) as [el|] eqn:En.
  2:{ intros H. injection H as <- <- <- <-. split; [exact Hp|]. split; [unfold up; lra|]. split; [apply up_refl|exact Hc]. }
  destruct (process start crun save restore rec f anc g el (Datatypes.S (f_index f) =? length (f_elems f))) as [[r [[f1 anc1] g1]]| |] eqn:Ep; cbn [abind]; try discriminate.
  pose proof (chain_own _ _ Hc) as Ho. pose proof (okels_nth _ _ _ (ow_els f Ho) En) as Hel.
  assert (Hpr : Forall inside (g_parts g1) /\ up f f1 /\ Forall2 up anc anc1 /\
     match r with inl PartialNext => partial_ok (f1 :: anc1) | inl _ => chain f1 anc1 | inr q => match r_delayed q with Some d => okd d | None => True end /\ chain f1 anc1 end).
  { assert (Hlow : forall q, lower f q -> up f q /\ chain q anc) by (intros q Hq; split; [destruct Hq as (? & ? & ? & -> & _); unfold up; cbn; lra|exact (lower_chain _ _ _ Hc Hq)]).
    destruct el as [s e|s id iw ih|s id l|s n gap l]; cbn [process okel] in *.
    - destruct (process_leaf start crun save restore f g s (inl e) true true) as [[[q f0] g0]| |] eqn:El; cbn [abind] in Ep; try discriminate. injection Ep as <- <- <- <-.
      destruct (leaf_geom f anc g s (inl e) true true q f0 g0 Hc Hel Hp El) as (H1 & H2 & H3). destruct (Hlow f0 (moves_lower _ _ H1)) as [K1 K2]. split; [exact H2|]. split; [exact K1|]. split; [apply up_refl|]. split; [exact H3|exact K2].
    - destruct Hel as [Hs Hi]. destruct (process_image f g s (s_min s) (s_shrink s) iw ih true true) as [[ok f0] g0] eqn:Ei.
      destruct (image_geom f anc g s _ _ iw ih true true ok f0 g0 Hc Hs Hi ltac:(apply (St_ok s Hs)) Hp Ei) as (H1 & H2 & _). destruct (Hlow f0 (moves_lower _ _ H1)) as [K1 K2]. destruct ok.
      + injection Ep as <- <- <- <-. split; [exact H2|]. split; [exact K1|]. split; [apply up_refl|]. split; [exact I|exact K2].
      + unfold image_ret in Ep. destruct (50 <=? g_tries g id); cbn [abind] in Ep; [discriminate|]. injection Ep as <- <- <- <-. split; [exact H2|]. split; [exact K1|]. split; [apply up_refl|]. split; [split; [exact Hs|exact Hi]|exact K2].
    - destruct Hel as [Hs Hg]. destruct (process_group start crun save restore f g s l (g_tries g id)) as [[[q f0] g0]| |] eqn:Eg; cbn [abind] in Ep; try discriminate. injection Ep as <- <- <- <-.
      destruct (group_geom f anc g s l _ q f0 g0 Hc Hs Hg Hp Eg) as (H1 & H2 & H3). destruct (Hlow f0 H1) as [K1 K2].
      split; [destruct (r_delayed q); exact H2|]. split; [exact K1|]. split; [apply up_refl|]. split; [exact H3|exact K2].
    - destruct (child_geom rec f anc g s n gap l _ r f1 anc1 g1 Hrec Hc Hp (nth_error_In _ _ En) Hel Ep) as (H1 & H2 & H3 & H4). split; [exact H1|]. split; [exact H2|]. split; [exact H3|].
      destruct r as [q|q]; [exact H4|]. destruct H4 as [-> H4]. split; [exact I|exact H4]. }
  destruct Hpr as (P1 & P2 & P3 & P4). destruct r as [q|q].
  - intros H. injection H as <- <- <- <-. split; [exact P1|]. split; [exact P2|]. split; [exact P3|exact P4].
  - destruct P4 as [P4 P5]. set (f2 := with_todo f1 (Datatypes.S (f_index f1)) (f_delayed f1 ++ match r_delayed q with Some d => [d] | None => [] end)).
    assert (Hc2 : chain f2 anc1).
    { apply todo_chain; [exact P5|]. apply Forall_app. split; [apply (ow_del f1 (chain_own _ _ P5))|]. destruct (r_delayed q); constructor; auto. }
    destruct (r_next q).
    + intros H. injection H as <- <- <- <-. split; [exact P1|]. split; [exact P2|]. split; [exact P3|exact Hc2].
    + intros H. destruct (IH f2 anc1 g1 a f' anc' g' Hc2 P1 H) as (Q1 & Q2 & Q3 & Q4). split; [exact Q1|]. split; [unfold up in *; cbn [f2 with_todo f_miny] in Q2; lra|]. split; [exact (up_trans _ _ _ P3 Q3)|exact Q4].
Qed.

Lemma loop_geom rec : fine2 rec -> forall fuel, fine2 (loop start crun save restore rec fuel).
Proof.
  intros Hrec. induction fuel as [|fuel IH]; intros f anc g act f' anc' g' Hc Hp; [discriminate|]. cbn [loop].
  destruct (add_delayed start crun save restore fuel 0 f g) as [[[a1 f1] g1]| |] eqn:E1; cbn [abind]; try discriminate.
  destruct (add_delayed_geom anc fuel 0 f g a1 f1 g1 Hc Hp E1) as (D1 & D2 & D3 & D4 & D5 & D6).
  destruct (after a1 f1 anc g1) as [[s1 [[f2 anc2] g2]]| |] eqn:E2; cbn [abind]; try discriminate.
  assert (Hpre1 : match a1 with Stop PartialNext => partial_ok (f1 :: anc) | _ => chain f1 anc end) by (destruct a1 as [[| |]| |]; try exact D1; destruct (D6 PartialNext eq_refl)).
  destruct (after_geom a1 f1 anc g1 s1 f2 anc2 g2 Hpre1 D2 E2) as (A1 & A2 & A3 & A4).
  assert (Hgo : forall fx ax gx, Forall2 up anc ax -> chain fx ax -> Forall inside (g_parts gx) -> loop start crun save restore rec fuel fx ax gx = Done (act, (f', anc', g')) ->
    Forall inside (g_parts g') /\ Forall2 up anc anc' /\ match act with Some PartialNext => partial_ok anc' | _ => chain f' anc' end).
  { intros fx ax gx U1 U2 U3 U4. destruct (IH fx ax gx act f' anc' g' U2 U3 U4) as (V1 & V2 & V3). split; [exact V1|]. split; [exact (up_trans _ _ _ U1 V2)|exact V3]. }
  destruct s1 as [a| |].
  - intros H. injection H as <- <- <- <-. split; [exact A1|]. split; [exact A3|exact A4].
  - apply Hgo; assumption.
  - destruct (add_elements start crun save restore rec fuel f2 anc2 g2) as [[a2 [[f3 anc3] g3]]| |] eqn:E3; cbn [abind]; try discriminate.
    destruct (elements_geom rec Hrec fuel f2 anc2 g2 a2 f3 anc3 g3 A4 A1 E3) as (B1 & B2 & B3 & B4).
    destruct (after a2 f3 anc3 g3) as [[s2 [[f4 anc4] g4]]| |] eqn:E4; cbn [abind]; try discriminate.
    destruct (after_geom a2 f3 anc3 g3 s2 f4 anc4 g4 B4 B1 E4) as (C1 & C2 & C3 & C4).
    pose proof (up_trans _ _ _ A3 (up_trans _ _ _ B3 C3)) as HU.
    destruct s2 as [a| |].
    + intros H. injection H as <- <- <- <-. split; [exact C1|]. split; [exact HU|exact C4].
    + apply Hgo; assumption.
    + destruct (f_delayed f4); [|apply Hgo; assumption].
      destruct (negb (f_resetting f4) && (1 <? f_cols f4)) eqn:E5.
      * destruct (last_child f4 anc4); [intros H; injection H as <- <- <- <-; split; [exact C1|]; split; [exact HU|exact C4]|].
        assert (Hs : solo -> False).
        { intros So. destruct (ow_solo f4 (chain_own _ _ C4) So) as (_ & _ & _ & Hn). rewrite Hn in E5. rewrite Bool.andb_false_r in E5. discriminate. }
        destruct (start_geom Hs anc4 f4 _ C4 eq_refl) as (f5 & anc5 & Es & S1 & S2 & S3 & _). rewrite Es. destruct (f_will f5).
        -- destruct (reset f5 g4) as [[go f6] g6] eqn:Er. destruct (reset_geom f5 anc5 g4 go f6 g6 Hs S1 C1 Er) as (R1 & R2 & R3). apply Hgo; auto. exact (up_trans _ _ _ HU S3).
        -- intros H. injection H as <- <- <- <-. split; [exact C1|]. split; [exact (up_trans _ _ _ HU S3)|exact S1].
      * destruct (f_resetting f4) eqn:E6.
        -- assert (Hs : solo -> False).
           { intros So. destruct (ow_solo f4 (chain_own _ _ C4) So) as (_ & Hn & _). congruence. }
           set (f5 := with_reset f4 (f_will f4) true (f_maxy f4) (f_difflast f4) (f_diff f4) false).
           assert (S1 : chain f5 anc4).
           { apply (chain_fixed f4 _ anc4 C4); [|repeat split]. destruct (chain_own _ _ C4) as [q1 q2 q3 q4 q5 q6 q7 q8 q9 q10]. constructor; try assumption. intros So. destruct (Hs So). }
           cbv zeta. destruct (reset f5 g4) as [[go f6] g6] eqn:Er. destruct (reset_geom f5 anc4 g4 go f6 g6 Hs S1 C1 Er) as (R1 & R2 & R3). destruct go; [apply Hgo; assumption|].
           intros H. injection H as <- <- <- <-. split; [exact R2|]. split; [exact HU|exact R1].
        -- intros H. injection H as <- <- <- <-. split; [exact C1|]. split; [exact HU|exact C4].
Qed.
Lemma run_part_geom : forall fuel, fine2 (run_part start crun save restore fuel).
Proof.
  induction fuel as [|fuel IH]; [intros ? ? ? ? ? ? ? _ _ H; discriminate|]. cbn [run_part]. apply loop_geom. exact IH.
Qed.
End Geom.
