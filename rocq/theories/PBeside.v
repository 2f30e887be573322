(** Elements of content boxes do not lie on each other (C69). *)
From Coq Require Import QArith Qround ZArith Lia Lqa List.
From Verif Require Import Py Table Content ContentFlow ContentGeom ContentState ContentApart PContent PState.
Import ListNotations.
Open Scope list_scope.
Open Scope nat_scope.

Section Runs.
Context {E O S P L : Type}.
Variable start : E -> res O.
Variable crun : O -> Q -> Q -> Q -> Q -> res (O * Q * bool * list P * list L).
Variable save : O -> S.
Variable restore : O -> S -> O.
Hypothesis fits : forall o x y w h o' ht fin ps ls, crun o x y w h = Ok (o', ht, fin, ps, ls) -> (0 < ht)%Q -> (ht <= h)%Q.
Variables (elems : list (@elem E)) (cols : nat) (gap : option Q) (St : style -> Prop).
Hypothesis St_ok : forall s, St s -> (0 <= s_mt s /\ 0 <= s_mb s /\ match s_min s with Some m => 0 < m | None => True end)%Q.
Hypothesis St_side : forall s, St s -> (0 <= s_ml s /\ 0 <= s_mr s)%Q.
Hypothesis els_ok : okels St False elems.
Hypothesis els_flat : flats (1 <? cols) elems.
Hypothesis gap_good : gap_ok gap.

Lemma run_apart fuel r c c' o :
  room elems cols gap St r -> rests elems cols gap St c -> run start crun save restore fuel (rc_x r) (rc_y r) (rc_w r) (rc_h r) c = Done (c', o) -> ordered (o_parts o).
Proof.
  intros Hroom (He & Hn & Hg & Hp). unfold run.
  set (X := rc_x r) in *. set (Y := rc_y r) in *. set (W := rc_w r) in *. set (B := (Y - rc_h r)%Q).
  match goal with |- abind ?e _ = _ -> _ => destruct e as [f| |] eqn:Ef end; cbn [abind]; try discriminate.
  assert (Hc : chain cols gap elems X Y W B St False f [] /\ @lies E O S P f [] [] []).
  { assert (Hset : forall f0, f_elems f0 = elems -> f_cols f0 = cols -> f_gapspec f0 = gap -> Forall (okd St) (f_sdelayed f0) -> okm St (f_memory f0) -> match f_partial f0 with Some m => okm St m | None => True end ->
      setup X W Y B 0 f0 = Done f -> chain cols gap elems X Y W B St False f [] /\ @lies E O S P f [] [] []).
    { intros f0 A1 A2 A3 A4 A5 A6 H. unfold setup in H. destruct (f_cols f0) as [|n] eqn:En; [discriminate|]. injection H as <-. split; [cbn [chain]; split|].
      - constructor; cbn [f_column f_cols f_lastbottom f_y f_miny f_elems f_delayed f_sdelayed f_memory f_partial f_maxy f_resetting f_will]; try assumption; try lra; try lia; try (intros []). rewrite A1; exact els_ok.
      - unfold at_root. cbn [f_elems f_cols f_gapspec f_minx f_gap f_colw]. rewrite A3. split; [exact A1|]. split; [exact A2|]. split; [reflexivity|]. split; [reflexivity|]. split; [reflexivity|]. rewrite <- A2. reflexivity.
      - split; [|split; [|constructor]].
        + cbn [tied lim f_cols f_elems f_maxy]. rewrite A1. split; [|split; [intros H; discriminate|exact I]]. rewrite <- A2 in els_flat. destruct (1 <? Datatypes.S n); exact els_flat.
        + cbn [lay f_pindex]. split; [cbn; lia|]. split; [constructor|reflexivity]. }
    destruct (c_part c) as [f0|].
    - destruct Hp as (A1 & A2 & A3 & A4 & A5 & A6). exact (Hset f0 A1 A2 A3 A4 A5 A6 Ef).
    - unfold new_part in Ef. rewrite He, Hn, Hg in Ef. refine (Hset _ _ _ _ _ _ _ Ef); try reflexivity; cbn; constructor. }
  destruct Hc as [Hc Hl].
  destruct (run_part start crun save restore fuel f [] (mkG [] [] (c_heap c) (c_tries c))) as [[act [[f1 anc1] g1]]| |] eqn:Er; cbn [abind]; try discriminate.
  intros H. injection H as <- <-. cbn [o_parts].
  apply (run_part_apart start crun save restore fits cols gap elems X Y W B St St_ok St_side Hroom gap_good fuel f [] [] (mkG [] [] (c_heap c) (c_tries c)) act f1 anc1 g1 Hc (Forall_nil _) Hl Er).
Qed.
Lemma runs_apart fuel : forall rs c c' outs,
  Forall (room elems cols gap St) rs -> rests elems cols gap St c -> runs start crun save restore fuel rs c = Done (c', outs) -> Forall (fun o => ordered (o_parts o)) outs.
Proof.
  induction rs as [|r rs IH]; intros c c' outs Hr Hc; cbn [runs].
  - intros H. injection H as <- <-. constructor.
  - destruct (c_finished c); [intros H; injection H as <- <-; constructor|].
    destruct (run start crun save restore fuel (rc_x r) (rc_y r) (rc_w r) (rc_h r) c) as [[c1 o]| |] eqn:E1; cbn [abind]; try discriminate.
    destruct (runs start crun save restore fuel rs c1) as [[c2 os]| |] eqn:E2; cbn [abind]; try discriminate.
    intros H. injection H as <- <-. inversion Hr as [|r0 rs0 Hr1 Hr2]; subst.
    destruct (run_inside start crun save restore fits elems cols gap St False St_ok els_ok ltac:(tauto) fuel r c c1 o Hr1 Hc E1) as [_ H2].
    constructor; [exact (run_apart fuel r c c1 o Hr1 Hc E1)|exact (IH c1 c2 os Hr2 H2 E2)].
Qed.
End Runs.

(** The rectangle of what was placed: left, right, top, bottom. *)
Definition box_of {O P} (p : @placed O P) : Q * Q * Q * Q :=
  match p with
  | PlLeaf _ x y w _ _ _ height _ _ => (x, x + w, y, y - height)%Q
  | PlImage _ x y w h _ _ => (x, x + w, y + h, y)%Q
  end.
(** No box of several columns inside another one, at any depth; gaps are not
    negative. *)
Inductive simple {E} : bool -> list (@elem E) -> Prop :=
| simple_all m l :
    (forall s n gap l', In (Child s n gap l') l -> m = true -> n = 1) ->
    (forall s n g l', In (Child s n (Some g) l') l -> (0 <= g)%Q) ->
    (forall s n gap l', In (Child s n gap l') l -> simple (m || (2 <=? n)) l') -> simple m l.
Lemma simple_flats {E} : forall m (l : list (@elem E)), simple m l -> flats m l.
Proof.
  intros m l H. induction H as [m l H1 H2 _ H3].
  induction l as [|a l IHl]; [exact I|]. split.
  - destruct a as [| | |s n gap l']; try exact I. cbn [flatel]. split; [exact (H1 s n gap l' (or_introl eq_refl))|]. split; [destruct gap as [q|]; [exact (H2 s n q l' (or_introl eq_refl))|exact I]|].
    exact (H3 s n gap l' (or_introl eq_refl)).
  - apply IHl; intros; [eapply H1|eapply H2|eapply H3]; try right; eassumption.
Qed.
Lemma ordered_nth {O P} (l : list (@placed O P)) i j p q : ordered l -> i < j -> nth_error l i = Some p -> nth_error l j = Some q -> after_it p q.
Proof.
  intros H. revert i j. induction H as [|a l Ha Hl IH]; intros i j Hij Hi Hj; [destruct i; discriminate|]. destruct j as [|j]; [lia|]. destruct i as [|i]; cbn [nth_error] in *.
  - injection Hi as <-. apply (proj1 (Forall_forall _ _) Ha). exact (nth_error_In _ _ Hj).
  - apply (IH i j); [lia|exact Hi|exact Hj].
Qed.

(** Of two things that a content of columns, with boxes at any depth, shows in
    the same rectangle, the later one is beside the earlier one or wholly below
    it; things that have no height aside.  No box of several columns is inside
    another one; margins at the sides and gaps are not negative. *)
Theorem C69_apart_partial {E O S P L : Type} (start : E -> res O) (crun : O -> Q -> Q -> Q -> Q -> res (O * Q * bool * list P * list L)) (save : O -> S) (restore : O -> S -> O)
  elems cols gap (St : style -> Prop) fuel rs c outs :
  (forall o x y w h o' ht fin ps ls, crun o x y w h = Ok (o', ht, fin, ps, ls) -> (0 < ht)%Q -> (ht <= h)%Q) ->
  (forall s, St s -> (0 <= s_mt s /\ 0 <= s_mb s /\ 0 <= s_ml s /\ 0 <= s_mr s /\ match s_min s with Some m => 0 < m | None => True end)%Q) ->
  okels St False elems -> simple (2 <=? cols) elems -> (forall g, gap = Some g -> (0 <= g)%Q) -> Forall (room elems cols gap St) rs ->
  runs start crun save restore fuel rs (fresh_content elems cols gap) = Done (c, outs) ->
  forall o i j p q l1 r1 t1 b1 l2 r2 t2 b2, In o outs -> i < j -> nth_error (o_parts o) i = Some p -> nth_error (o_parts o) j = Some q ->
  box_of p = (l1, r1, t1, b1) -> box_of q = (l2, r2, t2, b2) -> (b1 < t1)%Q -> (b2 < t2)%Q ->
  (r1 <= l2 \/ r2 <= l1 \/ t2 <= b1)%Q.
Proof.
  intros H1 H2 H3 H4 H5 H6 H7 o i j p q l1 r1 t1 b1 l2 r2 t2 b2 Ho Hij Hi Hj Hp Hq Hh1 Hh2.
  assert (H0 : rests elems cols gap St (@fresh_content E O S elems cols gap)) by repeat split.
  assert (Hgap : gap_ok gap) by (destruct gap; [apply H5; reflexivity|exact I]).
  pose proof (runs_apart start crun save restore H1 elems cols gap St ltac:(intros s Hs; destruct (H2 s Hs) as (? & ? & ? & ? & ?); auto) ltac:(intros s Hs; destruct (H2 s Hs) as (? & ? & ? & ? & ?); auto)
    H3 (simple_flats _ _ H4) Hgap fuel rs _ _ _ H6 H0 H7) as H.
  pose proof (ordered_nth _ i j p q (proj1 (Forall_forall _ _) H o Ho) Hij Hi Hj) as Ha. unfold after_it, p_bot in Ha.
  destruct p as [s x y w h be af ht fin parts|s x y w h iw ih], q as [s' x' y' w' h' be' af' ht' fin' parts'|s' x' y' w' h' iw' ih']; cbn [box_of p_left p_right p_top p_height] in *;
    injection Hp as <- <- <- <-; injection Hq as <- <- <- <-; destruct Ha as [A|[A|[A|[A|A]]]]; lra.
Qed.
Print Assumptions C69_apart_partial.

(** One column, with a box of two columns whose second element is a box, and a
    paragraph after it; the columns are balanced. *)
Definition ex_apart3 : list (@elem (nat * nat)) := [Leaf ex_style (4, 3); Image ex_style 0 80 20].
Definition ex_apart2 : list (@elem (nat * nat)) := [Leaf ex_style (3, 4); Child ex_style 1 None ex_apart3; Leaf ex_style (5, 1)].
Definition ex_apart : list (@elem (nat * nat)) := [Leaf ex_style (1, 2); Child ex_style 2 (Some 20%Q) ex_apart2; Leaf ex_style (2, 2)].
Example C69_applies :
  (forall s, s = ex_style -> (0 <= s_mt s /\ 0 <= s_mb s /\ 0 <= s_ml s /\ 0 <= s_mr s /\ match s_min s with Some m => 0 < m | None => True end)%Q) /\
  okels (fun s => s = ex_style) False ex_apart /\ simple (2 <=? 1) ex_apart /\ Forall (room ex_apart 1 None (fun s => s = ex_style)) [mkRect 10 500 220 200] /\
  match ex_runs3 60 [mkRect 10 500 220 200] (fresh_content ex_apart 1 None) with
  | Done (c, outs) => c_finished c = true /\ ex_spots outs = [[(10, 500, 2); (10, 475, 4); (10, 430, 2); (130, 475, 1); (130, 460, 0); (130, 430, 1); (10, 404, 2)]]%Z
  | _ => False
  end.
Proof.
  split; [intros s ->; cbn; repeat split; lra|]. split; [cbn; repeat split; intros []|]. split; [|split].
  - repeat (constructor; intros; repeat match goal with H : In _ _ |- _ => destruct H as [H|H]; try discriminate H; try contradiction end; match goal with H : Child _ _ _ _ = _ |- _ => injection H as <- <- <- <- end; try discriminate; try reflexivity; try lra).
  - assert (Hw : forall r l x w, rc_w r = 220%Q -> strip 1 None ex_apart (rc_x r) (rc_w r) l x w ->
      (l = ex_apart /\ (w == 220)%Q) \/ (l = ex_apart2 /\ (w == 100)%Q) \/ (l = ex_apart3 /\ (w == 100)%Q)).
    { intros r l x w Hr H. induction H as [k x Hk Hx|l x w s n gap l' k x' H IH Hin Hk Hx].
      - left. split; [reflexivity|]. rewrite Hr. reflexivity.
      - destruct IH as [[-> Hw]|[[-> Hw]|[-> Hw]]]; [| |destruct Hin as [H1|[H1|[]]]; discriminate].
        + destruct Hin as [H1|[H1|[H1|[]]]]; try discriminate. injection H1 as <- <- <- <-. right. left. split; [reflexivity|]. unfold col_of, gap_of. rewrite Hw. reflexivity.
        + destruct Hin as [H1|[H1|[H1|[]]]]; try discriminate. injection H1 as <- <- <- <-. right. right. split; [reflexivity|]. unfold col_of. change (qn 1) with 1%Q. assert (K : ((w - gap_of None w * (1 - 1)) / 1 == w)%Q) by field. rewrite K. exact Hw. }
    apply Forall_cons; [|apply Forall_nil]. intros l x w s Hs ->. cbn [ex_style s_ml s_mr]. edestruct Hw as [[_ K]|[[_ K]|[_ K]]]; [|exact Hs| | |]; [reflexivity|lra|lra|lra].
  - vm_compute. split; reflexivity.
Qed.

(** With boxes of several columns inside each other and an image that waits for
    its place, the claim fails: a box that was balanced ends below the bottom
    of the columns around (see [C48_bottom_refuted]), and what comes after those
    columns lies on it. *)
Definition ex_later : style := mkStyle 0 0 3 5 None false PFlow.
Definition ex_lap : list (@elem (nat * nat)) :=
  [Child ex_style 3 (Some 6%Q) [Leaf ex_style (5, 8); Child ex_style 2 (Some 10%Q) [Image ex_later 3 30 60; Child ex_style 1 (Some 6%Q) [Leaf ex_style (2, 13); Leaf ex_style (1, 3)]]; Leaf ex_style (4, 13)];
   Leaf ex_style (6, 3)].
Definition over {O P} (p q : @placed O P) : bool :=
  let '(l1, r1, t1, b1) := box_of p in let '(l2, r2, t2, b2) := box_of q in
  (qlt l1 r2 && qlt l2 r1 && qlt b1 t2 && qlt b2 t1)%bool.
Fixpoint any_over {O P} (l : list (@placed O P)) : bool := match l with [] => false | p :: l => (existsb (over p) l || any_over l)%bool end.
Definition ex_laps (r : @ans (@content (nat * nat) (nat * nat) nat * list (@output (nat * nat) (nat * nat) nat))) : bool :=
  match r with Done (_, [o]) => any_over (o_parts o) | _ => false end.
Lemma any_over_nth {O P} (l : list (@placed O P)) : any_over l = true -> exists i j p q, i < j /\ nth_error l i = Some p /\ nth_error l j = Some q /\ over p q = true.
Proof.
  induction l as [|p l IH]; [discriminate|]. cbn [any_over]. intros H. apply Bool.orb_prop in H as [H|H].
  - apply existsb_exists in H as (q & Hq & H). apply In_nth_error in Hq as [j Hj]. exists 0, (Datatypes.S j), p, q. repeat split; auto; lia.
  - destruct (IH H) as (i & j & p' & q & Hij & Hi & Hj & Ho). exists (Datatypes.S i), (Datatypes.S j), p', q. repeat split; auto; lia.
Qed.
Theorem C69_refuted :
  exists c o i j p q l1 r1 t1 b1 l2 r2 t2 b2, ex_runs3 150 [mkRect 10 500 420 300] (fresh_content ex_lap 1 (Some 20%Q)) = Done (c, [o]) /\
    i < j /\ nth_error (o_parts o) i = Some p /\ nth_error (o_parts o) j = Some q /\ box_of p = (l1, r1, t1, b1) /\ box_of q = (l2, r2, t2, b2) /\
    (l1 < r2 /\ l2 < r1 /\ b1 < t2 /\ b2 < t1)%Q.
Proof.
  assert (H : ex_laps (ex_runs3 150 [mkRect 10 500 420 300] (fresh_content ex_lap 1 (Some 20%Q))) = true) by (vm_compute; reflexivity).
  destruct (ex_runs3 150 [mkRect 10 500 420 300] (fresh_content ex_lap 1 (Some 20%Q))) as [[c [|o [|o' l]]]| |]; try discriminate H.
  cbn [ex_laps] in H. apply any_over_nth in H as (i & j & p & q & Hij & Hi & Hj & Ho). unfold over in Ho.
  destruct (box_of p) as [[[l1 r1] t1] b1] eqn:Ep, (box_of q) as [[[l2 r2] t2] b2] eqn:Eq.
  apply andb_prop in Ho as [Ho H4]. apply andb_prop in Ho as [Ho H3]. apply andb_prop in Ho as [H1 H2]. apply qlt_spec in H1, H2, H3, H4.
  exists c, o, i, j, p, q, l1, r1, t1, b1, l2, r2, t2, b2. repeat split; auto.
Qed.
Print Assumptions C69_refuted.
