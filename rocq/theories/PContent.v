(** Content boxes (C47-C51). *)
From Coq Require Import QArith Qround ZArith Lia Lqa Permutation.
From Verif Require Import Py Table Content ContentFlow ContentGeom ContentFlat ContentGroup.
Open Scope list_scope.
Open Scope nat_scope.

Lemma Forall2_mono_in {A B} (R R' : A -> B -> Prop) l m : (forall a b, R a b -> R' a b) -> Forall2 R l m -> Forall2 R' l m.
Proof. intros H. induction 1; constructor; auto. Qed.

(** ** Order (C47) *)
Section Order.
Context {E O S P L : Type}.
Variable start : E -> res O.
Variable crun : O -> Q -> Q -> Q -> Q -> res (O * Q * bool * list P * list L).
Variable save : O -> S.
Variable restore : O -> S -> O.
Hypothesis save_ok : forall o, restore o (save o) = o.
Notation elem := (@elem E).
Notation content := (@content E O S).
Notation placed := (@placed O P).

(** A box is run in a rectangle after the other, until it has finished. *)
Record rect := mkRect { rc_x : Q; rc_y : Q; rc_w : Q; rc_h : Q }.
Fixpoint runs (fuel : nat) (rs : list rect) (c : content) : ans (content * list (@output O P L)) :=
  match rs with
  | [] => Done (c, [])
  | r :: rs =>
      if c_finished c then Done (c, [])
      else run! (c1, o) <- run start crun save restore fuel (rc_x r) (rc_y r) (rc_w r) (rc_h r) c;
           run! (c2, os) <- runs fuel rs c1;
           Done (c2, o :: os)
  end.
(** The work that the pages do, one after the other. *)
Inductive pages : list (@work E O) -> list (list placed) -> list work -> Prop :=
| pg_nil t : pages t [] t
| pg_cons t ps t1 rest t2 : works start crun t ps t1 -> pages t1 rest t2 -> pages t (ps :: rest) t2.
(** Parts that take room come from the top of the rectangle down, none over
    another. *)
Definition apart (top : Q) (ps : list placed) : Prop :=
  (forall i p, nth_error ps i = Some p -> (0 < p_height p)%Q -> (p_top p <= top)%Q) /\
  (forall i j p q, nth_error ps i = Some p -> nth_error ps j = Some q -> i < j -> (0 < p_height p)%Q -> (0 < p_height q)%Q -> (p_top q <= p_top p - p_height p)%Q).

Lemma stacked_apart top (ps : list placed) fl : stacked top ps fl -> apart top ps /\ (fl <= top)%Q /\ (forall i p, nth_error ps i = Some p -> (0 < p_height p)%Q -> (fl <= p_top p - p_height p)%Q).
Proof.
  induction 1 as [|ps fl p H ((IA & IB) & IC & ID) Hp].
  - split; [split|split]; [intros [|i] p H| intros [|i] j p q H|lra|intros [|i] p H]; discriminate.
  - assert (Hlast : forall i q, nth_error (ps ++ [p]) i = Some q -> nth_error ps i = Some q \/ (i = length ps /\ q = p)).
    { intros i q Hi. destruct (Nat.lt_ge_cases i (length ps)) as [Hl|Hl]; [left; rewrite nth_error_app1 in Hi by exact Hl; exact Hi|].
      right. rewrite nth_error_app2 in Hi by exact Hl. destruct (i - length ps) as [|n] eqn:En; [cbn in Hi; injection Hi as <-; split; [lia|reflexivity]|destruct n; discriminate]. }
    assert (Hu : (under fl p <= fl)%Q).
    { unfold under. destruct (qlt 0 (p_height p)) eqn:E0; [apply qlt_spec in E0; specialize (Hp E0); lra|lra]. }
    split; [split|split].
    + intros i q Hi Hq. destruct (Hlast i q Hi) as [Hi'|[-> ->]]; [exact (IA i q Hi' Hq)|]. specialize (Hp Hq). lra.
    + intros i j q r Hi Hj Hij Hq Hr. destruct (Hlast j r Hj) as [Hj'|[-> ->]]; destruct (Hlast i q Hi) as [Hi'|[Ei Eq0]].
      * exact (IB i j q r Hi' Hj' Hij Hq Hr).
      * subst i q. assert (j < length ps) by (apply nth_error_Some; congruence). lia.
      * specialize (ID i q Hi' Hq). specialize (Hp Hr). lra.
      * lia.
    + lra.
    + intros i q Hi Hq. destruct (Hlast i q Hi) as [Hi'|[-> ->]]; [specialize (ID i q Hi' Hq); lra|].
      unfold under. apply qlt_spec in Hq. rewrite Hq. lra.
Qed.

(** A box between two runs, with work [t] to do. *)
Definition between (W0 : Q) (elems : list elem) (c : content) (t : list (@work E O)) : Prop :=
  c_elems c = elems /\ c_cols c = 1 /\
  match c_part c with
  | None => t = flat elems
  | Some f => f_elems f = elems /\ kept f /\ saved restore (c_heap c) f = t /\
      tidy W0 (f_elems f) (f_sindex f) (f_sdelayed f) (rev (f_memory f))
  end.

Lemma run_ok (W0 : Q) fuel elems c t x y w h c' o :
  plains W0 elems -> (W0 <= w)%Q -> between W0 elems c t -> c_finished c = false -> run start crun save restore fuel x y w h c = Done (c', o) ->
  exists t', works start crun t (o_parts o) t' /\ (exists fl, stacked y (o_parts o) fl /\ ((0 < o_height o)%Q \/ fl = y)) /\
    if c_finished c' then t' = [] else between W0 elems c' t'.
Proof.
  intros Hpl Hw (He & Hc & Hp) Hfin. unfold run.
  assert (Hf : exists f, (match c_part c with
     | None => new_part (c_elems c) (c_cols c) (c_gap c) true x w y (y - h)%Q 0
     | Some p => setup x w y (y - h)%Q 0 p end) = Done f /\ f_elems f = elems /\ cur restore (c_heap c) f = t /\ tidy W0 (f_elems f) (f_index f) (f_delayed f) (memo f) /\ f_y f = y /\ f_miny f = y /\ calm W0 (y - h)%Q f).
  { destruct (c_part c) as [f0|].
    - destruct Hp as (H1 & (H2 & H3) & H4 & H5). unfold setup. rewrite H2. eexists. split; [reflexivity|]. cbn [f_elems]. split; [exact H1|].
      unfold cur, memo. cbn [f_elems f_index f_delayed f_sindex f_memory f_y f_miny]. rewrite Nat.eqb_refl. split; [exact H4|]. split; [exact H5|]. split; [reflexivity|]. split; [reflexivity|].
      constructor; try reflexivity; cbn [f_elems f_lastbottom f_colw f_y f_miny f_maxy f_sindex f_index f_partial]; try lra; try lia; auto; [rewrite H1; exact Hpl|].
      change (inject_Z (Z.of_nat 1)) with 1%Q. match goal with |- (_ <= ?q)%Q => assert (Hq : (q == w)%Q) by field end. lra.
    - unfold new_part, setup. cbn [f_cols]. rewrite Hc, He. eexists. split; [reflexivity|]. cbn [f_elems]. split; [reflexivity|].
      unfold cur, memo. cbn [f_elems f_index f_delayed f_sindex f_memory f_y f_miny]. rewrite Nat.eqb_refl. split; [exact (eq_sym Hp)|]. split; [left; reflexivity|]. split; [reflexivity|]. split; [reflexivity|].
      constructor; try reflexivity; cbn [f_elems f_lastbottom f_colw f_y f_miny f_maxy f_sindex f_index f_partial f_gapspec f_cols]; try lra; try lia; auto.
      change (inject_Z (Z.of_nat 1)) with 1%Q. match goal with |- (_ <= ?q)%Q => assert (Hq : (q == w)%Q) by field end. lra. }
  destruct Hf as (f & Ef & Hfe & Hcur & Htd & Hy & Hmy & C). rewrite Ef. cbn [abind]. clear Ef.
  destruct (run_part start crun save restore fuel f [] (mkG [] [] (c_heap c) (c_tries c))) as [[act [[f1 anc1] g1]]| |] eqn:Er; cbn [abind]; try discriminate.
  intros Heq. injection Heq as <- <-. cbn [o_parts c_finished].
  assert (Hpre : pre W0 (y - h)%Q y y f [] (mkG (P:=P) (L:=L) [] [] (c_heap c) (c_tries c))).
  { split; [exact C|]. split; [exact I|]. split; [|exact Htd]. exists y. cbn [g_parts]. split; [constructor|]. rewrite Hy. split; [lra|right; reflexivity]. }
  destruct (run_part_ok start crun save restore save_ok W0 (y - h)%Q fuel _ _ _ _ _ _ _ _ _ Hpre Er) as (new & Hnew & Hpost).
  cbn [g_parts app g_heap] in Hnew, Hpost. rewrite Hcur in Hpost.
  destruct act as [[| |]|]; try contradiction.
  - destruct Hpost as (rem & H1 & ((fl & U1 & U2 & U3) & U4 & U5 & _) & H3 & H4 & H5 & H6 & H7). exists rem. rewrite <- Hnew in H1. split; [exact H1|].
    split; [exists fl; split; [exact U1|]; cbn [o_height]; rewrite U5, U4, Hmy in *; change (1 <? 1) with false; cbv iota; destruct U3 as [U3|U3]; [left; lra|right; exact U3]|]. rewrite Hfin.
    assert (anc1 = []) as -> by (destruct anc1; [reflexivity|discriminate]). cbn [later] in H3. rewrite app_nil_r in H3. unfold root in *. cbn [last] in *.
    split; [exact He|]. split; [exact Hc|]. cbn [c_part c_heap]. split; [congruence|]. split; [exact H6|]. split; [exact H3|exact H4].
  - destruct Hpost as (H1 & _ & (fl & U1 & U2 & U3) & U4 & U5). exists []. rewrite <- Hnew in H1. split; [exact H1|]. split; [|reflexivity].
    exists fl. split; [exact U1|]. cbn [o_height]. rewrite U5, U4, Hmy in *. change (1 <? 1) with false. cbv iota. destruct U3 as [U3|U3]; [left; lra|right; exact U3].
Qed.

(** The work is done in order: an element begins when the ones before have
    finished, and goes on from the object it left; a box that has finished has
    nothing to do.  In each rectangle the parts are apart.  (For boxes of one
    column whose images keep their place.) *)
Theorem C47_order_partial (W0 : Q) elems gap fuel rs c outs :
  plains W0 elems -> Forall (fun r => (W0 <= rc_w r)%Q) rs ->
  runs fuel rs (fresh_content elems 1 gap) = Done (c, outs) ->
  (exists t, pages (flat elems) (map o_parts outs) t /\ (c_finished c = true -> t = [])) /\
  Forall2 (fun r o => apart (rc_y r) (o_parts o)) (firstn (length outs) rs) outs.
Proof.
  intros Hpl Hrs.
  assert (Hgen : forall rs c0 t, Forall (fun r => (W0 <= rc_w r)%Q) rs -> between W0 elems c0 t -> c_finished c0 = false -> forall c outs, runs fuel rs c0 = Done (c, outs) ->
    (exists t', pages t (map o_parts outs) t' /\ (c_finished c = true -> t' = [])) /\ Forall2 (fun r o => apart (rc_y r) (o_parts o)) (firstn (length outs) rs) outs).
  { clear rs c outs Hrs. intros rs. induction rs as [|r rs IH]; intros c0 t Hrs Hb Hf c outs; cbn [runs].
    - intros H. injection H as <- <-. split; [exists t; split; [constructor|congruence]|constructor].
    - rewrite Hf. destruct (run start crun save restore fuel (rc_x r) (rc_y r) (rc_w r) (rc_h r) c0) as [[c1 o]| |] eqn:Er; cbn [abind]; try discriminate.
      destruct (runs fuel rs c1) as [[c2 os]| |] eqn:Es; cbn [abind]; try discriminate. intros H. injection H as <- <-.
      inversion Hrs as [|r0 rs0 Hr Hrs']; subst.
      destruct (run_ok W0 fuel elems c0 t _ _ _ _ c1 o Hpl Hr Hb Hf Er) as (t1 & H1 & (fl & H2 & _) & H3).
      destruct (c_finished c1) eqn:E1.
      + subst t1. destruct rs as [|r1 rs]; cbn [runs] in Es; [|rewrite E1 in Es]; injection Es as <- <-;
        (split; [exists []; split; [econstructor; [exact H1|constructor]|reflexivity]|]; cbn [length firstn]; constructor; [apply (stacked_apart _ _ _ H2)|constructor]).
      + destruct (IH c1 t1 Hrs' H3 E1 c2 os Es) as ((t' & H4 & H5) & H6).
        split; [exists t'; split; [econstructor; eauto|exact H5]|]. cbn [length firstn]. constructor; [apply (stacked_apart _ _ _ H2)|exact H6]. }
  apply Hgen; [exact Hrs| |reflexivity]. split; [reflexivity|]. split; reflexivity.
Qed.
End Order.
Print Assumptions C47_order_partial.


(** Objects for the examples: paragraphs with a name and lines of height 10;
    what they draw is their name and the number of lines drawn. *)
Definition ex_start (e : nat * nat) : res (nat * nat) := Ok e.
Definition ex_crun (o : nat * nat) (x y w h : Q) : res ((nat * nat) * Q * bool * list (nat * nat) * list nat) :=
  let k := Nat.min (snd o) (Z.to_nat (Qfloor (h / 10))) in
  Ok ((fst o, snd o - k), (10 * inject_Z (Z.of_nat k))%Q, snd o - k =? 0, [(fst o, k)], []).
Definition ex_restore (o s : nat * nat) : nat * nat := s.
Definition ex_runs := runs ex_start ex_crun (fun o => o) ex_restore.
Definition ex_style : style := mkStyle 0 0 0 5 None false PNormal.
Definition ex_flow : style := mkStyle 0 0 0 5 None false PFlow.
Definition ex_drawn (outs : list (@output (nat * nat) (nat * nat) nat)) : list (list (nat * nat)) :=
  map (fun o => flat_map (fun p => match p with PlLeaf _ _ _ _ _ _ _ _ _ l => l | PlImage _ _ _ _ _ iw _ => [(0, Z.to_nat (Qnum iw))] end) (o_parts o)) outs.

(** Two paragraphs around a box with two more and an image: three pages. *)
Definition ex_box : list (@elem (nat * nat)) :=
  [Leaf ex_style (1, 3); Child ex_style 1 None [Leaf ex_style (2, 4); Image ex_style 0 80 20; Leaf ex_style (3, 2)]; Leaf ex_style (4, 1)].
Example C47_applies :
  plains 100 ex_box /\
  match ex_runs 30 [mkRect 0 500 100 60; mkRect 0 500 100 60; mkRect 0 500 120 60; mkRect 0 500 100 60] (fresh_content ex_box 1 None) with
  | Done (c, outs) => c_finished c = true /\ ex_drawn outs = [[(1, 3); (2, 2)]; [(2, 2); (0, 80); (3, 0)]; [(3, 2); (4, 1)]]
  | _ => False
  end.
Proof.
  split; [cbn; repeat split; unfold plain_style, plain_image; cbn; repeat split; try lra; auto|].
  vm_compute. split; reflexivity.
Qed.

(** Images that flow break this: when one is still delayed and a box inside is
    the last element, what this box remembers is lost, and its text comes again
    from the beginning.  Here a paragraph of 6 lines in such a box is drawn in
    11 lines. *)
Theorem C47_flow_refuted :
  exists c outs,
    ex_runs 30 [mkRect 0 500 100 50; mkRect 0 500 100 100; mkRect 0 500 100 200]
      (fresh_content [Image ex_flow 0 100 60; Image ex_flow 1 100 60; Child ex_style 1 None [Leaf ex_style (1, 6)]] 1 None) = Done (c, outs) /\
    c_finished c = true /\ ex_drawn outs = [[(1, 5)]; [(0, 100)]; [(0, 100); (1, 6)]].
Proof. eexists. eexists. split; [vm_compute; reflexivity|]. split; vm_compute; reflexivity. Qed.
Print Assumptions C47_flow_refuted.


(** ** Inside the rectangle (C48) *)
Section Inside.
Context {E O S P L : Type}.
Variable start : E -> res O.
Variable crun : O -> Q -> Q -> Q -> Q -> res (O * Q * bool * list P * list L).
Variable save : O -> S.
Variable restore : O -> S -> O.
Hypothesis fits : forall o x y w h o' ht fin ps ls, crun o x y w h = Ok (o', ht, fin, ps, ls) -> (0 < ht)%Q -> (ht <= h)%Q.
Variables (elems : list (@elem E)) (cols : nat) (gap : option Q) (St : style -> Prop) (solo : Prop).
Hypothesis St_ok : forall s, St s -> (0 <= s_mt s /\ 0 <= s_mb s /\ match s_min s with Some m => 0 < m | None => True end)%Q.
Hypothesis els_ok : okels St solo elems.
Hypothesis solo_ok : solo -> cols = 1.

(** The columns of the box, and of those inside, in a rectangle: all of them
    have room for the margins of the styles. *)
Definition room (r : rect) : Prop :=
  forall l x w s, strip cols gap elems (rc_x r) (rc_w r) l x w -> St s -> (s_ml s + s_mr s <= w)%Q.
Definition within (r : rect) (p : @placed O P) : Prop :=
  inside cols gap elems (rc_x r) (rc_y r) (rc_w r) (rc_y r - rc_h r) St solo p.
Definition rests (c : @content E O S) : Prop :=
  c_elems c = elems /\ c_cols c = cols /\ c_gap c = gap /\
  match c_part c with
  | None => True
  | Some f => f_elems f = elems /\ f_cols f = cols /\ f_gapspec f = gap /\ Forall (okd St) (f_sdelayed f) /\ okm St (f_memory f) /\ match f_partial f with Some m => okm St m | None => True end
  end.
Lemma run_within fuel r c c' o :
  room r -> rests c -> run start crun save restore fuel (rc_x r) (rc_y r) (rc_w r) (rc_h r) c = Done (c', o) ->
  Forall (within r) (o_parts o) /\ rests c' /\ (cols = 1 -> (0 <= o_height o)%Q).
Proof.
  intros Hroom (He & Hn & Hg & Hp). unfold run.
  set (X := rc_x r) in *. set (Y := rc_y r) in *. set (W := rc_w r) in *. set (B := (rc_y r - rc_h r)%Q).
  match goal with |- abind ?e _ = _ -> _ => destruct e as [f| |] eqn:Ef end; cbn [abind]; try discriminate.
  assert (Hc : chain cols gap elems X Y W B St solo f []).
  { assert (Hset : forall f0, f_elems f0 = elems -> f_cols f0 = cols -> f_gapspec f0 = gap -> Forall (okd St) (f_sdelayed f0) -> okm St (f_memory f0) -> match f_partial f0 with Some m => okm St m | None => True end ->
      setup X W Y B 0 f0 = Done f -> chain cols gap elems X Y W B St solo f []).
    { intros f0 A1 A2 A3 A4 A5 A6 H. unfold setup in H. destruct (f_cols f0) as [|n] eqn:En; [discriminate|]. injection H as <-. cbn [chain]. split.
      - constructor; cbn [f_column f_cols f_lastbottom f_y f_miny f_elems f_delayed f_sdelayed f_memory f_partial f_maxy f_resetting f_will]; try assumption; try lra; try lia; [rewrite A1; exact els_ok|].
        intros So. split; [reflexivity|]. split; [reflexivity|]. split; [reflexivity|]. rewrite A2. exact (solo_ok So).
      - unfold at_root. cbn [f_elems f_cols f_gapspec f_minx f_gap f_colw]. rewrite A3. split; [exact A1|]. split; [exact A2|]. split; [reflexivity|]. split; [reflexivity|]. split; [reflexivity|]. rewrite <- A2. reflexivity. }
    destruct (c_part c) as [f0|].
    - destruct Hp as (A1 & A2 & A3 & A4 & A5 & A6). exact (Hset f0 A1 A2 A3 A4 A5 A6 Ef).
    - unfold new_part in Ef. rewrite He, Hn, Hg in Ef. refine (Hset _ _ _ _ _ _ _ Ef); try reflexivity; cbn; constructor. }
  destruct (run_part start crun save restore fuel f [] (mkG [] [] (c_heap c) (c_tries c))) as [[act [[f1 anc1] g1]]| |] eqn:Er; cbn [abind]; try discriminate.
  intros H. injection H as <- <-. cbn [o_parts].
  destruct (run_part_geom start crun save restore fits cols gap elems X Y W B St solo St_ok Hroom fuel f [] (mkG [] [] (c_heap c) (c_tries c)) act f1 anc1 g1 Hc (Forall_nil _) Er) as (H1 & H2 & H3).
  split; [exact H1|]. inversion H2; subst. cbn [o_height]. assert (Hc1 : chain cols gap elems X Y W B St solo f1 []) by (destruct act as [[| |]|]; try exact H3; destruct H3).
  split; [|cbn [chain] in Hc1; destruct Hc1 as ([q1 q2 q3 q4 q5 q6 q7 q8 q9 q10] & A1 & A2 & A3 & _); intros Hone; rewrite A2, Hone; cbn [Nat.ltb Nat.leb]; lra].
  split; [exact He|]. split; [exact Hn|]. split; [exact Hg|]. cbn [c_part].
  cbn [chain] in Hc1. destruct Hc1 as ([q1 q2 q3 q4 q5 q6 q7 q8 q9 q10] & A1 & A2 & A3 & _). auto 10.
Qed.
Lemma run_inside fuel r c c' o :
  room r -> rests c -> run start crun save restore fuel (rc_x r) (rc_y r) (rc_w r) (rc_h r) c = Done (c', o) ->
  Forall (within r) (o_parts o) /\ rests c'.
Proof. intros H1 H2 H3. destruct (run_within fuel r c c' o H1 H2 H3) as (A & B & _). auto. Qed.
Lemma runs_inside fuel : forall rs c c' outs,
  Forall room rs -> rests c -> runs start crun save restore fuel rs c = Done (c', outs) ->
  Forall2 (fun r o => Forall (within r) (o_parts o)) (firstn (length outs) rs) outs.
Proof.
  induction rs as [|r rs IH]; intros c c' outs Hr Hc; cbn [runs].
  - intros H. injection H as <- <-. constructor.
  - destruct (c_finished c); [intros H; injection H as <- <-; constructor|].
    destruct (run start crun save restore fuel (rc_x r) (rc_y r) (rc_w r) (rc_h r) c) as [[c1 o]| |] eqn:E1; cbn [abind]; try discriminate.
    destruct (runs start crun save restore fuel rs c1) as [[c2 os]| |] eqn:E2; cbn [abind]; try discriminate.
    intros H. injection H as <- <-. inversion Hr as [|r0 rs0 Hr1 Hr2]; subst. destruct (run_inside fuel r c c1 o Hr1 Hc E1) as [H1 H2].
    cbn [length firstn]. constructor; [exact H1|]. exact (IH c1 c2 os Hr2 H2 E2).
Qed.
End Inside.

(** The columns fill the width: [n] columns and the gaps between them. *)
Theorem C48_columns_fill (X W : Q) (gap : option Q) (n : nat) : n <> 0 ->
  let left k := (X + qn k * (col_of gap n W + gap_of gap W))%Q in
  (left 0%nat == X /\ left (n - 1)%nat + col_of gap n W == X + W)%Q /\
  forall k, (left (Datatypes.S k) == left k + col_of gap n W + gap_of gap W)%Q.
Proof.
  intros Hn left. assert (Hq : ~ (qn n == 0)%Q) by (unfold qn, Qeq; cbn; lia).
  assert (Hs : forall k, (qn (Datatypes.S k) == qn k + 1)%Q) by (intros k; unfold qn; rewrite Nat2Z.inj_succ, <- Z.add_1_r, inject_Z_plus; reflexivity).
  unfold left. split; [split|].
  - change (qn 0) with 0%Q. ring.
  - destruct n as [|n]; [congruence|]. replace (Datatypes.S n - 1) with n by lia. unfold col_of. specialize (Hs n). setoid_replace (qn n) with (qn (Datatypes.S n) - 1)%Q by (rewrite Hs; ring). field. exact Hq.
  - intros k. rewrite Hs. ring.
Qed.

(** Every part of a box lies in a column of the box or of one inside, between
    the margins, and below the top of the rectangle; columns of boxes of any
    depth. *)
Theorem C48_columns_partial {E O S P L : Type} (start : E -> res O) (crun : O -> Q -> Q -> Q -> Q -> res (O * Q * bool * list P * list L)) (save : O -> S) (restore : O -> S -> O)
  elems cols gap (St : style -> Prop) fuel rs c outs :
  (forall o x y w h o' ht fin ps ls, crun o x y w h = Ok (o', ht, fin, ps, ls) -> (0 < ht)%Q -> (ht <= h)%Q) ->
  (forall s, St s -> (0 <= s_mt s /\ 0 <= s_mb s /\ match s_min s with Some m => 0 < m | None => True end)%Q) ->
  okels St False elems -> Forall (room elems cols gap St) rs ->
  runs start crun save restore fuel rs (fresh_content elems cols gap) = Done (c, outs) ->
  Forall2 (fun r o => Forall (within elems cols gap St False r) (o_parts o)) (firstn (length outs) rs) outs.
Proof.
  intros Hfit Hst Hel Hr. apply (runs_inside start crun save restore Hfit elems cols gap St False Hst Hel ltac:(tauto) fuel rs); [exact Hr|]. repeat split.
Qed.
Print Assumptions C48_columns_partial.
(** With one column in every box, it is above the bottom too. *)
Theorem C48_rectangle {E O S P L : Type} (start : E -> res O) (crun : O -> Q -> Q -> Q -> Q -> res (O * Q * bool * list P * list L)) (save : O -> S) (restore : O -> S -> O)
  elems gap (St : style -> Prop) fuel rs c outs :
  (forall o x y w h o' ht fin ps ls, crun o x y w h = Ok (o', ht, fin, ps, ls) -> (0 < ht)%Q -> (ht <= h)%Q) ->
  (forall s, St s -> (0 <= s_mt s /\ 0 <= s_mb s /\ match s_min s with Some m => 0 < m | None => True end)%Q) ->
  okels St True elems -> Forall (room elems 1 gap St) rs ->
  runs start crun save restore fuel rs (fresh_content elems 1 gap) = Done (c, outs) ->
  Forall2 (fun r o => forall p, In p (o_parts o) -> (0 < p_height p)%Q -> (rc_y r - rc_h r <= p_top p - p_height p)%Q /\ (p_top p <= rc_y r)%Q) (firstn (length outs) rs) outs.
Proof.
  intros Hfit Hst Hel Hr Hrun.
  assert (H0 : rests elems 1 gap St (@fresh_content E O S elems 1 gap)) by repeat split.
  pose proof (runs_inside start crun save restore Hfit elems 1 gap St True Hst Hel (fun _ => eq_refl) fuel rs _ _ _ Hr H0 Hrun) as H.
  revert H. apply Forall2_mono_in. intros r o H p Hp Hh. pose proof (proj1 (Forall_forall _ _) H p Hp) as Hi. unfold within, inside in Hi.
  destruct p as [s x y w h b a ht fin parts|s x y w h iw ih]; destruct Hi as (l & left & cw & _ & _ & Hi); cbn [p_top p_height] in *.
  - destruct Hi as (_ & H1 & H2). split; [exact (H2 I Hh)|exact H1].
  - destruct Hi as (_ & _ & _ & H1 & _ & H2). split; [specialize (H2 I); lra|exact H1].
Qed.
Print Assumptions C48_rectangle.

Lemma ex_fits o x y w h o' ht fin ps ls : ex_crun o x y w h = Ok (o', ht, fin, ps, ls) -> (0 < ht)%Q -> (ht <= h)%Q.
Proof.
  unfold ex_crun. set (n := Z.to_nat (Qfloor (h / 10))). set (k := Nat.min (snd o) n). intros H. injection H as <- <- <- <- <-. intros H0.
  assert (Hk : (0 < Z.of_nat k)%Z).
  { destruct (Z.of_nat k) eqn:Ek; [|lia|lia]. exfalso. revert H0. unfold Qlt, Qmult, inject_Z. cbn. lia. }
  assert (Hf : (Z.of_nat k <= Qfloor (h / 10))%Z) by lia. rewrite Zle_Qle in Hf. pose proof (Qfloor_le (h / 10)) as Hl.
  assert (He : (10 * (h / 10) == h)%Q) by field. lra.
Qed.
(** A box of two columns, with one of two columns inside, in two rectangles. *)
Definition ex_cols : list (@elem (nat * nat)) :=
  [Leaf ex_style (1, 3); Child ex_style 2 (Some 10%Q) [Leaf ex_style (2, 7); Image ex_style 0 80 20]; Leaf ex_style (3, 2)].
Definition ex_spots (outs : list (@output (nat * nat) (nat * nat) nat)) : list (list (Z * Z * Z)) :=
  map (fun o => map (fun p => match p with PlLeaf _ x y _ _ _ _ _ _ l => (Qfloor x, Qfloor y, Z.of_nat (list_sum (map snd l))) | PlImage _ x y _ h _ _ => (Qfloor x, Qfloor (y + h), 0%Z) end) (o_parts o)) outs.
Example C48_columns_applies :
  okels (fun s => s = ex_style) False ex_cols /\ Forall (room ex_cols 2 (Some 20%Q) (fun s => s = ex_style)) [mkRect 10 500 220 45; mkRect 10 500 220 100] /\
  match ex_runs 60 [mkRect 10 500 220 45; mkRect 10 500 220 100] (fresh_content ex_cols 2 (Some 20%Q)) with
  | Done (c, outs) => c_finished c = true /\ ex_spots outs = [[(10, 500, 3); (10, 465, 1); (65, 465, 1); (130, 500, 3); (185, 500, 2); (185, 475, 0); (130, 458, 0)]; [(10, 500, 1); (130, 500, 1)]]%Z
  | _ => False
  end.
Proof.
  split; [cbn; repeat split; intros []|]. split.
  - assert (Hw : forall r l x w, rc_w r = 220%Q -> strip 2 (Some 20%Q) ex_cols (rc_x r) (rc_w r) l x w ->
      (l = ex_cols /\ (w == 100)%Q) \/ (l = [Leaf ex_style (2, 7); Image ex_style 0 80 20] /\ (w == 45)%Q)).
    { intros r l x w Hr H. induction H as [k x Hk Hx|l x w s n gap l' k x' H IH Hin Hk Hx].
      - left. split; [reflexivity|]. rewrite Hr. reflexivity.
      - destruct IH as [[-> Hw]|[-> Hw]]; [|destruct Hin as [H1|[H1|[]]]; discriminate].
        destruct Hin as [H1|[H1|[H1|[]]]]; try discriminate. injection H1 as <- <- <- <-. right. split; [reflexivity|]. unfold col_of, gap_of. rewrite Hw. reflexivity. }
    apply Forall_cons; [|apply Forall_cons; [|apply Forall_nil]]; intros l x w s Hs ->; cbn [ex_style s_ml s_mr]; assert (K : (w == 100)%Q \/ (w == 45)%Q) by (edestruct Hw as [[_ K]|[_ K]]; [|exact Hs| |]; [reflexivity|left; exact K|right; exact K]); destruct K; lra.
  - vm_compute. split; reflexivity.
Qed.

Example C48_rectangle_applies :
  okels (fun s => s = ex_style) True ex_box /\ Forall (room ex_box 1 None (fun s => s = ex_style)) [mkRect 0 500 100 60].
Proof.
  split; [cbn; repeat split|]. apply Forall_cons; [|apply Forall_nil]. intros l x w s Hs ->. cbn [ex_style s_ml s_mr].
  assert (Hw : (w == 100)%Q).
  { induction Hs as [k x Hk Hx|l x w s n gap l' k x' H IH Hin Hk Hx]; [reflexivity|].
    assert (Hn : n = 1).
    { assert (Hl : l = ex_box \/ l = [Leaf ex_style (2, 4); Image ex_style 0 80 20; Leaf ex_style (3, 2)]).
      { clear - H. induction H as [k x Hk Hx|l x w s n gap l' k x' H IH Hin Hk Hx]; [left; reflexivity|]. destruct IH as [->| ->].
        - destruct Hin as [H1|[H1|[H1|[]]]]; try discriminate. injection H1 as <- <- <- <-. right. reflexivity.
        - destruct Hin as [H1|[H1|[H1|[]]]]; discriminate. }
      destruct Hl as [-> | ->]; destruct Hin as [H1|[H1|[H1|[]]]]; try discriminate. injection H1 as <- <- <- <-. reflexivity. }
    subst n. unfold col_of. change (qn 1) with 1%Q. assert (K : ((w - gap_of gap w * (1 - 1)) / 1 == w)%Q) by field. rewrite K. exact IH. }
  lra.
Qed.

(** ** Images (C49) *)
(** An image that a box tries to place, [tries] times before: it is placed in
    proportion in the room that is left, or it is delayed and the try is
    counted, or it was the 51st try. *)
Definition image_step {E O S P L} (f : @part E S) (g : @glob O P L) (s : style) (iw ih : Q) (tries : nat)
  (out : ans (option (@delem E S) * @part E S * @glob O P L)) : Prop :=
  match out with
  | Done (None, f', g') => exists x y w h, g_parts g' = g_parts g ++ [PlImage s x y w h iw ih] /\
      (w * ih == h * iw)%Q /\ (f_maxy f <= y)%Q /\ (y + h <= f_y f)%Q /\ (left_edge f + s_ml s <= x)%Q /\ (x + w <= left_edge f + f_colw f - s_mr s)%Q
  | Done (Some d, f', g') => g_parts g' = g_parts g /\ f_y f' = f_y f /\ tries < 50 /\ d = DImage s iw ih (Datatypes.S tries)
  | Raise e => 50 <= tries /\ e = PyException
  | Out => False
  end.
Section Images.
Context {E O S P L : Type}.
Variable start : E -> res O.
Variable crun : O -> Q -> Q -> Q -> Q -> res (O * Q * bool * list P * list L).
Variable save : O -> S.
Variable restore : O -> S -> O.
Notation part := (@part E S).
Notation glob := (@glob O P L).

Lemma image_one (f : part) (g : glob) s iw ih :
  (0 < iw /\ 0 < ih)%Q -> (0 <= s_mt s)%Q -> (0 <= f_lastbottom f)%Q -> match s_min s with Some m => (0 < m)%Q | None => True end -> (s_ml s + s_mr s <= f_colw f)%Q ->
  let '(ok, f', g') := process_image f g s (s_min s) (s_shrink s) iw ih true true in
  g_tries g' = g_tries g /\
  if ok : bool then exists x y w h, g_parts g' = g_parts g ++ [PlImage s x y w h iw ih] /\
      (w * ih == h * iw)%Q /\ (f_maxy f <= y)%Q /\ (y + h <= f_y f)%Q /\ (left_edge f + s_ml s <= x)%Q /\ (x + w <= left_edge f + f_colw f - s_mr s)%Q
  else g_parts g' = g_parts g /\ f_y f' = f_y f.
Proof.
  intros [Hiw Hih] Hmt Hlb Hmin Hcw. unfold process_image. destruct (space f s true) as [[[x y] w] h] eqn:Es. cbv zeta.
  assert (Hsp : (x == left_edge f + s_ml s /\ w == f_colw f - s_ml s - s_mr s)%Q /\ (y <= f_y f)%Q /\ ((0 < h)%Q -> (h == y - f_maxy f)%Q)).
  { unfold space in Es. injection Es as <- <- <- <-. split; [split; reflexivity|]. split; [destruct (f_starting f); cbn [negb andb]; lra|].
    match goal with |- (0 < qmax 0 ?e)%Q -> _ => destruct (qmax_or 0 e) as [Hq|Hq]; rewrite Hq; intros; lra end. }
  destruct Hsp as ((Hx & Hw) & Hy & Hh). set (ht := (w * ih / iw)%Q). assert (Hht : (ht * iw == w * ih)%Q) by (unfold ht; field; lra).
  assert (Hht0 : (0 <= ht)%Q). { apply Qle_shift_div_l; [exact Hiw|]. rewrite Qmult_0_l. apply Qmult_le_0_compat; lra. }
  destruct (qlt ht h) eqn:E1.
  - apply qlt_spec in E1. split; [reflexivity|]. exists x, (y - ht)%Q, w, ht. split; [reflexivity|]. split; [lra|]. specialize (Hh ltac:(lra)). repeat split; lra.
  - apply qlt_false in E1. destruct (s_min s) as [m|].
    2:{ split; [reflexivity|]. split; reflexivity. }
    destruct (Qle_bool m h) eqn:E2.
    2:{ split; [reflexivity|]. split; reflexivity. }
    apply Qle_bool_iff in E2. split; [reflexivity|]. specialize (Hh ltac:(lra)). set (k := if s_shrink s then m else h).
    assert (Hk : (0 < k /\ k <= h)%Q) by (unfold k; destruct (s_shrink s); lra). set (w' := (k * iw / ih)%Q).
    assert (Hw' : (w' * ih == k * iw)%Q) by (unfold w'; field; lra).
    assert (Hle : (w' <= w)%Q). { apply (Qmult_le_r _ _ ih Hih). rewrite Hw', <- Hht. apply Qmult_le_compat_r; lra. }
    exists (x + (w - w') / 2)%Q, (y - k)%Q, w', k. split; [reflexivity|]. split; [exact Hw'|].
    assert (Hhalf : ((w - w') / 2 + (w - w') / 2 == w - w')%Q) by field. repeat split; lra.
Qed.
(** For an element of the box, and for a delayed one. *)
Theorem C49_try (f : part) (g : glob) s iw ih rec anc id last tries :
  (0 < iw /\ 0 < ih)%Q -> (0 <= s_mt s)%Q -> (0 <= f_lastbottom f)%Q -> match s_min s with Some m => (0 < m)%Q | None => True end -> (s_ml s + s_mr s <= f_colw f)%Q ->
  (match process start crun save restore rec f anc g (Image s id iw ih) last with
   | Done (inr r, (f', anc', g')) => image_step f g s iw ih (g_tries g id) (Done (r_delayed r, f', g')) /\ (r_delayed r <> None -> g_tries g' id = Datatypes.S (g_tries g id))
   | Done (inl _, _) => False
   | Raise e => image_step f g s iw ih (g_tries g id) (Raise e)
   | Out => False
   end) /\
  image_step f g s iw ih tries
    (run! (r, f', g') <- process_delayed start crun save restore f g (DImage s iw ih tries); Done (r_delayed r, f', g')).
Proof.
  intros H1 H2 H3 H4 H5. pose proof (image_one f g s iw ih H1 H2 H3 H4 H5) as H. cbn [process process_delayed].
  destruct (process_image f g s (s_min s) (s_shrink s) iw ih true true) as [[ok f'] g'] eqn:E0. destruct H as [Ht H]. destruct ok.
  - split; [split; [exact H|cbn; congruence]|exact H].
  - destruct H as [Hp Hy]. unfold image_ret. split.
    + destruct (Nat.leb_spec 50 (g_tries g id)) as [K|K]; cbn [abind].
      * split; [exact K|reflexivity].
      * split; [split; [exact Hp|split; [exact Hy|split; [exact K|reflexivity]]]|]. intros _. unfold bump. cbn [g_tries]. rewrite Nat.eqb_refl, Ht. reflexivity.
    + destruct (Nat.leb_spec 50 tries) as [K|K]; cbn [abind].
      * split; [exact K|reflexivity].
      * split; [exact Hp|split; [exact Hy|split; [exact K|reflexivity]]].
Qed.
Hypothesis save_ok : forall o, restore o (save o) = o.
Definition between_flat (elems : list (@elem E)) (c : @content E O S) (t : list work) (pl : list (style * Q * Q)) : Prop :=
  c_elems c = elems /\ c_cols c = 1 /\
  match c_part c with
  | None => t = texts_of elems /\ pl = pics_of elems
  | Some f => f_elems f = elems /\ f_cols f = 1 /\ Forall nogroup (f_sdelayed f) /\ nleaf (f_sdelayed f) <= 1 /\
      t = dtexts restore (c_heap c) (f_sdelayed f) ++ texts_of (skipn (f_sindex f) elems) /\ pl = dpics (f_sdelayed f) ++ pics_of (skipn (f_sindex f) elems)
  end.
Lemma run_flat fuel elems c t pl x y w h c' o :
  Forall simple elems -> between_flat elems c t pl -> c_finished c = false -> run start crun save restore fuel x y w h c = Done (c', o) ->
  exists t' pl', works start crun t (texts (o_parts o)) t' /\ Permutation pl (pics (o_parts o) ++ pl') /\
    if c_finished c' then t' = [] /\ pl' = [] else between_flat elems c' t' pl'.
Proof.
  intros Hsi (He & Hc & Hp) Hfin. unfold run.
  match goal with |- abind ?e _ = _ -> _ => destruct e as [f| |] eqn:Ef end; cbn [abind]; try discriminate.
  assert (Hf : flatp f /\ f_elems f = elems /\ tleft restore f (c_heap c) = t /\ pleft f = pl).
  { assert (Hset : forall f0, f_elems f0 = elems -> f_cols f0 = 1 -> Forall nogroup (f_sdelayed f0) -> nleaf (f_sdelayed f0) <= 1 -> setup x w y (y - h)%Q 0 f0 = Done f ->
      flatp f /\ f_elems f = elems /\ tleft restore f (c_heap c) = dtexts restore (c_heap c) (f_sdelayed f0) ++ texts_of (skipn (f_sindex f0) elems) /\ pleft f = dpics (f_sdelayed f0) ++ pics_of (skipn (f_sindex f0) elems)).
    { intros f0 A1 A2 A3 A4 H. unfold setup in H. rewrite A2 in H. injection H as <-. split; [constructor; cbn; auto; rewrite A1; exact Hsi|]. split; [exact A1|].
      unfold tleft, pleft. cbn [f_delayed f_index f_elems]. rewrite A1. auto. }
    destruct (c_part c) as [f0|].
    - destruct Hp as (A1 & A2 & A3 & A4 & -> & ->). exact (Hset f0 A1 A2 A3 A4 Ef).
    - destruct Hp as [-> ->]. unfold new_part in Ef. rewrite He, Hc in Ef. refine (Hset _ _ _ _ _ Ef); try reflexivity; [constructor|cbn; unfold nleaf; cbn; lia]. }
  destruct Hf as (Hf & Hfe & Ht & Hpl).
  destruct (run_part start crun save restore fuel f [] (mkG [] [] (c_heap c) (c_tries c))) as [[act [[f1 anc1] g1]]| |] eqn:Er; cbn [abind]; try discriminate.
  intros H. injection H as <- <-. cbn [o_parts c_finished c_part c_heap c_elems c_cols].
  destruct (run_part_flat start crun save restore save_ok fuel f _ act f1 anc1 g1 Hf Er) as (new & (Q1 & Q2 & Q3 & Q4) & Hf1 & Hact). cbn [g_parts g_heap app] in *.
  rewrite Q1. rewrite Ht in Q2. rewrite Hpl in Q3. exists (tleft restore f1 (g_heap g1)), (pleft f1). split; [exact Q2|]. split; [exact Q3|].
  destruct act as [[| |]|]; try contradiction.
  - rewrite Hfin. split; [exact He|]. split; [exact Hc|]. cbn [c_part c_heap]. destruct Hact as [A1 A2]. destruct Hf1 as [q1 q2 q3 q4 q5 q6 q7]. rewrite A1, A2. split; [congruence|]. split; [exact q2|]. split; [exact q6|]. split; [exact q7|].
    unfold tleft, pleft. rewrite Q4, Hfe. split; reflexivity.
  - exact Hact.
Qed.
(** A box of one column of paragraphs, tables and images of any placement: the
    images placed and those left are the images of the box, none is dropped or
    placed twice; paragraphs and tables are done in order. *)
Theorem C49_kept_partial elems gap fuel rs c outs :
  Forall simple elems -> runs start crun save restore fuel rs (fresh_content elems 1 gap) = Done (c, outs) ->
  exists t left, pages start crun (texts_of elems) (map (fun o => texts (o_parts o)) outs) t /\
    Permutation (pics_of elems) (pics (flat_map o_parts outs) ++ left) /\ (c_finished c = true -> t = [] /\ left = []).
Proof.
  intros Hsi.
  assert (Hgen : forall rs c0 t pl, between_flat elems c0 t pl -> c_finished c0 = false -> forall c outs, runs start crun save restore fuel rs c0 = Done (c, outs) ->
    exists t' left, pages start crun t (map (fun o => texts (o_parts o)) outs) t' /\ Permutation pl (pics (flat_map o_parts outs) ++ left) /\ (c_finished c = true -> t' = [] /\ left = [])).
  { clear rs c outs. intros rs. induction rs as [|r rs IH]; intros c0 t pl Hb Hf c outs; cbn [runs].
    - intros H. injection H as <- <-. exists t, pl. split; [constructor|]. split; [apply Permutation_refl|congruence].
    - rewrite Hf. destruct (run start crun save restore fuel (rc_x r) (rc_y r) (rc_w r) (rc_h r) c0) as [[c1 o]| |] eqn:Er; cbn [abind]; try discriminate.
      destruct (runs start crun save restore fuel rs c1) as [[c2 os]| |] eqn:Es; cbn [abind]; try discriminate. intros H. injection H as <- <-.
      destruct (run_flat fuel elems c0 t pl _ _ _ _ c1 o Hsi Hb Hf Er) as (t1 & pl1 & H1 & H2 & H3). destruct (c_finished c1) eqn:E1.
      + destruct H3 as [-> ->]. destruct rs as [|r1 rs]; cbn [runs] in Es; [|rewrite E1 in Es]; injection Es as <- <-;
        (exists [], []; cbn [map flat_map]; split; [econstructor; [exact H1|constructor]|]; split; [rewrite !app_nil_r in *; exact H2|auto]).
      + destruct (IH c1 t1 pl1 H3 E1 c2 os Es) as (t' & left & H4 & H5 & H6). exists t', left. split; [econstructor; eauto|]. split; [|exact H6].
        cbn [flat_map]. rewrite pics_app, <- app_assoc, H2. apply Permutation_app_head. exact H5. }
  apply Hgen; [|reflexivity]. split; [reflexivity|]. split; [reflexivity|]. split; reflexivity.
Qed.
End Images.
Print Assumptions C49_try.
Print Assumptions C49_kept_partial.

(** Two images that flow, one that keeps its place, and text, in four
    rectangles. *)
Definition ex_pics : list (@elem (nat * nat)) :=
  [Leaf ex_style (1, 3); Image ex_flow 0 100 60; Leaf ex_style (2, 4); Image ex_style 1 100 40; Leaf ex_style (3, 2); Image ex_flow 2 200 30].
Example C49_kept_applies :
  match ex_runs 60 [mkRect 0 500 100 60; mkRect 0 500 100 100; mkRect 0 500 100 100] (fresh_content ex_pics 1 None) with
  | Done (c, outs) => c_finished c = true /\ ex_drawn outs = [[(1, 3); (2, 2)]; [(0, 100); (2, 2)]; [(0, 100); (3, 2); (0, 200)]]
  | _ => False
  end.
Proof. vm_compute. split; reflexivity. Qed.
(** An image that is too high for every rectangle: 51 tries, and then it
    raises. *)
Example C49_raises :
  match ex_runs 60 (repeat (mkRect 0 500 100 50) 50) (fresh_content [Image ex_style 0 100 60] 1 None) with Done (c, outs) => c_finished c = false | _ => False end /\
  ex_runs 60 (repeat (mkRect 0 500 100 50) 51) (fresh_content [Image ex_style 0 100 60] 1 None) = Raise PyException.
Proof. split; vm_compute; reflexivity. Qed.

(** ** Groups (C50) *)
Section Groups.
Context {E O S P L : Type}.
Variable start : E -> res O.
Variable crun : O -> Q -> Q -> Q -> Q -> res (O * Q * bool * list P * list L).
Variable save : O -> S.
Variable restore : O -> S -> O.
Notation part := (@part E S).
Notation glob := (@glob O P L).

(** A group that is delayed is delayed whole: nothing is drawn. *)
Theorem C50_none (f : part) (g : glob) s l tries r f' g' d :
  process_group start crun save restore f g s l tries = Done (r, f', g') -> r_delayed r = Some d ->
  d = DGroup s l (Datatypes.S tries) /\ g_parts g' = g_parts g /\ g_lines g' = g_lines g /\ f_y f' = f_y f /\ tries < 50.
Proof.
  unfold process_group. cbv zeta.
  match goal with |- abind ?e _ = _ -> _ => destruct e as [[[ok f1] g1]| |] eqn:Et end; cbn [abind]; try discriminate.
  destruct (try_none start crun save restore l _ _ _ _ _ _ Et) as [P1 P2]. destruct ok.
  - match goal with |- abind ?e _ = _ -> _ => destruct e as [ratio| |] end; cbn [abind]; try discriminate.
    match goal with |- abind ?e _ = _ -> _ => destruct e as [[f2 g2]| |] end; cbn [abind]; try discriminate. intros H. injection H as <- _ _. discriminate.
  - destruct (Nat.leb_spec 50 tries) as [K|K]; [discriminate|]. intros H. injection H as <- <- <-. cbn [r_delayed]. intros H. injection H as <-. repeat split; assumption.
Qed.

Hypothesis tall : forall o x y w h o' ht ps ls, crun o x y w h = Ok (o', ht, true, ps, ls) -> (0 < ht <= h)%Q.
Hypothesis snug : forall o x y w h o' ht ps ls y' h', crun o x y w h = Ok (o', ht, true, ps, ls) -> (ht <= h')%Q ->
  exists o2 ht2 ps2 ls2, crun o x y' w h' = Ok (o2, ht2, true, ps2, ls2) /\ (ht2 == ht)%Q.
(** The space above the first element in the first pass, and in the second: the
    margin of the group and the one left by the element before; the margin of
    the last element of the group. *)
Definition gap_first (f : part) (s : style) : Q := if f_starting f then 0 else (s_mt s + f_lastbottom f)%Q.
Definition gap_second (l : list (@gelem E)) : Q := s_mb (gstyle (last l GBad)).
(** A group that is not delayed is drawn whole, when the second pass has no less
    space than the first one: the same space if images may be made smaller, and
    none that may not if others grow. *)
Theorem C50_all_partial (f : part) (g : glob) s l tries r f' g' :
  l <> [] -> Forall (good (f_colw f)) l -> (0 <= s_mt s)%Q -> (0 <= f_lastbottom f)%Q ->
  (gap_second l <= gap_first f s)%Q -> (existsb has_min l = true -> (gap_second l == gap_first f s)%Q) ->
  (s_shrink s = true \/ existsb has_min l = false \/ forallb (fun el => match el with GImage _ _ _ => has_min el | _ => true end) l = true) ->
  process_group start crun save restore f g s l tries = Done (r, f', g') -> r_delayed r = None ->
  exists ps, g_parts g' = g_parts g ++ ps /\ Forall2 (whole start) l ps.
Proof.
  intros Hne Hg Hmt Hlb Hgap Hmin Hcase. unfold process_group. cbv zeta. set (f0 := with_y f (if f_starting f then f_y f else (f_y f - s_mt s)%Q) (f_starting f) (f_lastbottom f)).
  destruct (group_try start crun save restore f0 g true l) as [[[ok f1] g1]| |] eqn:Et; cbn [abind]; try discriminate.
  destruct (try_none start crun save restore l _ _ _ _ _ _ Et) as [P1 P2]. destruct ok.
  2:{ destruct (50 <=? tries); [discriminate|]. intros H. injection H as <- _ _. discriminate. }
  assert (Hg0 : Forall (good (f_colw f0)) l) by exact Hg.
  destruct (try_all start crun save restore tall l f0 g true true f1 g1 Hg0 Et) as (_ & _ & (yy & st & lb & Hf1) & Hall). destruct (Hall eq_refl) as [_ Hl].
  pose proof (try_floor start crun save restore tall l f0 g true f1 g1 Hg0 Hne Et) as Hfl. change (f_maxy f0) with (f_maxy f) in Hfl.
  destruct l as [|el0 l0] eqn:El; [congruence|]. rewrite <- El in *. destruct Hl as (Hst1 & ell & Hlast & Hin & Hlb1).
  assert (Hsec : f_lastbottom f1 = gap_second l).
  { rewrite Hlb1. unfold gap_second. f_equal. f_equal. rewrite <- Hlast. rewrite El. clear. revert el0. induction l0 as [|b l0 IH]; intros a; [reflexivity|]. exact (IH b). }
  assert (Hmx : f_maxy f1 = f_maxy f) by (rewrite Hf1; reflexivity).
  set (size := qsum (map min_of l)). set (R := (f_y f1 - f_maxy f)%Q). assert (HR : (0 <= R)%Q) by (unfold R; lra).
  assert (Hsize : (0 <= size)%Q) by (unfold size; apply (mins_ge (f_colw f)); exact Hg).
  set (d := (gap_first f s - gap_second l)%Q). assert (Hd0 : (0 <= d)%Q) by (unfold d; lra).
  assert (Hrun : forall k, (1 <= k)%Q -> (size * (k - 1) <= R)%Q -> (Forall (allowed k d) l) ->
    exists f2 g2 ps, group_add start crun save restore (with_y f1 (f_y f) (f_starting f1) (f_lastbottom f1)) g1 k true l = Done (f2, g2) /\ g_parts g2 = g_parts g1 ++ ps /\ Forall2 (whole start) l ps).
  { intros k Hk Hgr Hal. apply (pass_all start crun save restore tall snug k Hk d l f0 _ g g1 true 0 R f1 g1).
    - rewrite Hf1. eexists _, _, _. reflexivity.
    - exact Hg.
    - exact Hal.
    - lra.
    - intros _. reflexivity.
    - exact HR.
    - intros el _. revert Hgap. unfold top_of, space, d, gap_first, f0. cbn [negb with_y f_starting f_y f_lastbottom]. rewrite Hst1, Hsec. destruct (f_starting f); cbn [negb andb]; intros Hgap; lra.
    - exact Et.
    - change (f_maxy f0) with (f_maxy f). unfold R. lra.
    - fold size. lra. }
  assert (Hall1 : s_shrink s = true \/ existsb has_min l = false -> Forall (allowed 1 d) l).
  { intros _. apply Forall_forall. intros el He. split; [|destruct el; auto; reflexivity]. intros K. unfold d. rewrite Hmin by (apply existsb_exists; eauto). ring. }
  assert (Hsz1 : (size * (1 - 1) <= R)%Q) by (assert (K : (size * (1 - 1) == 0)%Q) by ring; lra).
  match goal with |- abind ?e _ = _ -> _ => destruct e as [ratio| |] eqn:Er end; cbn [abind]; try discriminate.
  assert (Hgo : exists f2 g2 ps, group_add start crun save restore (with_y f1 (f_y f) (f_starting f1) (f_lastbottom f1)) g1 (if s_shrink s then 1%Q else ratio) true l = Done (f2, g2) /\ g_parts g2 = g_parts g1 ++ ps /\ Forall2 (whole start) l ps).
  { destruct (s_shrink s) eqn:Esh; [apply Hrun; [lra|exact Hsz1|apply Hall1; auto]|]. destruct (existsb has_min l) eqn:Em.
    - destruct (Qeq_bool size 0) eqn:Ez; [discriminate|]. apply Qeq_bool_neq in Ez. injection Er as <-. rewrite Hmx.
      assert (Hk : ((size + f_y f1 - f_maxy f) / size == 1 + R / size)%Q) by (unfold R; field; exact Ez).
      assert (Hr0 : (0 <= R / size)%Q) by (apply Qle_shift_div_l; [lra|lra]).
      apply Hrun; [lra| |].
      + rewrite Hk. assert (size * (1 + R / size - 1) == R)%Q by (field; exact Ez). lra.
      + destruct Hcase as [K|[K|K]]; [congruence|congruence|]. rewrite forallb_forall in K. apply Forall_forall. intros el He. specialize (K el He). split; [intros _; unfold d; rewrite Hmin by reflexivity; ring|].
        destruct el as [s0 e|s0 iw ih|]; auto. cbn [has_min] in K. intros K2. rewrite K2 in K. discriminate.
    - injection Er as <-. apply Hrun; [lra|exact Hsz1|apply Hall1; auto]. }
  destruct Hgo as (f2 & g2 & ps & E2 & Q1 & Q2). rewrite E2. cbn [abind]. intros H. injection H as <- <- <-. intros _. exists ps. split; [congruence|exact Q2].
Qed.
End Groups.
Print Assumptions C50_none.
Print Assumptions C50_all_partial.

(** Paragraphs with at least one line. *)
Definition ex_crun1 (o : nat * nat) (x y w h : Q) := if snd o =? 0 then Err PyException else ex_crun o x y w h.
Lemma ex_tall o x y w h o' ht ps ls : ex_crun1 o x y w h = Ok (o', ht, true, ps, ls) -> (0 < ht <= h)%Q.
Proof.
  unfold ex_crun1. destruct (Nat.eqb_spec (snd o) 0) as [K|Ho]; [discriminate|]. intros H. assert (H0 : (0 < ht)%Q); [|split; [exact H0|exact (ex_fits _ _ _ _ _ _ _ _ _ _ H H0)]].
  unfold ex_crun in H. remember (Nat.min (snd o) (Z.to_nat (Qfloor (h / 10)))) as k eqn:Ek. injection H as _ <- H _ _. apply Nat.eqb_eq in H.
  assert (Hk : 1 <= k) by lia.
  assert (K : (inject_Z 1 <= inject_Z (Z.of_nat k))%Q) by (rewrite <- Zle_Qle; lia).
  change (inject_Z 1) with 1%Q in K.
  lra.
Qed.
Lemma ex_snug o x y w h o' ht ps ls y' h' : ex_crun1 o x y w h = Ok (o', ht, true, ps, ls) -> (ht <= h')%Q ->
  exists o2 ht2 ps2 ls2, ex_crun1 o x y' w h' = Ok (o2, ht2, true, ps2, ls2) /\ (ht2 == ht)%Q.
Proof.
  unfold ex_crun1. destruct (Nat.eqb_spec (snd o) 0) as [K|Ho]; [discriminate|]. unfold ex_crun. intros H Hh. remember (Nat.min (snd o) (Z.to_nat (Qfloor (h / 10)))) as k eqn:Ek. injection H as _ <- H _ _. apply Nat.eqb_eq in H.
  assert (Hk : k = snd o) by lia. rewrite Hk in Hh.
  assert (Hf : (Z.of_nat (snd o) <= Qfloor (h' / 10))%Z).
  { assert (Hq : (inject_Z (Z.of_nat (snd o)) <= h' / 10)%Q) by (apply Qle_shift_div_l; lra). apply Qfloor_resp_le in Hq. rewrite Qfloor_Z in Hq. exact Hq. }
  assert (Hm : Nat.min (snd o) (Z.to_nat (Qfloor (h' / 10))) = snd o) by lia. rewrite Hm, Hk, Nat.sub_diag. do 4 eexists. split; reflexivity.
Qed.

(** Groups in boxes: after a paragraph, an image that may be smaller and two
    lines; the rectangle is too low for the whole image. *)
Definition ex_min : style := mkStyle 0 0 0 5 (Some 20%Q) false PNormal.
Definition ex_group : list (@elem (nat * nat)) := [Leaf ex_style (1, 2); Group ex_style 0 [GImage ex_min 100 100; GLeaf ex_style (2, 2)]].
Example C50_applies :
  Forall (good 100) [GImage ex_min 100 100; GLeaf ex_style (2, 2)] /\
  match runs ex_start ex_crun1 (fun o => o) ex_restore 60 [mkRect 0 500 100 90] (fresh_content ex_group 1 None) with
  | Done (c, outs) => c_finished c = true /\ ex_drawn outs = [[(1, 2); (0, 100); (2, 2)]]
  | _ => False
  end.
Proof. split; [repeat constructor; cbn; lra|]. vm_compute. split; reflexivity. Qed.
(** The hypotheses of the theorem hold there, and the group is not delayed. *)
Definition ex_part : @part (nat * nat) (nat * nat) :=
  mkPart ex_group 1 None true 0 [] [] None 0 500 410 480 0 false 5 7 100 1 [] false false 0 None None false.
Example C50_all_applies :
  let l := [GImage ex_min 100 100; GLeaf ex_style (2, 2)] in
  Forall (good (f_colw ex_part)) l /\ (gap_second l == gap_first ex_part ex_style)%Q /\
  forallb (fun el => match el with GImage _ _ _ => has_min el | _ => true end) l = true /\
  match process_group ex_start ex_crun1 (fun o => o) ex_restore ex_part (@mkG (nat * nat) (nat * nat) nat [] [] [] (fun _ => 0)) ex_style l 0 with
  | Done (r, _, g') => r_delayed r = None /\ List.length (g_parts g') = 2
  | _ => False
  end.
Proof. cbv zeta. split; [repeat constructor; cbn; lra|]. split; [vm_compute; reflexivity|]. split; [reflexivity|]. vm_compute. split; reflexivity. Qed.
(** At the top of a rectangle the second pass begins lower, by the margin of the
    last element: a group of one paragraph of 3 lines, that fits, is drawn with
    two, and the third line is lost. *)
Theorem C50_all_refuted :
  match ex_runs 60 [mkRect 0 500 100 32] (fresh_content [Group ex_style 0 [GLeaf ex_style (1, 3)]] 1 None) with
  | Done (c, outs) => c_finished c = true /\ ex_drawn outs = [[(1, 2)]]
  | _ => False
  end.
Proof. vm_compute. split; reflexivity. Qed.
(** Elsewhere, when an image grows to fill the room that is left, an image that
    has no minimum and follows it does not fit, and is lost. *)
Theorem C50_images_refuted :
  match ex_runs 60 [mkRect 0 500 100 120] (fresh_content [Leaf ex_style (1, 2); Group ex_style 0 [GImage ex_min 100 100; GImage ex_style 100 20]] 1 None) with
  | Done (c, outs) => c_finished c = true /\ ex_drawn outs = [[(1, 2); (0, 100)]]
  | _ => False
  end.
Proof. vm_compute. split; reflexivity. Qed.
Print Assumptions C50_images_refuted.
