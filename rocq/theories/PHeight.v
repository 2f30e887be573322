(** The height reported by contents (C73). *)
From Coq Require Import QArith Qround ZArith Lia Lqa List.
From Verif Require Import Py Table Content ContentFlow ContentGeom ContentState ContentApart ContentHeight PContent PState PBeside.
Import ListNotations.
Open Scope list_scope.
Open Scope nat_scope.

Section Runs.
Context {E O S P L : Type}.
Variable start : E -> res O.
Variable crun : O -> Q -> Q -> Q -> Q -> res (O * Q * bool * list P * list L).
Variable save : O -> S.
Variable restore : O -> S -> O.
Hypothesis fits : forall o x y w h o' ht fin ps ls, crun o x y w h = Ok (o', ht, fin, ps, ls) -> (0 < ht)%Q -> (ht <= h)%Q.
Variables (elems : list (@elem E)) (cols : nat) (gap : option Q) (St : style -> Prop).
Hypothesis St_ok : forall s, St s -> (0 <= s_mt s /\ 0 <= s_mb s /\ match s_min s with Some m => 0 < m | None => True end)%Q.
Hypothesis St_side : forall s, St s -> (0 <= s_ml s /\ 0 <= s_mr s)%Q.
Hypothesis els_ok : okels St False elems.
Hypothesis els_flat : flats (1 <? cols) elems.
Hypothesis gap_good : gap_ok gap.

Lemma run_height fuel r c c' o :
  room elems cols gap St r -> rests elems cols gap St c -> run start crun save restore fuel (rc_x r) (rc_y r) (rc_w r) (rc_h r) c = Done (c', o) ->
  (forall p, In p (o_parts o) -> (0 < p_height p)%Q -> (rc_y r - o_height o <= p_bot p)%Q) /\
  (cols = 1 -> ones elems -> (o_height o == 0)%Q \/ exists p, In p (o_parts o) /\ (rc_y r - o_height o == p_bot p)%Q).
Proof.
  intros Hroom (He & Hn & Hg & Hp). unfold run.
  set (X := rc_x r) in *. set (Y := rc_y r) in *. set (W := rc_w r) in *. set (B := (Y - rc_h r)%Q).
  match goal with |- abind ?e _ = _ -> _ => destruct e as [f| |] eqn:Ef end; cbn [abind]; try discriminate.
  assert (Hc : (chain cols gap elems X Y W B St False f [] /\ @lies E O S P f [] [] []) /\ f_miny f = Y /\ f_y f = Y /\ f_elems f = elems /\ f_cols f = cols /\ f_column f = 0 /\ f_resetting f = false /\ f_will f = false).
  { assert (Hset : forall f0, f_elems f0 = elems -> f_cols f0 = cols -> f_gapspec f0 = gap -> Forall (okd St) (f_sdelayed f0) -> okm St (f_memory f0) -> match f_partial f0 with Some m => okm St m | None => True end ->
      setup X W Y B 0 f0 = Done f -> (chain cols gap elems X Y W B St False f [] /\ @lies E O S P f [] [] []) /\ f_miny f = Y /\ f_y f = Y /\ f_elems f = elems /\ f_cols f = cols /\ f_column f = 0 /\ f_resetting f = false /\ f_will f = false).
    { intros f0 A1 A2 A3 A4 A5 A6 H. unfold setup in H. destruct (f_cols f0) as [|n] eqn:En; [discriminate|]. injection H as <-. split; [split; [cbn [chain]; split|]|].
      - constructor; cbn [f_column f_cols f_lastbottom f_y f_miny f_elems f_delayed f_sdelayed f_memory f_partial f_maxy f_resetting f_will]; try assumption; try lra; try lia; try (intros []). rewrite A1; exact els_ok.
      - unfold at_root. cbn [f_elems f_cols f_gapspec f_minx f_gap f_colw]. rewrite A3. split; [exact A1|]. split; [exact A2|]. split; [reflexivity|]. split; [reflexivity|]. split; [reflexivity|]. rewrite <- A2. reflexivity.
      - split; [|split; [|constructor]].
        + cbn [tied lim f_cols f_elems f_maxy]. rewrite A1. split; [|split; [intros H; discriminate|exact I]]. rewrite <- A2 in els_flat. destruct (1 <? Datatypes.S n); exact els_flat.
        + cbn [lay f_pindex]. split; [cbn; lia|]. split; [constructor|reflexivity].
      - cbn [f_miny f_y f_elems f_cols f_column f_resetting f_will]. auto 10. }
    destruct (c_part c) as [f0|].
    - destruct Hp as (A1 & A2 & A3 & A4 & A5 & A6). exact (Hset f0 A1 A2 A3 A4 A5 A6 Ef).
    - unfold new_part in Ef. rewrite He, Hn, Hg in Ef. refine (Hset _ _ _ _ _ _ _ Ef); try reflexivity; cbn; constructor. }
  destruct Hc as ([Hc Hl] & F1 & F2 & F3 & F4 & F5 & F6 & F7).
  destruct (run_part start crun save restore fuel f [] (mkG [] [] (c_heap c) (c_tries c))) as [[act [[f1 anc1] g1]]| |] eqn:Er; cbn [abind]; try discriminate.
  intros H. injection H as <- <-. cbn [o_parts o_height].
  pose proof (run_part_top start crun save restore fuel _ _ _ _ _ _ _ Er) as Htop.
  destruct (run_part_geom start crun save restore fits cols gap elems X Y W B St False St_ok Hroom fuel f [] (mkG [] [] (c_heap c) (c_tries c)) act f1 anc1 g1 Hc (Forall_nil _) Er) as (G1 & G2 & G3).
  destruct (run_part_apart start crun save restore fits cols gap elems X Y W B St St_ok St_side Hroom gap_good fuel f [] [] (mkG [] [] (c_heap c) (c_tries c)) act f1 anc1 g1 Hc (Forall_nil _) Hl Er) as (A1 & bs & A2 & A3).
  inversion G2; subst anc1. inversion A2; subst bs. rewrite !top_nil, F1 in Htop.
  assert (A4 : chain cols gap elems X Y W B St False f1 [] /\ @lies E O S P f1 [] [] (g_parts g1)) by (destruct act as [[| |]|]; try (split; assumption); destruct A3). clear A3 G3.
  destruct A4 as [Hc1 (_ & (_ & L2 & L3) & _)]. rewrite L3 in L2. cbn [skipn] in L2. rewrite Htop.
  pose proof (ow_col _ _ _ _ _ (chain_own _ _ _ _ _ _ _ _ _ _ _ Hc1)) as Hcol. assert (Hcs : f_cols f1 = cols) by (cbn [chain] in Hc1; apply Hc1).
  split.
  - intros p Hi H0. destruct (proj1 (Forall_forall _ _) L2 p Hi) as [Hz|(k & K1 & K2 & K3 & K4 & K5 & K6)]; [lra|]. cbn [lim] in K5. destruct (1 <? f_cols f1) eqn:E1.
    + lra.
    + apply Nat.ltb_ge in E1. assert (k = f_column f1) by lia. specialize (K6 H). lra.
  - intros Hone Hones. rewrite Hcs, Hone. cbn [Nat.ltb Nat.leb].
    destruct (run_part_one start crun save restore fuel f [] (mkG [] [] (c_heap c) (c_tries c)) act f1 [] g1 ltac:(rewrite F3; exact Hones) ltac:(repeat split; congruence) (Forall_nil _) Er) as (_ & _ & (new & R1 & R2) & _).
    cbn [g_parts app] in R1. rewrite F2 in R2. subst new. destruct R2 as [R2|(p & P1 & P2)]; [left; lra|right]. exists p. split; [exact P1|]. lra.
Qed.
Lemma runs_height fuel : forall rs c c' outs,
  Forall (room elems cols gap St) rs -> rests elems cols gap St c -> runs start crun save restore fuel rs c = Done (c', outs) ->
  Forall2 (fun r o => (forall p, In p (o_parts o) -> (0 < p_height p)%Q -> (rc_y r - o_height o <= p_bot p)%Q) /\
    (cols = 1 -> ones elems -> (o_height o == 0)%Q \/ exists p, In p (o_parts o) /\ (rc_y r - o_height o == p_bot p)%Q)) (firstn (length outs) rs) outs.
Proof.
  induction rs as [|r rs IH]; intros c c' outs Hr Hc; cbn [runs].
  - intros H. injection H as <- <-. constructor.
  - destruct (c_finished c); [intros H; injection H as <- <-; constructor|].
    destruct (run start crun save restore fuel (rc_x r) (rc_y r) (rc_w r) (rc_h r) c) as [[c1 o]| |] eqn:E1; cbn [abind]; try discriminate.
    destruct (runs start crun save restore fuel rs c1) as [[c2 os]| |] eqn:E2; cbn [abind]; try discriminate.
    intros H. injection H as <- <-. inversion Hr as [|r0 rs0 Hr1 Hr2]; subst.
    destruct (run_inside start crun save restore fits elems cols gap St False St_ok els_ok ltac:(tauto) fuel r c c1 o Hr1 Hc E1) as [_ H2].
    cbn [length firstn]. constructor; [exact (run_height fuel r c c1 o Hr1 Hc E1)|exact (IH c1 c2 os Hr2 H2 E2)].
Qed.
End Runs.

(** Only boxes of one column, at any depth. *)
Inductive single {E} : list (@elem E) -> Prop :=
| single_all l : (forall s n gap l', In (Child s n gap l') l -> n = 1) -> (forall s n gap l', In (Child s n gap l') l -> single l') -> single l.
Lemma single_ones {E} (l : list (@elem E)) : single l -> ones l.
Proof. intros H. induction H as [l H1 _ H2]. constructor; assumption. Qed.

(** What a content shows lies above the bottom that follows from the height it
    reports; no box of several columns is inside another one, margins at the
    sides and gaps are not negative.  With columns nowhere, the height is not
    larger than that: something ends exactly there, or it is zero. *)
Theorem C73_height_partial {E O S P L : Type} (start : E -> res O) (crun : O -> Q -> Q -> Q -> Q -> res (O * Q * bool * list P * list L)) (save : O -> S) (restore : O -> S -> O)
  elems cols gap (St : style -> Prop) fuel rs c outs :
  (forall o x y w h o' ht fin ps ls, crun o x y w h = Ok (o', ht, fin, ps, ls) -> (0 < ht)%Q -> (ht <= h)%Q) ->
  (forall s, St s -> (0 <= s_mt s /\ 0 <= s_mb s /\ 0 <= s_ml s /\ 0 <= s_mr s /\ match s_min s with Some m => 0 < m | None => True end)%Q) ->
  okels St False elems -> simple (2 <=? cols) elems -> (forall g, gap = Some g -> (0 <= g)%Q) -> Forall (room elems cols gap St) rs ->
  runs start crun save restore fuel rs (fresh_content elems cols gap) = Done (c, outs) ->
  Forall2 (fun r o =>
    (forall p l1 r1 t1 b1, In p (o_parts o) -> box_of p = (l1, r1, t1, b1) -> (b1 < t1)%Q -> (rc_y r - o_height o <= b1)%Q) /\
    (cols = 1 -> single elems -> (o_height o == 0)%Q \/ exists p l1 r1 t1 b1, In p (o_parts o) /\ box_of p = (l1, r1, t1, b1) /\ (rc_y r - o_height o == b1)%Q))
    (firstn (length outs) rs) outs.
Proof.
  intros H1 H2 H3 H4 H5 H6 H7.
  assert (H0 : rests elems cols gap St (@fresh_content E O S elems cols gap)) by repeat split.
  assert (Hgap : gap_ok gap) by (destruct gap; [apply H5; reflexivity|exact I]).
  pose proof (runs_height start crun save restore H1 elems cols gap St ltac:(intros s Hs; destruct (H2 s Hs) as (? & ? & ? & ? & ?); auto) ltac:(intros s Hs; destruct (H2 s Hs) as (? & ? & ? & ? & ?); auto)
    H3 (simple_flats _ _ H4) Hgap fuel rs _ _ _ H6 H0 H7) as H.
  revert H. apply Forall2_mono_in. intros r o [Ha Hb]. split.
  - intros p l1 r1 t1 b1 Hi Hp Hh. specialize (Ha p Hi). destruct p as [s x y w h be af ht fin parts|s x y w h iw ih]; unfold p_bot in Ha; cbn [box_of p_height p_top] in *; injection Hp as <- <- <- <-; [apply Ha; lra|].
    specialize (Ha ltac:(lra)). lra.
  - intros K1 K2. destruct (Hb K1 (single_ones _ K2)) as [K|(p & P1 & P2)]; [left; exact K|right].
    exists p. destruct p as [s x y w h be af ht fin parts|s x y w h iw ih]; unfold p_bot in P2; cbn [box_of p_height p_top] in *; do 4 eexists; (split; [exact P1|]); (split; [reflexivity|]); lra.
Qed.
Print Assumptions C73_height_partial.

(** The content of [C69_applies] has its last paragraph of two lines at 404; and
    one without columns. *)
Definition ex_tall : list (@elem (nat * nat)) := [Leaf ex_style (1, 2); Child ex_style 1 None ex_apart3; Leaf ex_style (2, 3)].
Example C73_applies :
  single ex_tall /\ simple (2 <=? 1) ex_tall /\ okels (fun s => s = ex_style) False ex_tall /\
  match ex_runs3 60 [mkRect 10 500 220 200] (fresh_content ex_apart 1 None), ex_runs3 60 [mkRect 10 500 220 75; mkRect 10 500 220 200] (fresh_content ex_tall 1 None) with
  | Done (c, outs), Done (c', outs') =>
      c_finished c = true /\ map (fun o => Qred (o_height o)) outs = [925 # 8]%Q /\
      c_finished c' = true /\ map (fun o => Qred (o_height o)) outs' = [55; 90]%Q /\ ex_spots outs' = [[(10, 500, 2); (10, 475, 3)]; [(10, 500, 0); (10, 440, 3)]]%Z
  | _, _ => False
  end.
Proof.
  split; [|split; [|split]].
  - repeat (constructor; intros; repeat match goal with H : In _ _ |- _ => destruct H as [H|H]; try discriminate H; try contradiction end; match goal with H : Child _ _ _ _ = _ |- _ => injection H as <- <- <- <- end; try reflexivity).
  - repeat (constructor; intros; repeat match goal with H : In _ _ |- _ => destruct H as [H|H]; try discriminate H; try contradiction end; match goal with H : Child _ _ _ _ = _ |- _ => injection H as <- <- <- <- end; try discriminate; try reflexivity; try lra).
  - cbn; repeat split; intros [].
  - vm_compute. repeat split; reflexivity.
Qed.

(** With an image that waits in columns inside columns, a content shows
    something below the height it reports: the element of [C69_refuted] that
    comes after is put there. *)
Definition ex_under (r : @ans (@content (nat * nat) (nat * nat) nat * list (@output (nat * nat) (nat * nat) nat))) : bool :=
  match r with Done (_, [o]) => existsb (fun p => let '(_, _, t, b) := box_of p in (qlt b t && qlt b (500 - o_height o))%bool) (o_parts o) | _ => false end.
Theorem C73_height_refuted :
  exists c o p l1 r1 t1 b1, ex_runs3 150 [mkRect 10 500 420 300] (fresh_content (firstn 1 ex_lap) 1 (Some 20%Q)) = Done (c, [o]) /\
    In p (o_parts o) /\ box_of p = (l1, r1, t1, b1) /\ (b1 < t1)%Q /\ (b1 < 500 - o_height o)%Q.
Proof.
  assert (H : ex_under (ex_runs3 150 [mkRect 10 500 420 300] (fresh_content (firstn 1 ex_lap) 1 (Some 20%Q))) = true) by (vm_compute; reflexivity).
  destruct (ex_runs3 150 [mkRect 10 500 420 300] (fresh_content (firstn 1 ex_lap) 1 (Some 20%Q))) as [[c [|o [|o' l]]]| |]; try discriminate H.
  cbn [ex_under] in H. apply existsb_exists in H as (p & Hp & H). destruct (box_of p) as [[[l1 r1] t1] b1] eqn:Ep. apply andb_prop in H as [H1 H2]. apply qlt_spec in H1, H2.
  exists c, o, p, l1, r1, t1, b1. auto.
Qed.
Print Assumptions C73_height_refuted.
