(** Contents of columns: nothing is put below the bottom (C48). *)
From Coq Require Import QArith Qround ZArith Lia Lqa List.
From Verif Require Import Py Table Content ContentFlow ContentGeom ContentState ContentBalance ContentTame PContent PState.
Import ListNotations.
Open Scope list_scope.
Open Scope nat_scope.

Section Bottom.
Context {E O S P L K : Type}.
Variable start : E -> res O.
Variable crun : O -> Q -> Q -> Q -> Q -> res (O * Q * bool * list P * list L).
Variable save : O -> S.
Variable restore : O -> S -> O.
Variable kind : O -> K.
Hypothesis fits : forall o x y w h o' ht fin ps ls, crun o x y w h = Ok (o', ht, fin, ps, ls) -> (0 < ht)%Q -> (ht <= h)%Q.
Hypothesis kind_run : forall o x y w h o' ht fin ps ls, crun o x y w h = Ok (o', ht, fin, ps, ls) -> kind o' = kind o.
Hypothesis kind_restore : forall o sv, kind (restore o sv) = kind o.
Hypothesis same_restore : forall o o' sv, kind o = kind o' -> restore o sv = restore o' sv.
Hypothesis run_same : forall o x y y' w h h' o1 ht fin ps ls o1' ht' fin' ps' ls', (y' == y)%Q -> (h' == h)%Q ->
  crun o x y w h = Ok (o1, ht, fin, ps, ls) -> crun o x y' w h' = Ok (o1', ht', fin', ps', ls') -> (ht' == ht)%Q /\ fin' = fin /\ save o1' = save o1.
Variables (elems : list (@elem E)) (cols : nat) (gap : option Q) (St : style -> Prop).
Hypothesis St_ok : forall s, St s -> (0 <= s_mt s /\ 0 <= s_mb s /\ match s_min s with Some m => 0 < m | None => True end)%Q.
Hypothesis els_ok : okels St False elems.
Hypothesis els_shape : shape cols elems.

Definition keeps (c : @content E O S) : Prop :=
  match c_part c with
  | None => True
  | Some f => f_partial f = None /\ vd kind (c_heap c) (f_sdelayed f) /\ vm kind (c_heap c) (f_memory f)
  end.
Lemma run_bottom fuel r c c' o :
  room elems cols gap St r -> rests elems cols gap St c -> keeps c -> run start crun save restore fuel (rc_x r) (rc_y r) (rc_w r) (rc_h r) c = Done (c', o) ->
  Forall (low (rc_y r - rc_h r)) (o_parts o) /\ keeps c' /\ ext kind (c_heap c) (c_heap c').
Proof.
  intros Hroom (He & Hn & Hg & Hp) Hk. unfold run.
  set (X := rc_x r) in *. set (Y := rc_y r) in *. set (W := rc_w r) in *. set (B := (Y - rc_h r)%Q).
  match goal with |- abind ?e _ = _ -> _ => destruct e as [f| |] eqn:Ef end; cbn [abind]; try discriminate.
  assert (Hc : chain cols gap elems X Y W B St False f [] /\ begins f /\ calm f /\ f_partial f = None /\ shape (f_cols f) (f_elems f) /\ vd kind (c_heap c) (f_sdelayed f) /\ vm kind (c_heap c) (f_memory f) /\ f_maxy f = B).
  { assert (Hset : forall f0, f_elems f0 = elems -> f_cols f0 = cols -> f_gapspec f0 = gap -> Forall (okd St) (f_sdelayed f0) -> okm St (f_memory f0) -> f_partial f0 = None -> vd kind (c_heap c) (f_sdelayed f0) -> vm kind (c_heap c) (f_memory f0) ->
      setup X W Y B 0 f0 = Done f -> chain cols gap elems X Y W B St False f [] /\ begins f /\ calm f /\ f_partial f = None /\ shape (f_cols f) (f_elems f) /\ vd kind (c_heap c) (f_sdelayed f) /\ vm kind (c_heap c) (f_memory f) /\ f_maxy f = B).
    { intros f0 A1 A2 A3 A4 A5 A6 A7 A8 H. unfold setup in H. destruct (f_cols f0) as [|n] eqn:En; [discriminate|]. injection H as <-. split; [|].
      2:{ split; [repeat split|]. split; [repeat split|]. split; [exact A6|]. cbn [f_cols f_elems]. rewrite A1, <- En, En, A2. auto. }
      cbn [chain]. split.
      - constructor; cbn [f_column f_cols f_lastbottom f_y f_miny f_elems f_delayed f_sdelayed f_memory f_partial f_maxy f_resetting f_will]; try assumption; try lra; try lia; [rewrite A1; exact els_ok|rewrite A6; exact I].
      - unfold at_root. cbn [f_elems f_cols f_gapspec f_minx f_gap f_colw]. rewrite A3. split; [exact A1|]. split; [exact A2|]. split; [reflexivity|]. split; [reflexivity|]. split; [reflexivity|]. rewrite <- A2. reflexivity. }
    unfold keeps in Hk. destruct (c_part c) as [f0|].
    - destruct Hp as (A1 & A2 & A3 & A4 & A5 & A6). destruct Hk as (K1 & K2 & K3). exact (Hset f0 A1 A2 A3 A4 A5 K1 K2 K3 Ef).
    - unfold new_part in Ef. rewrite He, Hn, Hg in Ef. refine (Hset _ _ _ _ _ _ _ _ _ Ef); try reflexivity; cbn; constructor. }
  destruct Hc as (C1 & C2 & C3 & C4 & C5 & C6 & C7 & C8).
  destruct (run_part start crun save restore fuel f [] (mkG [] [] (c_heap c) (c_tries c))) as [[act [[f1 anc1] g1]]| |] eqn:Er; cbn [abind]; try discriminate.
  intros H. injection H as <- <-. cbn [o_parts].
  assert (Hs : ends kind f (mkG [] [] (c_heap c) (c_tries c)) [] act f1 anc1 g1).
  { eapply (run_part_safe start crun save restore kind fits kind_run kind_restore same_restore run_same cols gap elems X Y W B St St_ok Hroom fuel f []); eauto; try (constructor; fail). }
  destruct Hs as (S1 & S2 & _ & _ & S5 & S6 & S7 & _). rewrite C8 in S1. split; [exact S1|]. split; [|exact S2]. unfold keeps. cbn [c_part c_heap]. split; [congruence|]. split; assumption.
Qed.
Lemma runs_bottom fuel : forall rs c c' outs,
  Forall (room elems cols gap St) rs -> rests elems cols gap St c -> keeps c -> runs start crun save restore fuel rs c = Done (c', outs) ->
  Forall2 (fun r o => Forall (fun p => low (rc_y r - rc_h r) p /\ within elems cols gap St False r p) (o_parts o)) (firstn (length outs) rs) outs.
Proof.
  induction rs as [|r rs IH]; intros c c' outs Hr Hc Hk; cbn [runs].
  - intros H. injection H as <- <-. constructor.
  - destruct (c_finished c); [intros H; injection H as <- <-; constructor|].
    destruct (run start crun save restore fuel (rc_x r) (rc_y r) (rc_w r) (rc_h r) c) as [[c1 o]| |] eqn:E1; cbn [abind]; try discriminate.
    destruct (runs start crun save restore fuel rs c1) as [[c2 os]| |] eqn:E2; cbn [abind]; try discriminate.
    intros H. injection H as <- <-. inversion Hr as [|r0 rs0 Hr1 Hr2]; subst.
    destruct (run_inside start crun save restore fits elems cols gap St False St_ok els_ok ltac:(tauto) fuel r c c1 o Hr1 Hc E1) as [H1 H2]. destruct (run_bottom fuel r c c1 o Hr1 Hc Hk E1) as (H3 & H4 & _).
    cbn [length firstn]. constructor; [|exact (IH c1 c2 os Hr2 H2 H4 E2)]. apply Forall_forall. intros p Hi. split; [exact (proj1 (Forall_forall _ _) H3 p Hi)|exact (proj1 (Forall_forall _ _) H1 p Hi)].
Qed.
End Bottom.

(** In a content of one column, with boxes of one column inside at any depth and
    boxes of several columns in them, or in a content of several columns
    without boxes, everything lies between the top and the bottom of its
    rectangle: trying other bottoms for the columns does not end below.  The
    objects go on from what was saved, and their size does not depend on how
    a number is written. *)
Theorem C48_bottom_partial {E O S P L K : Type} (start : E -> res O) (crun : O -> Q -> Q -> Q -> Q -> res (O * Q * bool * list P * list L)) (save : O -> S) (restore : O -> S -> O) (kind : O -> K)
  elems cols gap (St : style -> Prop) fuel rs c outs :
  (forall o x y w h o' ht fin ps ls, crun o x y w h = Ok (o', ht, fin, ps, ls) -> (0 < ht)%Q -> (ht <= h)%Q) ->
  (forall o x y w h o' ht fin ps ls, crun o x y w h = Ok (o', ht, fin, ps, ls) -> kind o' = kind o) ->
  (forall o sv, kind (restore o sv) = kind o) -> (forall o o' sv, kind o = kind o' -> restore o sv = restore o' sv) ->
  (forall o x y y' w h h' o1 ht fin ps ls o1' ht' fin' ps' ls', (y' == y)%Q -> (h' == h)%Q ->
    crun o x y w h = Ok (o1, ht, fin, ps, ls) -> crun o x y' w h' = Ok (o1', ht', fin', ps', ls') -> (ht' == ht)%Q /\ fin' = fin /\ save o1' = save o1) ->
  (forall s, St s -> (0 <= s_mt s /\ 0 <= s_mb s /\ match s_min s with Some m => 0 < m | None => True end)%Q) ->
  okels St False elems -> shape cols elems -> Forall (room elems cols gap St) rs ->
  runs start crun save restore fuel rs (fresh_content elems cols gap) = Done (c, outs) ->
  Forall2 (fun r o => forall p, In p (o_parts o) -> (0 < p_height p)%Q -> (rc_y r - rc_h r <= p_top p - p_height p)%Q /\ (p_top p <= rc_y r)%Q) (firstn (length outs) rs) outs.
Proof.
  intros H1 H2 H3 H4 H5 H6 H7 H8 H9 H10.
  assert (H0 : rests elems cols gap St (@fresh_content E O S elems cols gap)) by repeat split.
  pose proof (runs_bottom start crun save restore kind H1 H2 H3 H4 H5 elems cols gap St H6 H7 H8 fuel rs _ _ _ H9 H0 I H10) as H.
  revert H. apply Forall2_mono_in. intros r o H p Hp Hh. destruct (proj1 (Forall_forall _ _) H p Hp) as [Hl Hi]. split; [exact (Hl Hh)|]. unfold within, inside in Hi.
  destruct p as [s x y w h b a ht fin parts|s x y w h iw ih]; destruct Hi as (l & left & cw & _ & _ & Hi); cbn [p_top p_height] in *.
  - apply Hi.
  - apply Hi.
Qed.
Print Assumptions C48_bottom_partial.

(** One column, with a box of one column inside, that has a box of two columns,
    in a low rectangle and another one. *)
Definition ex_nest : list (@elem (nat * nat)) :=
  [Leaf ex_style (1, 2); Child ex_style 1 None [Leaf ex_style (2, 1); Child ex_style 2 (Some 20%Q) [Leaf ex_style (3, 9); Image ex_style 0 80 20]; Leaf ex_style (4, 2)]].
Lemma ex_kind o x y w h o' ht fin ps ls : ex_crun o x y w h = Ok (o', ht, fin, ps, ls) -> fst o' = fst o.
Proof. unfold ex_crun. intros H. injection H as <- _ _ _ _. reflexivity. Qed.
Lemma ex_same o x y y' w h h' o1 ht fin ps ls o1' ht' fin' ps' ls' : (y' == y)%Q -> (h' == h)%Q ->
  ex_crun o x y w h = Ok (o1, ht, fin, ps, ls) -> ex_crun o x y' w h' = Ok (o1', ht', fin', ps', ls') -> (ht' == ht)%Q /\ fin' = fin /\ ex_save o1' = ex_save o1.
Proof.
  intros _ Hh. unfold ex_crun. assert (Hf : Qfloor (h' / 10) = Qfloor (h / 10)) by (apply Qfloor_comp; rewrite Hh; reflexivity). rewrite Hf.
  intros H H'. injection H as <- <- <- _ _. injection H' as <- <- <- _ _. repeat split; reflexivity.
Qed.
Example C48_bottom_applies :
  (forall o x y w h o' ht fin ps ls, ex_crun o x y w h = Ok (o', ht, fin, ps, ls) -> fst o' = fst o) /\ (forall o sv, fst (ex_back o sv) = fst o) /\ (forall o o' sv, fst o = fst o' -> ex_back o sv = ex_back o' sv) /\
  okels (fun s => s = ex_style) False ex_nest /\ shape 1 ex_nest /\ Forall (room ex_nest 1 None (fun s => s = ex_style)) [mkRect 10 500 220 60; mkRect 10 500 220 100] /\
  match ex_runs3 60 [mkRect 10 500 220 60; mkRect 10 500 220 100] (fresh_content ex_nest 1 None) with
  | Done (c, outs) => c_finished c = true /\ ex_spots outs = [[(10, 500, 2); (10, 475, 1); (10, 460, 2); (130, 460, 2)]; [(10, 500, 4); (130, 500, 1); (130, 485, 0); (10, 454, 2)]]%Z
  | _ => False
  end.
Proof.
  split; [exact ex_kind|]. split; [reflexivity|]. split; [intros [o1 o2] [p1 p2] sv; cbn [fst]; intros ->; reflexivity|].
  split; [cbn; repeat split; intros []|]. split; [split; [|congruence]; intros _; cbn; repeat split; try congruence; repeat constructor|]. split.
  - assert (Hw : forall r l x w, rc_w r = 220%Q -> strip 1 None ex_nest (rc_x r) (rc_w r) l x w ->
      (l = ex_nest /\ (w == 220)%Q) \/ (l = [Leaf ex_style (2, 1); Child ex_style 2 (Some 20%Q) [Leaf ex_style (3, 9); Image ex_style 0 80 20]; Leaf ex_style (4, 2)] /\ (w == 220)%Q) \/ (l = [Leaf ex_style (3, 9); Image ex_style 0 80 20] /\ (w == 100)%Q)).
    { intros r l x w Hr H. induction H as [k x Hk Hx|l x w s n gap l' k x' H IH Hin Hk Hx].
      - left. split; [reflexivity|]. rewrite Hr. reflexivity.
      - destruct IH as [[-> Hw]|[[-> Hw]|[-> Hw]]]; [| |destruct Hin as [H1|[H1|[]]]; discriminate].
        + destruct Hin as [H1|[H1|[]]]; try discriminate. injection H1 as <- <- <- <-. right. left. split; [reflexivity|]. unfold col_of. change (qn 1) with 1%Q. assert (K : ((w - gap_of None w * (1 - 1)) / 1 == w)%Q) by field. rewrite K. exact Hw.
        + destruct Hin as [H1|[H1|[H1|[]]]]; try discriminate. injection H1 as <- <- <- <-. right. right. split; [reflexivity|]. unfold col_of, gap_of. rewrite Hw. reflexivity. }
    apply Forall_cons; [|apply Forall_cons; [|apply Forall_nil]]; intros l x w s Hs ->; cbn [ex_style s_ml s_mr]; assert (K : (w == 220)%Q \/ (w == 100)%Q) by (edestruct Hw as [[_ K]|[[_ K]|[_ K]]]; [|exact Hs| | |]; [reflexivity|left; exact K|left; exact K|right; exact K]); destruct K; lra.
  - vm_compute. split; reflexivity.
Qed.

(** The claim fails for a content of two columns with an image that waits for
    the next column and a box after it: when the columns are tried with another
    bottom, what was kept about the box is gone, and it is shown lower than the
    bottom.  (Both in a single rectangle, of which the bottom is at 350.) *)
Definition ex_wait : style := mkStyle 0 0 3 5 None false PFlow.
Definition ex_low : list (@elem (nat * nat)) := [Image ex_wait 1 50 40; Child ex_style 2 (Some 10%Q) [Leaf ex_style (3, 1)]].
Definition ex_below (r : @ans (@content (nat * nat) (nat * nat) nat * list (@output (nat * nat) (nat * nat) nat))) (b : Q) : bool :=
  match r with Done (_, [o]) => existsb (fun p => (qlt 0 (p_height p) && qlt (p_top p - p_height p) b)%bool) (o_parts o) | _ => false end.
Theorem C48_bottom_refuted :
  exists c o p, ex_runs3 100 [mkRect 10 500 420 150] (fresh_content ex_low 2 (Some 20%Q)) = Done (c, [o]) /\
    In p (o_parts o) /\ (0 < p_height p)%Q /\ (p_top p - p_height p < 500 - 150)%Q.
Proof.
  assert (H : ex_below (ex_runs3 100 [mkRect 10 500 420 150] (fresh_content ex_low 2 (Some 20%Q))) (500 - 150) = true) by (vm_compute; reflexivity).
  destruct (ex_runs3 100 [mkRect 10 500 420 150] (fresh_content ex_low 2 (Some 20%Q))) as [[c [|o [|o' l]]]| |]; try discriminate H.
  cbn [ex_below] in H. apply existsb_exists in H as (p & Hp & H). apply andb_prop in H as [H1 H2]. apply qlt_spec in H1, H2.
  exists c, o, p. auto.
Qed.
Print Assumptions C48_bottom_refuted.
