(** Images in the cells of tables (C49). *)
From Coq Require Import QArith ZArith Lia Lqa.
From Verif Require Import Py Table TableProofs TableGeom TableSpan TableChain PTable.
Open Scope list_scope.
Open Scope nat_scope.

Section Cells.
(** Cells with other contents, or with an image of a width and a height. *)
Context {E W P F B : Type}.
Variable start : E -> res W.
Variable crun : W -> Q -> Q -> Q -> Q -> res (W * Q * bool * list P).
Variable b_eqb : B -> B -> bool.
(** An image that was drawn: position, size, and the size of the image. *)
Record drawn := mkDrawn { dr_x : Q; dr_y : Q; dr_w : Q; dr_h : Q; dr_iw : Q; dr_ih : Q }.
Definition startI (e : E + Q * Q) : res (W + Q * Q) :=
  match e with inl e => do w <- start e; Ok (inl w) | inr im => Ok (inr im) end.
(** table.py 874-915 [process_image]. *)
Definition cell_image (im : Q * Q) (x y w h : Q) : res ((W + Q * Q) * Q * bool * list (P + drawn)) :=
  let '(iw, ih) := im in
  if Qeq_bool iw 0 then Err ZeroDivisionError
  else
    let height := (w * ih / iw)%Q in
    if qlt height h then Ok (inr im, height, true, [inr (mkDrawn x (y - height)%Q w height iw ih)])
    else Ok (inr im, 0%Q, false, []).
Definition crunI (o : W + Q * Q) (x y w h : Q) : res ((W + Q * Q) * Q * bool * list (P + drawn)) :=
  match o with
  | inl o => do (o', ht, fin, ps) <- crun o x y w h; Ok (inl o', ht, fin, map inl ps)
  | inr im => cell_image im x y w h
  end.

(** In every history of a table, an image is drawn in its cell, as wide as the
    cell allows, in proportion and below the room that is left; or it is not
    drawn, and stays in the cell (the next content of the column is the same
    image, by [C43_partial]). *)
Theorem C49_cells (t : table (E + Q * Q) F B) rects l : 0 < t_cols t -> runs startI crunI b_eqb t fresh_table rects = Ok l ->
  forall e iw ih, In e (all_events l) -> e_in e = inr (iw, ih) -> (0 < iw)%Q ->
    (e_fin e = true /\ exists d, e_parts e = [inr d] /\ dr_iw d = iw /\ dr_ih d = ih /\ dr_w d = e_w e /\ dr_x d = e_x e /\
       (dr_w d * ih == dr_h d * iw)%Q /\ (dr_y d + dr_h d == e_y e)%Q /\ (dr_h d < e_h e)%Q /\ e_height e = dr_h d) \/
    (e_fin e = false /\ e_parts e = [] /\ e_out e = inr (iw, ih) /\ (e_h e * iw <= e_w e * ih)%Q).
Proof.
  intros Hc H e iw ih He Hin Hiw. destruct (proj1 (C43_partial startI crunI b_eqb t rects l Hc H) e He) as (_ & Hr & _).
  rewrite Hin in Hr. cbn [crunI cell_image] in Hr. destruct (Qeq_bool iw 0) eqn:E0; [apply Qeq_bool_eq in E0; lra|].
  set (ht := (e_w e * ih / iw)%Q) in *. assert (Hh : (ht * iw == e_w e * ih)%Q) by (unfold ht; field; lra).
  unfold qlt in Hr. destruct (Qle_bool (e_h e) ht) eqn:E1; cbn [negb] in Hr; injection Hr as H1 H2 H3 H4.
  - right. apply Qle_bool_iff in E1. rewrite <- H1, <- H3, <- H4. repeat split. rewrite <- Hh. apply Qmult_le_compat_r; lra.
  - left. assert (E2 : (ht < e_h e)%Q). { apply Qnot_le_lt. intros K. apply Qle_bool_iff in K. congruence. }
    split; [auto|]. eexists. rewrite <- H4. split; [reflexivity|]. cbn [dr_iw dr_ih dr_w dr_x dr_y dr_h]. repeat split; auto; lra.
Qed.
End Cells.
Print Assumptions C49_cells.

(** A table with text and an image of 60 by 60, in a first rectangle that is too
    low for it. *)
Definition ic (e : Q + Q * Q) : @cell (Q + Q * Q) unit := mkCell 1 1 ex_style e.
Definition ti (rows : list (list (@cell (Q + Q * Q) unit))) (cols : nat) : table (Q + Q * Q) unit unit :=
  mkTable rows cols (repeat (1 / inject_Z (Z.of_nat cols))%Q cols) (ic (inl 0%Q)) (fun _ _ => ex_border) (fun _ _ => ex_border) (fun _ _ => None).
Definition runsI := runs (F := unit) (startI ex_start) (crunI (W:=Q) ex_run) ex_eqb.
Example C49_cells_applies : exists l, runsI (ti [[ic (inl 10%Q); ic (inr (60, 60)%Q)]; [ic (inl 5%Q); ic (inl 5%Q)]] 2) fresh_table [(0, 100, 100, 50); (0, 100, 100, 80)]%Q = Ok l /\
  t_finished (last_state fresh_table l) = true /\
  map (fun e => (e_row e, e_col e, e_fin e)) (all_events l) = [(0, 0, true); (0, 1, false); (0, 0, true); (0, 1, true); (1, 0, true); (1, 1, true)] /\
  exists e, nth_error (all_events l) 3 = Some e /\ e_in e = inr (60, 60)%Q /\ (e_height e == 50)%Q.
Proof. eexists. split; [vm_compute; reflexivity|]. split; [reflexivity|]. split; [reflexivity|]. eexists. split; [reflexivity|]. split; reflexivity. Qed.

(** Nothing counts the tries in a table: an image that is too high never raises,
    however many rectangles the table gets, and the table never finishes. *)
Lemma last_open {W P F B E} (s0 : @tstate W F) (a : tstate * @output E W P F B) l : t_finished (fst a) = false -> (forall s, t_finished s = false -> t_finished (last_state s l) = false) -> t_finished (last_state s0 (a :: l)) = false.
Proof. intros Ha Hl. unfold last_state. cbn [map]. rewrite TableChain.last_cons. exact (Hl _ Ha). Qed.
Lemma runs_forever {E W P F B} start crun b_eqb (t : @table E F B) x y w h s0 s1 o1 s2 o2 o3 :
  @run E W P F B start crun b_eqb t x y w h s0 = Ok (s1, o1) -> run start crun b_eqb t x y w h s1 = Ok (s2, o2) -> run start crun b_eqb t x y w h s2 = Ok (s2, o3) ->
  t_finished s0 = false -> t_finished s1 = false -> t_finished s2 = false ->
  forall n, exists l, runs start crun b_eqb t s0 (repeat (x, y, w, h) n) = Ok l /\ List.length l = n /\ t_finished (last_state s0 l) = false.
Proof.
  intros E1 E2 E3 F0 F1 F2.
  assert (Hn : forall n, exists l, runs start crun b_eqb t s2 (repeat (x, y, w, h) n) = Ok l /\ List.length l = n /\ forall s0, t_finished s0 = false -> t_finished (last_state s0 l) = false).
  { induction n as [|n (l & I1 & I2 & I3)]; [exists []; auto|]. exists ((s2, o3) :: l). cbn [repeat runs]. rewrite E3. cbn [bind]. rewrite F2, I1. cbn [bind]. split; [reflexivity|]. split; [cbn; lia|]. intros s _. apply last_open; auto. }
  intros [|[|n]].
  - exists []. auto.
  - exists [(s1, o1)]. cbn [repeat runs]. rewrite E1. cbn [bind]. rewrite F1. cbn [bind]. auto.
  - destruct (Hn n) as (l & I1 & I2 & I3). exists ((s1, o1) :: (s2, o2) :: l). cbn [repeat runs]. rewrite E1. cbn [bind]. rewrite F1, E2. cbn [bind]. rewrite F2, I1. cbn [bind]. split; [reflexivity|]. split; [cbn; lia|]. apply last_open; [exact F1|]. intros s _. apply last_open; auto.
Qed.
Definition tall := ti [[ic (inl 10%Q); ic (inr (60, 60)%Q)]] 2.
Theorem C49_cells_refuted : forall n, exists l,
  runsI tall fresh_table (repeat (0, 100, 100, 50)%Q n) = Ok l /\ List.length l = n /\ t_finished (last_state fresh_table l) = false.
Proof.
  unfold runsI. eapply runs_forever.
  - vm_compute. reflexivity.
  - vm_compute. reflexivity.
  - vm_compute. reflexivity.
  - reflexivity.
  - reflexivity.
  - reflexivity.
Qed.
Print Assumptions C49_cells_refuted.
