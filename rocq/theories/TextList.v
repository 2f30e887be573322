(** Where the lines of a paragraph with a list text are (C38, C60). *)
From Coq Require Import String QArith Lqa Lia.
From Verif Require Import Py PyStr Gfx TextLayout TextProofs TextWords TextOrder TextFit TextWidth TextEmit TextMarks.
Open Scope list_scope.

Section List.
Variable round3 : Q -> Q.
Variable text_w : fkey -> str -> Q.
Variable space_w : fkey -> Q.
Variable fref : fkey -> str.
Hypothesis round3_proper : forall x y, (x == y)%Q -> (round3 x == round3 y)%Q.
Notation run := (run round3 text_w space_w fref).
Notation compare := (compare round3 fref).
Notation emit_parts := (emit_parts round3 space_w fref).
Notation width_of := (width_of text_w space_w).
Notation parts_ok := (parts_ok text_w space_w).
Notation shows_part := (shows_part round3 space_w fref).
Notation own_state := (own_state round3 fref).
Notation follows := (follows round3 fref).
Notation line_start := (line_start text_w space_w).
Notation list_indent := (list_indent text_w).

Variable c : config.
Variable li : listinfo.
Hypothesis is_list : c_list c = Some li.
Variable y0 : style.
Hypothesis first_text : first_style (c_content c) = Some y0.
Notation x0 := (list_indent li y0).
Notation ls := (y_state (li_style li y0)).

(** ** The list text is set up with the first part *)

Definition only_others (p : nat) : Prop := forall q, (q < p)%nat -> nth_error (c_content c) q = Some COther.
Record at_start (d : dyn) : Prop := {
  as_done : d_listdone d = false; as_indent : d_lindent d = li_indent li; as_state : d_lstate d = None;
  as_first : d_first d = true; as_pos : only_others (d_lpart d) }.
Record known (d : dyn) : Prop := {
  kn_done : d_listdone d = true; kn_indent : d_lindent d = Some x0; kn_state : d_lstate d = Some ls }.
(** A paragraph before a run: its list text is known, or nothing was set. *)
Definition begins (d : dyn) : Prop := known d \/ (at_start d /\ d_lpart d = d_part d).

Lemma begins_fresh : begins (fresh c).
Proof. right. split; [|reflexivity]. constructor; try reflexivity; [cbn; now rewrite is_list|]. intros q Hq. cbn in Hq. lia. Qed.
Lemma at_start_core d d' : d_listdone d' = d_listdone d -> d_lindent d' = d_lindent d -> d_lstate d' = d_lstate d ->
  d_first d' = d_first d -> d_lpart d' = d_lpart d -> at_start d -> at_start d'.
Proof. intros H1 H2 H3 H4 H5 [A B C D E]. constructor; try congruence. rewrite H5. exact E. Qed.

Variable done : list chunk.
Variable P : dyn -> Prop.
Hypothesis P_core : forall d d', core d = core d' -> P d -> P d'.
Hypothesis P_line : forall d l b e x q f k, P d -> known d -> parts_ok (l_parts l) ->
  add_line_to_stream round3 space_w fref c d l b = Ok (e, x, q, f, k) -> P (accept c d l (mkMark b x q) e f k).

Definition start_G (p : nat) (d : dyn) (cur : line) : Prop :=
  at_start d /\ e_started (d_em d) = false /\ l_next cur = None /\ only_others p /\ d_part d = d_lpart d.

Lemma start_raises d l b : at_start d -> e_started (d_em d) = false ->
  exists er, add_line_to_stream round3 space_w fref c d l b = Err er.
Proof.
  intros [A B C D E] Hs. unfold add_line_to_stream, start_line. rewrite is_list, C, D, Hs. cbn [negb].
  destruct (d_lindent d); cbn [bind]; eexists; reflexivity.
Qed.
Lemma known_accept d l k e f g : known d -> known (accept c d l k e f g).
Proof. intros [A B C]. constructor; assumption. Qed.

Theorem list_run_ind : run_ind round3 text_w space_w fref c
  (fun p d cur => order_G text_w space_w c done p d cur /\ P d /\ (known d \/ start_G p d cur))
  (fun p i d cur => order_W text_w space_w c done p i d cur /\ P d /\ known d)
  (fun d => P d /\ (d_fin d = false -> begins d)).
Proof.
  pose proof (order_ind round3 text_w space_w fref c done) as O. constructor.
  - intros p d cur Hp (HG & HP & HK). split; [exact (ri_other _ _ _ _ _ _ _ _ O p d cur Hp HG)|]. split; [exact HP|].
    destruct HK as [HK|(A & B & C & D & E)]; [left; exact HK|right]. repeat split; try assumption; try apply A.
    intros q Hq. destruct (Nat.eq_dec q p) as [->|Hne]; [exact Hp|]. apply D. lia.
  - intros p d cur go d1 Hp (HG & HP & HK) El.
    pose proof (ri_br _ _ _ _ _ _ _ _ O p d cur go d1 Hp HG El) as H.
    apply add_current_line_spec in El. destruct go.
    + destruct El as (e & x & q & f & k & _ & Es & ->). split; [exact H|].
      destruct HK as [HK|(A & B & C & D & E)].
      * split; [|left; apply known_accept; destruct HK; constructor; assumption]. apply P_line with (4 := Es).
        -- apply (P_core d); [reflexivity|exact HP].
        -- destruct HK; constructor; assumption.
        -- apply (flush_ok text_w space_w). apply HG.
      * exfalso. destruct (start_raises (set_added d (S p) 0) (flush cur true) true) as [er Er]; [apply (at_start_core d); try reflexivity; exact A|exact B|]. congruence.
    + destruct El as [_ ->]. split; [apply (P_core d); [reflexivity|exact HP]|]. intros _.
      destruct HK as [[A B C]|(A & B & C & D & E)]; [left; constructor; assumption|right]. split; [|reflexivity].
      apply (at_start_core d); try reflexivity. exact A.
  - intros p d cur t y ids d1 cur1 Hp (HG & HP & HK) Eb. split; [exact (ri_text _ _ _ _ _ _ _ _ O p d cur t y ids d1 cur1 Hp HG Eb)|].
    split.
    + destruct (begin_part_spec _ _ _ _ _ _ _ _ Eb) as (Hs & _). refine (P_core d d1 _ HP). unfold core. destruct Hs. congruence.
    + unfold begin_part in Eb. rewrite is_list in Eb. destruct HK as [[A B C]|([A B C D E] & _ & Hn & Ho & _)]; rewrite A in Eb; cbn [bind] in Eb.
      * injection Eb as <- <-. constructor; assumption.
      * assert (Hy : y = y0) by (assert (H := first_style_skip _ _ Ho t y ids Hp); congruence). subst y.
        unfold setup_list, add_line_part in Eb. rewrite Hn in Eb. cbn [new_line l_next l_max with_next with_parts l_parts app bind] in Eb.
        cbn [lp_style new_part] in Eb. rewrite B in Eb. fold (list_indent li y0) in Eb. apply Ok_inj in Eb. apply pair_equal_spec in Eb as [<- <-].
        constructor; reflexivity.
  - intros p i d cur t y ids wd st cur1 Hp Hi (HW & HP & HK) E.
    pose proof (ri_word _ _ _ _ _ _ _ _ O p i d cur t y ids wd st cur1 Hp Hi HW E) as H.
    destruct st as [| | |nl]; try (split; [exact H|split; [exact HP|exact HK]]).
    + split; [exact H|]. split; [apply (P_core d); [reflexivity|exact HP]|]. destruct HK; constructor; assumption.
    + intros go d1 mx El Em. specialize (H go d1 mx El Em). apply add_current_line_spec in El. destruct go.
      * destruct El as (e & x & q & f & k & _ & Es & ->). split; [exact H|]. split; [|apply known_accept; exact HK].
        destruct HW as [Ho (t' & y' & ids' & Hp' & Hcp)]. rewrite Hp in Hp'. injection Hp' as <- <- <-.
        assert (Hg : good_word wd) by (apply (good_token t), (nth_error_In _ i), Hi).
        destruct (add_word_spec text_w space_w (c_align c) cur wd y ids (or_wf _ _ _ _ _ _ _ _ Ho) Hcp Hg)
          as (st' & cur1' & E' & _ & _ & H2). rewrite E in E'. injection E' as <- <-.
        destruct H2 as (Ew & Hst0 & Hwfn & Hcpn & Hpn & Hsn & Hfn & Hnx & _ & _ & Hot & (y1 & Hct) & Hok & _).
        apply P_line with (4 := Es); [exact HP|exact HK|]. rewrite (flush_nl cur1 nl _ Hnx Hpn). exact Hok.
      * destruct El as [_ ->]. split; [apply (P_core d); [reflexivity|exact HP]|]. intros _. left. destruct HK; constructor; assumption.
  - intros p i d cur t y ids Hp Hi (HW & HP & HK). split; [exact (ri_end _ _ _ _ _ _ _ _ O p i d cur t y ids Hp Hi HW)|].
    split; [apply (P_core d); [reflexivity|exact HP]|]. left. destruct HK; constructor; assumption.
  - intros p d cur go d1 Hp (HG & HP & HK) El. apply add_current_line_spec in El. destruct go.
    + destruct El as (e & x & q & f & k & _ & Es & ->). split; [|discriminate].
      apply (P_core (accept c d (flush cur true) (mkMark true x q) e f k)); [reflexivity|].
      destruct HK as [HK|(A & B & C & D & E)].
      * apply P_line with (4 := Es); [exact HP|exact HK|]. apply (flush_ok text_w space_w). apply HG.
      * exfalso. destruct (start_raises d (flush cur true) true A B) as [er Er]. congruence.
    + destruct El as [_ ->]. split; [apply (P_core d); [reflexivity|exact HP]|]. intros _.
      destruct HK as [[A B C]|(A & B & C & D & E)]; [left; constructor; assumption|right]. split; [|reflexivity].
      apply (at_start_core d); try reflexivity. exact A.
Qed.
Theorem list_run d w h d' : paused c done d -> begins d -> P (init_run d w h) -> run c d w h = Ok d' ->
  P d' /\ (d_fin d' = false -> begins d').
Proof.
  intros (Hf & [Hr Hp] & H1 & H2) Hb HP E.
  refine (run_induction round3 text_w space_w fref c _ _ _ list_run_ind d w h d' _ E). split; [|split].
  - split; [|exact Hp]. constructor; cbn [init_run d_lines d_lpart d_lword d_apart d_aword d_word d_fin d_part].
    + apply new_line_lwf.
    + cbn [lc flat_map app]. unfold chk, ctoks, otoks. cbn. rewrite app_nil_r. exact Hr.
    + rewrite H1, H2. cbn. rewrite app_nil_r. split; assumption.
    + discriminate.
    + exact Hf.
  - exact HP.
  - destruct Hb as [[A B C]|[A B]]; [left; constructor; assumption|right].
    split; [apply (at_start_core d); try reflexivity; exact A|]. repeat split; try reflexivity.
    + rewrite <- B. apply A.
    + symmetry. exact B.
Qed.
End List.

(** ** The invariant of a run *)

Section Inv.
Variable round3 : Q -> Q.
Variable text_w : fkey -> str -> Q.
Variable space_w : fkey -> Q.
Variable fref : fkey -> str.
Hypothesis round3_proper : forall x y, (x == y)%Q -> (round3 x == round3 y)%Q.
Notation run := (run round3 text_w space_w fref).
Notation compare := (compare round3 fref).
Notation emit_parts := (emit_parts round3 space_w fref).
Notation width_of := (width_of text_w space_w).
Notation parts_ok := (parts_ok text_w space_w).
Notation shows_part := (shows_part round3 space_w fref).
Notation own_state := (own_state round3 fref).
Notation follows := (follows round3 fref).
Notation line_start := (line_start text_w space_w).
Notation list_indent := (list_indent text_w).

Variable c : config.
Variable li : listinfo.
Hypothesis is_list : c_list c = Some li.
Variable y0 : style.
Notation x0 := (list_indent li y0).
Notation ls := (y_state (li_style li y0)).

(** How much lower the lines are than their heights say: a list text higher
    than the first line moves all of them. *)
Definition list_extra (first : bool) (lines : list line) : Q :=
  match lines with
  | l :: _ => if first && qgtb (t_size ls) (line_height l) then (t_size ls - line_height l)%Q else 0%Q
  | [] => 0%Q
  end.
Lemma list_extra_snoc first l0 ls0 l : list_extra first ((l0 :: ls0) ++ [l]) = list_extra first (l0 :: ls0).
Proof. reflexivity. Qed.

(** A line of a list paragraph: it starts after the room of the list text; a
    stretched line ends at the right edge. *)
Record list_line (first : bool) (w : Q) (l : line) (k : mark) : Prop := {
  ll_parts : parts_ok (l_parts l);
  ll_x : (k_x k == x0 + line_start c first w l)%Q;
  ll_plain : c_align c <> AJust \/ k_last k = true \/ (spaces_w (l_parts l) == 0)%Q -> k_factor k = 1%Q;
  ll_fill : c_align c = AJust -> k_last k = false -> ~ (spaces_w (l_parts l) == 0)%Q ->
    (k_x k + width_of (k_factor k) (ltoks (l_parts l)) == w)%Q }.
Fixpoint list_lines (first : bool) (w : Q) (lks : list (line * mark)) : Prop :=
  match lks with
  | [] => True
  | (l, k) :: r => list_line first w l k /\ list_lines false w r
  end.
Lemma list_lines_snoc w lks : forall first l k, list_lines first w (lks ++ [(l, k)]) <->
  list_lines first w lks /\ list_line (match lks with [] => first | _ => false end) w l k.
Proof.
  induction lks as [|[l0 k0] r IH]; intros first l k; cbn [app list_lines]; [tauto|]. rewrite IH. destruct r; tauto.
Qed.
Lemma list_lines_nth w lks : forall first i l k, list_lines first w lks -> nth_error lks i = Some (l, k) ->
  list_line (first && (i =? 0)%nat) w l k.
Proof.
  induction lks as [|[l0 k0] r IH]; intros first [|i] l k H Hi; cbn in Hi; try discriminate.
  - injection Hi as <- <-. cbn. rewrite andb_true_r. apply H.
  - destruct H as [_ H]. specialize (IH false i l k H Hi). cbn [andb] in IH. cbn [Nat.eqb]. rewrite andb_false_r. exact IH.
Qed.

Variable d0 : dyn.
Variable w : Q.
Variable r : reader.
Variables a b : Q.
Definition x_good : Prop := (c_indent c == 0)%Q \/ (is_rc (c_align c) = false /\ d_correct d0 = d_first d0).
(** The list text: shown with its own style at the left edge of the
    rectangle, on the first line. *)
Definition list_show (lines : list line) (p : paint) : Prop :=
  match p, lines with
  | PShow m font fill rise _ (px, py) s, l :: _ =>
      m = g_ctm (r_gs r) /\ own_state ls font fill rise /\ s = li_text li /\
      (px == a /\ py == b - round3 (list_extra true lines + line_height l))%Q
  | _, _ => False
  end.
Definition list_pre (lines : list line) (pre : list paint) : Prop :=
  match lines with
  | [] => pre = []
  | _ => if d_first d0 then exists p, pre = [p] /\ list_show lines p else pre = []
  end.
Notation extra d := (list_extra (d_first d0) (d_lines d)).
(** The move from the list text to the first line is not rounded. *)
Definition first_move (q : Q) : Q := if d_first d0 then q else round3 q.
Notation pos_of ex := (rpos round3 c first_move a b ex).

Record list_inv (d : dyn) : Prop := {
  lv_width : d_width d = w;
  lv_len : List.length (d_marks d) = List.length (d_lines d);
  lv_started : e_started (d_em d) = negb (no_lines d);
  lv_first : d_first d = d_first d0 && no_lines d;
  lv_fresh : no_lines d = true -> d_correct d = d_correct d0 /\ e_indent (d_em d) = 0%Q /\
    e_state (d_em d) = None /\ e_tw (d_em d) = None;
  lv_left : is_rc (c_align c) = false -> e_indent (d_em d) = 0%Q;
  lv_lines : list_lines (d_first d0) w (combine (d_lines d) (d_marks d));
  lv_exec : exists r' pre qs, execs (e_text (d_em d)) r = (r', pre ++ qs) /\ list_pre (d_lines d) pre /\
    Forall2 (shows_part x_good True (g_ctm (r_gs r))) (wants_at (pos_of (extra d)) [] (combine (d_lines d) (d_marks d))) qs /\
    follows (d_em d) (r_gs r') /\ g_ctm (r_gs r') = g_ctm (r_gs r) /\
    (no_lines d = true -> qs = []) /\
    exists x y, r_line r' = Some (x, y) /\
      (y == b - rtotal round3 c (extra d) (d_lines d))%Q /\
      (x_good -> x == a + rstart round3 first_move (d_marks d) /\
        lastx 0 (d_marks d) == (if no_lines d then 0 else x0) + e_indent (d_em d) +
                      (if no_lines d then 0 else if d_correct d then c_indent c else 0))%Q /\
      (no_lines d = true -> x == a)%Q }.

(** The start of a line. *)
Lemma list_start_line d l bl e x q f k : list_inv d -> known text_w li y0 d -> parts_ok (l_parts l) ->
  start_line round3 fref c d l bl = Ok (e, x, q, f, k) ->
  f = false /\ list_line (d_first d0 && no_lines d) w l (mkMark bl x q).
Proof.
  intros [W _ S F _ _ _ _] [_ K1 K2] Hp E. unfold start_line in E. rewrite is_list, K1, K2, S in E. cbn [bind] in E.
  set (ww := words_w (l_parts l)) in *. set (sw := spaces_w (l_parts l)) in *.
  assert (Hww : (ww + sw == width_of 1 (ltoks (l_parts l)))%Q)
    by (rewrite <- (line_width text_w space_w _ 1%Q Hp); unfold ww, sw; ring).
  set (ign := _ || Qeq_bool sw 0) in *.
  rewrite <- F. set (first := d_first d) in *.
  assert (Hx : (x == x0 + line_start c first w l)%Q /\ f = false /\
     (q == (if ign then 1 else (w - ww - x0 - line_indent c first) / sw))%Q /\ (ign = true -> q = 1%Q)).
  { unfold TextMarks.line_start, line_indent. rewrite <- W.
    destruct (no_lines d) eqn:En; cbn [negb] in E.
    - destruct first; apply Ok_inj in E; rewrite !pair_equal_spec in E; destruct E as [[[[_ <-] <-] <-] _].
      + split; [destruct (c_align c); cbn [is_rc]; rewrite <- ?Hww; field|]. split; [reflexivity|].
        destruct ign; split; try reflexivity. discriminate.
      + split; [destruct (c_align c); cbn [is_rc]; rewrite <- ?Hww; field|]. split; [reflexivity|].
        destruct ign; split; try reflexivity; try discriminate. apply Qdiv_comp; [ring|reflexivity].
    - rewrite andb_false_r in F. rewrite F in E |- *. apply Ok_inj in E; rewrite !pair_equal_spec in E; destruct E as [[[[_ <-] <-] <-] _].
      split; [destruct (c_align c); cbn [is_rc]; rewrite <- ?Hww; field|]. split; [reflexivity|].
      destruct ign; split; try reflexivity; try discriminate. apply Qdiv_comp; [ring|reflexivity]. }
  destruct Hx as (Hx & -> & Hq & Hq1). split; [reflexivity|].
  constructor; cbn [k_x k_factor k_last].
  - exact Hp.
  - exact Hx.
  - intros H. apply just_mark in H. exact (Hq1 H).
  - intros Ha Hb Hsw. subst bl.
    assert (Hi : ign = false).
    { destruct ign eqn:Ei; [|reflexivity]. apply just_mark in Ei. destruct Ei as [Ei|[Ei|Ei]]; [congruence|discriminate|contradiction]. }
    rewrite Hi in Hq. rewrite Hx, <- (line_width text_w space_w _ q Hp), Hq. fold ww sw. unfold TextMarks.line_start. rewrite Ha.
    fold sw in Hsw. field. exact Hsw.
Qed.

Lemma list_start_exec d l bl e x q f k r' px py : list_inv d -> known text_w li y0 d ->
  start_line round3 fref c d l bl = Ok (e, x, q, f, k) ->
  follows (d_em d) (r_gs r') -> g_ctm (r_gs r') = g_ctm (r_gs r) -> r_line r' = Some (px, py) ->
  (py == b - rtotal round3 c (extra d) (d_lines d))%Q ->
  (x_good -> px == a + rstart round3 first_move (d_marks d) /\
    lastx 0 (d_marks d) == (if no_lines d then 0 else x0) + e_indent (d_em d) +
                      (if no_lines d then 0 else if d_correct d then c_indent c else 0))%Q ->
  (no_lines d = true -> px == a)%Q ->
  e_started e = true /\ (is_rc (c_align c) = false -> e_indent e = 0%Q) /\
  exists ops r2 lst nx ny, e_text e = e_text (d_em d) ++ ops /\ execs ops r' = (r2, lst) /\
    (no_lines d = false -> lst = []) /\ (no_lines d = true -> list_pre [l] lst) /\
    follows e (r_gs r2) /\ g_ctm (r_gs r2) = g_ctm (r_gs r') /\ r_line r2 = Some (nx, ny) /\
    (ny == b - rtotal round3 c (list_extra (d_first d0) (d_lines d ++ [l])) (d_lines d ++ [l]))%Q /\
    (x_good -> nx == a + rstart round3 first_move (d_marks d ++ [mkMark bl x q]) /\
      x == x0 + e_indent e + (if k then c_indent c else 0))%Q.
Proof.
  intros [W L S F C I M X] [_ K1 K2] Es Ff Hm0 Hr Hy Hx Hpx. clear X M. unfold start_line in Es. rewrite S, is_list, K1, K2 in Es. cbn [bind] in Es.
  set (h := line_height l) in *. set (ww := words_w (l_parts l)) in *. set (sw := spaces_w (l_parts l)) in *.
  destruct (no_lines d) eqn:En; cbn [negb] in Es.
  - destruct (C eq_refl) as (C1 & C2 & C3 & C4). rewrite andb_true_r in F. specialize (Hpx eq_refl).
    assert (Hd : d_lines d = []) by (unfold no_lines in En; destruct (d_lines d); [reflexivity|discriminate]).
    rewrite Hd in L, Hy |- *. destruct (d_marks d) as [|? ?]; [|discriminate L].
    cbn [list_extra rtotal] in Hy. cbn [app rtotal rrest rstart rsteps lastx k_x].
    destruct (d_first d) eqn:Ef.
    + apply Ok_inj in Es. rewrite !pair_equal_spec in Es. destruct Es as [[[[<- <-] _] _] <-].
      set (fh := if qgtb (t_size ls) h then _ else _).
      assert (Hfh : (fh == list_extra true [l] + h)%Q).
      { unfold fh, list_extra. cbn [andb]. fold h. destruct (qgtb (t_size ls) h); ring. }
      unfold add_ops. cbn [e_started e_indent e_text]. split; [reflexivity|].
      split; [intros ->; exact C2|].
      set (r1 := with_line r' (Some (px + 0, py + - round3 fh)%Q)).
      destruct (compare_exec round3 fref round3_proper ls (e_state (d_em d)) r1) as (g & Ec & Hown & Hm & Hsp).
      { intros s' Hs'. rewrite C3 in Hs'. discriminate. }
      assert (Hl1 : r_line (with_gs r1 g) = Some (px + 0, py + - round3 fh)%Q) by reflexivity.
      eexists _, _, _, _, _. split; [reflexivity|]. split.
      { rewrite execs_app, (td_exec _ _ _ _ _ Hr). fold r1. rewrite execs_app, Ec.
        change (GShow (li_text li) :: ?x) with ([GShow (li_text li)] ++ x). rewrite execs_app, (show_exec _ _ _ Hl1), (td_exec _ _ _ _ _ Hl1).
        cbn [app]. reflexivity. }
      split; [discriminate|]. split.
      { intros _. unfold list_pre. rewrite <- F. eexists. split; [reflexivity|]. unfold list_show.
        split; [cbn [with_gs r_gs]; rewrite Hm; exact Hm0|]. split; [exact Hown|]. split; [reflexivity|].
        split; [rewrite Hpx; ring|]. rewrite Hy, (round3_proper _ _ Hfh). fold h. ring. }
      split; [split; cbn [e_state e_tw]; [rewrite C3|rewrite C4]; discriminate|].
      split; [exact Hm|]. split; [reflexivity|]. split.
      * rewrite <- F, Hy, (round3_proper _ _ Hfh). fold h. ring.
      * intros K. rewrite Hpx. unfold first_move. rewrite <- F. destruct (is_rc (c_align c)) eqn:Er.
        -- destruct K as [K|[K _]]; [|congruence]. rewrite C2. split; [rewrite K; ring|]. destruct (d_correct d); rewrite K; ring.
        -- rewrite C2. split; [ring|]. rewrite C1. destruct K as [K|[_ K]].
           ++ destruct (d_correct d0); try rewrite K; ring.
           ++ rewrite K, <- F. ring.
    + apply Ok_inj in Es. rewrite !pair_equal_spec in Es. destruct Es as [[[[<- <-] _] _] <-].
      unfold add_ops. cbn [e_started e_indent e_text]. split; [reflexivity|].
      split; [intros ->; exact C2|].
      eexists _, _, _, _, _. split; [reflexivity|]. split; [apply (td_exec _ _ _ _ _ Hr)|].
      split; [reflexivity|]. split; [intros _; unfold list_pre; rewrite <- F; reflexivity|]. split; [exact Ff|].
      split; [reflexivity|]. split; [reflexivity|]. split.
      * rewrite <- F. cbn [list_extra andb]. fold h. rewrite Hy. rewrite (round3_proper (0 + h) h)%Q by ring. ring.
      * intros K. rewrite Hpx. unfold first_move. rewrite <- F. split.
        { match goal with |- (_ + round3 ?u == _ + (round3 ?v + _))%Q => rewrite (round3_proper v u) by (destruct (is_rc (c_align c)); rewrite ?C2; ring) end. ring. }
        rewrite C2. destruct (is_rc (c_align c)) eqn:Er.
        -- destruct K as [K|[K _]]; [|congruence]. destruct (d_correct d); [rewrite K|]; ring.
        -- rewrite C1. destruct K as [K|[_ K]].
           ++ destruct (d_correct d0); try rewrite K; ring.
           ++ rewrite K, <- F. ring.
  - apply Ok_inj in Es. rewrite !pair_equal_spec in Es. destruct Es as [[[[<- <-] _] _] <-].
    unfold add_ops. cbn [e_started e_indent e_text]. split; [reflexivity|].
    split; [intros H; rewrite H; apply I; exact H|].
    eexists _, _, _, _, _. split; [reflexivity|]. split; [apply (td_exec _ _ _ _ _ Hr)|].
    split; [reflexivity|]. split; [discriminate|]. split; [exact Ff|]. split; [reflexivity|]. split; [reflexivity|]. split.
    + rewrite Hy. unfold no_lines in En. destruct (d_lines d) as [|u v]; [discriminate|].
      rewrite list_extra_snoc, rtotal_snoc. fold h. ring.
    + intros K. destruct (Hx K) as [Hx1 Hx2].
      unfold no_lines in En. destruct (d_lines d); [discriminate|]. destruct (d_marks d) as [|k0 ks]; [discriminate L|]. clear L.
      rewrite rstart_snoc. cbn [k_x]. split.
      * rewrite Hx1. match goal with |- (_ + round3 ?u == _ + (_ + round3 ?v))%Q => rewrite (round3_proper v u) end; [ring|].
        rewrite Hx2. destruct (is_rc (c_align c)) eqn:Er; [|rewrite (I eq_refl)]; destruct (d_correct d); ring.
      * destruct (is_rc (c_align c)) eqn:Er; [|rewrite (I eq_refl)]; ring.
Qed.

Lemma list_inv_line d l bl e x q f k : list_inv d -> known text_w li y0 d -> parts_ok (l_parts l) ->
  add_line_to_stream round3 space_w fref c d l bl = Ok (e, x, q, f, k) ->
  list_inv (accept c d l (mkMark bl x q) e f k).
Proof.
  intros Inv Kn Hp E. unfold add_line_to_stream in E.
  destruct (start_line round3 fref c d l bl) as [[[[[e1 x1] q1] f1] k1]|er] eqn:Es; [|discriminate]. cbn [bind] in E.
  apply Ok_inj in E. rewrite !pair_equal_spec in E. destruct E as [[[[<- <-] <-] <-] <-].
  destruct (emit_parts_keeps round3 space_w fref (l_parts l) q1 x1 e1) as (K1 & K2 & K3).
  destruct (list_start_line _ _ _ _ _ _ _ _ Inv Kn Hp Es) as [-> HL].
  assert (Hnl : no_lines (accept c d l (mkMark bl x1 q1) (emit_parts (l_parts l) q1 x1 e1) false k1) = false) by apply accept_no_lines.
  destruct (lv_exec _ Inv) as (r' & pre & qs & X1 & X2 & X3 & X4 & X5 & X8 & px & py & X9 & X10 & X11 & Hpx).
  destruct (list_start_exec d l bl e1 x1 q1 false k1 r' px py Inv Kn Es X4 X5 X9 X10 X11 Hpx)
    as (S1 & S2 & ops & r2 & lst & nx & ny & T1 & T2 & T3 & T3' & T4 & T5 & T8 & T9 & T10).
  pose proof (lv_len _ Inv) as Hlen.
  set (ex := list_extra (d_first d0) (d_lines d ++ [l])) in *.
  set (pos := pos_of ex (combine (d_lines d) (d_marks d) ++ [(l, mkMark bl x1 q1)])).
  assert (Hpos : at_pos x_good True (nx, ny) pos).
  { unfold pos, rpos. rewrite !map_app, map_fst_combine, map_snd_combine by exact Hlen. cbn [map fst snd].
    split; cbn [fst snd]; [intros H; exact (proj1 (T10 H))|intros _; exact T9]. }
  destruct (emit_parts_exec round3 space_w fref round3_proper _ _ q1 (nx, ny) pos Hpos (l_parts l) x1 e1 r2 T4 T8)
    as (ops2 & r3 & qs2 & U1 & U2 & U3 & U4 & U5 & U6 & _).
  constructor; rewrite ?Hnl; cbn [accept d_marks d_lines d_em d_first d_correct d_width].
  - exact (lv_width _ Inv).
  - rewrite !app_length, Hlen. reflexivity.
  - rewrite K1. exact S1.
  - now rewrite andb_false_r.
  - discriminate.
  - rewrite K3. exact S2.
  - rewrite combine_snoc by exact Hlen. apply list_lines_snoc. split; [exact (lv_lines _ Inv)|].
    replace (match combine (d_lines d) (d_marks d) with [] => d_first d0 | _ => false end) with (d_first d0 && no_lines d); [exact HL|].
    unfold no_lines. destruct (d_lines d); [apply andb_true_r|]. destruct (d_marks d); [discriminate Hlen|]. apply andb_false_r.
  - fold ex. exists r3, (pre ++ lst), (qs ++ qs2). split.
    { rewrite U1, T1, <- app_assoc, execs_app, X1, execs_app, T2, U2. f_equal.
      destruct (no_lines d) eqn:En; [rewrite (X8 eq_refl); cbn [app]; rewrite !app_nil_r, <- app_assoc; reflexivity|].
      rewrite (T3 eq_refl), app_nil_r, <- app_assoc. reflexivity. }
    split.
    { unfold no_lines in *. destruct (d_lines d) as [|l1 ls1] eqn:Ed.
      - cbn [list_pre] in X2. subst pre. exact (T3' eq_refl).
      - rewrite (T3 eq_refl), app_nil_r. cbn [list_pre app] in X2 |- *. destruct (d_first d0); exact X2. }
    split.
    { rewrite combine_snoc by exact Hlen. rewrite wants_at_snoc. cbn [app].
      apply Forall2_app.
      - unfold no_lines in *. destruct (d_lines d) as [|l1 ls1] eqn:Ed.
        + cbn [combine wants_at]. rewrite (X8 eq_refl). constructor.
        + exact X3.
      - unfold line_wants. cbn [k_factor]. fold pos. rewrite T5, X5 in U3. exact U3. }
    split; [exact U4|]. split; [congruence|]. split; [discriminate|].
    exists nx, ny. split; [exact U5|]. split; [exact T9|]. split; [|discriminate]. rewrite K3, lastx_snoc. exact T10.
Qed.

Lemma list_inv_core d d1 : core d = core d1 -> list_inv d -> list_inv d1.
Proof.
  unfold core. intros E. rewrite !pair_equal_spec in E. destruct E as [[[[[[[H1 H2] H3] H4] H5] H6] H7] H8].
  assert (Hn : no_lines d1 = no_lines d) by (unfold no_lines; now rewrite H6).
  intros [A B C D E F G X]. constructor; rewrite ?Hn; rewrite <- ?H1, <- ?H2, <- ?H3, <- ?H6, <- ?H7, <- ?H8; assumption.
Qed.
Lemma list_inv_init h : r_line r = Some (a, b) -> list_inv (init_run d0 w h).
Proof.
  intros Hr. constructor; cbn [init_run d_width d_marks d_lines d_em d_first d_correct no_lines em0 e_started e_indent e_state e_tw e_text];
    try reflexivity; try (symmetry; apply andb_true_r); auto.
  - exists r, [], []. split; [reflexivity|]. split; [reflexivity|]. split; [constructor|].
    split; [split; discriminate|]. split; [reflexivity|]. split; [reflexivity|]. exists a, b. split; [exact Hr|].
    cbn [list_extra rtotal rstart lastx]. split; [ring|]. split; [intros _; split; ring|]. intros _. reflexivity.
Qed.

Hypothesis first_text : first_style (c_content c) = Some y0.
Theorem run_list done h d' : r_line r = Some (a, b) -> paused c done d0 -> begins text_w c li y0 d0 -> run c d0 w h = Ok d' ->
  list_inv d' /\ (d_fin d' = false -> begins text_w c li y0 d').
Proof.
  intros Hr Hp Hb E.
  exact (list_run round3 text_w space_w fref c li is_list y0 first_text done list_inv list_inv_core
           (fun d l bl e x q f k => list_inv_line d l bl e x q f k) d0 w h d' Hp Hb (list_inv_init h Hr) E).
Qed.
End Inv.
