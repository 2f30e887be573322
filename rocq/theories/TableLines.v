(** The lines that a run of a table draws: facts about [process_borders]. *)
From Coq Require Import QArith ZArith Lia Lqa.
From Verif Require Import Py Table TableProofs TableGeom.
Open Scope list_scope.
Open Scope nat_scope.

(** ** Sequences of lines over consecutive edges *)
(** A line from edge [a] up to edge [b]. *)
Definition edges_of (ab : nat * nat) : list nat := seq (fst ab) (snd ab - fst ab).
Section Inv.
Context {L : Type}.
Variable seg : bool -> nat * nat -> L -> Prop.
(** The lines over the edges before [c] that are in [p]; the last one may go on. *)
Definition line_inv (p : nat -> bool) (c : nat) (ls : list L) (stop : bool) : Prop :=
  exists segs, flat_map edges_of segs = filter p (seq 0 c) /\
    if stop then Forall2 (seg true) segs ls
    else exists segs0 a ls0 l, segs = segs0 ++ [(a, c)] /\ ls = ls0 ++ [l] /\ a < c /\ Forall2 (seg true) segs0 ls0 /\ seg false (a, c) l.
Lemma line_inv_ext p q c ls stop : (forall k, k < c -> p k = q k) -> line_inv p c ls stop -> line_inv q c ls stop.
Proof.
  intros H (segs & H1 & H2). exists segs. split; [|exact H2]. rewrite H1. apply filter_ext_in. intros k Hk. apply in_seq in Hk. apply H. lia.
Qed.
Lemma line_inv_nil p : line_inv p 0 [] true.
Proof. exists []. split; [reflexivity|constructor]. Qed.
Lemma line_inv_close p c ls0 l f : line_inv p c (ls0 ++ [l]) false -> (forall a, a < c -> seg false (a, c) l -> seg true (a, c) (f l)) ->
  line_inv p c (ls0 ++ [f l]) true.
Proof.
  intros (segs & H1 & segs0 & a & ls1 & l1 & H2 & H3 & H4 & H5 & H6) Hf. apply app_inj_tail in H3 as [<- <-].
  exists segs. split; [exact H1|]. subst segs. apply Forall2_app; [exact H5|]. constructor; [apply Hf; assumption|constructor].
Qed.
Lemma filter_S p c : filter p (seq 0 (S c)) = filter p (seq 0 c) ++ (if p c then [c] else []).
Proof. rewrite seq_S, filter_app. cbn. destruct (p c); reflexivity. Qed.
Lemma line_inv_skip p c ls : line_inv p c ls true -> p c = false -> line_inv p (S c) ls true.
Proof. intros (segs & H1 & H2) Hp. exists segs. split; [|exact H2]. rewrite filter_S, Hp, app_nil_r. exact H1. Qed.
Lemma line_inv_new p c ls l : line_inv p c ls true -> p c = true -> seg false (c, S c) l -> line_inv p (S c) (ls ++ [l]) false.
Proof.
  intros (segs & H1 & H2) Hp Hl. exists (segs ++ [(c, S c)]). split.
  - rewrite filter_S, Hp, flat_map_app, H1. cbn [flat_map]. unfold edges_of. cbn [fst snd]. replace (S c - c) with 1 by lia. reflexivity.
  - exists segs, c, ls, l. repeat split; auto.
Qed.
Lemma line_inv_extend p c ls0 l f : line_inv p c (ls0 ++ [l]) false -> p c = true ->
  (forall a, a < c -> seg false (a, c) l -> seg false (a, S c) (f l)) -> line_inv p (S c) (ls0 ++ [f l]) false.
Proof.
  intros (segs & H1 & segs0 & a & ls1 & l1 & H2 & H3 & H4 & H5 & H6) Hp Hf. apply app_inj_tail in H3 as [<- <-].
  exists (segs0 ++ [(a, S c)]). split.
  - rewrite filter_S, Hp, <- H1. subst segs. rewrite !flat_map_app. cbn [flat_map]. rewrite !app_nil_r, <- app_assoc. f_equal.
    unfold edges_of. cbn [fst snd]. replace (S c - a) with (S (c - a)) by lia. rewrite seq_S. do 2 f_equal. lia.
  - exists segs0, a, ls0, (f l). repeat split; auto; lia.
Qed.
Lemma line_inv_last p c ls : line_inv p c ls false -> exists ls0 l a, ls = ls0 ++ [l] /\ a < c /\ seg false (a, c) l.
Proof. intros (segs & _ & segs0 & a & ls0 & l & _ & H & H2 & _ & H3). exists ls0, l, a. auto. Qed.
End Inv.

Section Step.
Context {B : Type}.
Variable b_eqb : B -> B -> bool.
Hypothesis b_refl : forall b, b_eqb b b = true.
Notation line := (@line B).
Notation border := (@border B).
(** No border is wider than this. *)
Variable M : Q.

(** ** Specification *)
(** The same width, colour and style. *)
Definition alike (a b : border) : Prop := (b_width a == b_width b)%Q /\ b_eqb (b_kind a) (b_kind b) = true.
(** A line that shows the edges from [a] to [b], whose borders are given by
    [ed], at the height [yk]; it may be longer by half of the width of the borders
    it meets. *)
Definition all_alike (ed : nat -> option border) (a b : nat) (l : line) : Prop :=
  forall c, a <= c < b -> exists bd, ed c = Some bd /\ (0 < b_width bd)%Q /\ alike (l_border l) bd.
Definition hseg (ed : nat -> option border) (X : nat -> Q) (yk : Q) (closed : bool) (ab : nat * nat) (l : line) : Prop :=
  let '(a, b) := ab in
  a < b /\ all_alike ed a b l /\ (l_y1 l == yk)%Q /\ (l_y2 l == yk)%Q /\ (X a - M / 2 <= l_x1 l <= X a)%Q /\
  if closed then (X b <= l_x2 l <= X b + M / 2)%Q else (l_x2 l == X b)%Q.
Definition vseg (ed : nat -> option border) (Y : nat -> Q) (xc : Q) (closed : bool) (ab : nat * nat) (l : line) : Prop :=
  let '(a, b) := ab in
  a < b /\ all_alike ed a b l /\ (l_x1 l == xc)%Q /\ (l_x2 l == xc)%Q /\ (Y a <= l_y1 l <= Y a + M / 2)%Q /\
  if closed then (Y b - M / 2 <= l_y2 l <= Y b)%Q else True.

(** ** One step *)
Definition shown (o : option border) : bool := match o with Some b => qlt 0 (b_width b) | None => false end.
Definition half (o : option border) : Q := (bwidth o / 2)%Q.
Definition correction (c0 : Q) (stop : bool) (ls : list line) : Q :=
  if stop then c0
  else match last_line ls with
       | Some l => let aux := (b_width (l_border l) / 2)%Q in if qlt c0 aux then aux else c0
       | None => c0
       end.
Definition pstep (ve te : list line * bool) (xa ya x2 : Q) (bl bt : option border) : (list line * bool) * (list line * bool) :=
  let '(vl, vint) := ve in
  let '(top, ti) := te in
  let vc := correction (half bt) ti top in
  let hc := correction (half bl) vint vl in
  let vl1 := if vint then vl else upd_last (set_y2 (ya - vc)%Q) vl in
  let top1 := if ti then top else upd_last (fun l => set_x2 (l_x2 l + hc)%Q l) top in
  (match bl with
   | Some b =>
       if qlt 0 (b_width b) then
         let same := match vint, last_line vl1 with false, Some l => compare_borders b_eqb (l_border l) b | _, _ => false end in
         if same then (vl1, false) else (vl1 ++ [mkLine b xa (ya + vc)%Q xa (ya + vc)%Q], false)
       else (vl1, true)
   | None => (vl1, true)
   end,
   match bt with
   | Some b =>
       if qlt 0 (b_width b) then
         let same := match ti, last_line top1 with false, Some l => compare_borders b_eqb (l_border l) b | _, _ => false end in
         if same then (upd_last (set_x2 x2) top1, false) else (top1 ++ [mkLine b (xa - hc)%Q ya x2 ya], false)
       else (top1, true)
   | None => (top1, true)
   end).
Lemma last_line_app (ls : list line) l : last_line (ls ++ [l]) = Some l.
Proof. unfold last_line. rewrite rev_app_distr. reflexivity. Qed.
Lemma upd_last_app f (ls : list line) l : upd_last f (ls ++ [l]) = ls ++ [f l].
Proof. unfold upd_last. rewrite rev_app_distr. cbn. now rewrite rev_involutive. Qed.
Lemma compare_alike a b : compare_borders b_eqb a b = true -> alike a b.
Proof. unfold compare_borders. intros H. apply andb_prop in H as [H1 H2]. apply Qeq_bool_eq in H1. split; assumption. Qed.
Lemma shown_some bt : shown bt = true -> exists b, bt = Some b /\ (0 < b_width b)%Q /\ qlt 0 (b_width b) = true.
Proof. destruct bt as [b|]; [|discriminate]. cbn. intros H. exists b. split; [reflexivity|]. split; [apply qlt_true; exact H|exact H]. Qed.
Definition small (o : option border) : Prop := (0 <= bwidth o <= M)%Q.
Lemma correction_ok c0 stop ls : (0 <= c0 <= M / 2)%Q -> (stop = false -> forall l, last_line ls = Some l -> 0 <= b_width (l_border l) <= M)%Q ->
  (0 <= correction c0 stop ls <= M / 2)%Q.
Proof.
  intros H1 H2. unfold correction. destruct stop; [exact H1|]. destruct (last_line ls) as [l|]; [|exact H1]. specialize (H2 eq_refl l eq_refl).
  cbv zeta. destruct (qlt c0 _); [|exact H1]. assert (E : (b_width (l_border l) / 2 == b_width (l_border l) * (1 # 2))%Q) by reflexivity.
  assert (E2 : (M / 2 == M * (1 # 2))%Q) by reflexivity. rewrite E, E2. lra.
Qed.
Lemma half_ok o : small o -> (0 <= half o <= M / 2)%Q.
Proof. unfold small, half. intros H. assert (E : (bwidth o / 2 == bwidth o * (1 # 2))%Q) by reflexivity. assert (E2 : (M / 2 == M * (1 # 2))%Q) by reflexivity. rewrite E, E2. lra. Qed.

Section Both.
Variables (edt edl : nat -> option border) (X Y : nat -> Q) (yk xc : Q) (c k : nat) (p pv : nat -> bool).
Variables (vl : list line) (vint : bool) (top : list line) (ti : bool) (xa ya x2 : Q) (bl bt : option border).
Hypothesis Hx : (xa == X c)%Q.
Hypothesis Hxc : (xa == xc)%Q.
Hypothesis Hy : (ya == Y k)%Q.
Hypothesis Hyk : (ya == yk)%Q.
Hypothesis Hx2 : shown bt = true -> (x2 == X (S c))%Q.
Hypothesis Sl : small bl.
Hypothesis St : small bt.
Hypothesis Set_ : forall c, small (edt c).
Hypothesis Sel : forall c, small (edl c).
Hypothesis Et : shown bt = true -> edt c = bt.
Hypothesis El : shown bl = true -> edl k = bl.
Hypothesis Pt : p c = shown bt.
Hypothesis Pl : pv k = shown bl.
Hypothesis Ht : line_inv (hseg edt X yk) p c top ti.
Hypothesis Hv : line_inv (vseg edl Y xc) pv k vl vint.
Let vc := correction (half bt) ti top.
Let hc := correction (half bl) vint vl.
Lemma top_small : ti = false -> forall l, last_line top = Some l -> (0 <= b_width (l_border l) <= M)%Q.
Proof.
  intros Eti l Hl. pose proof Ht as Ht1. rewrite Eti in Ht1. destruct (line_inv_last _ _ _ _ Ht1) as (ls0 & l0 & a & E & Ha & Hs). rewrite E, last_line_app in Hl. injection Hl as ->.
  destruct Hs as (_ & H1 & _). destruct (H1 a ltac:(lia)) as (bd & H2 & H3 & [H4 _]). pose proof (Set_ a) as K. rewrite H2 in K. unfold small in K. cbn in K. rewrite H4. exact K.
Qed.
Lemma vert_small : vint = false -> forall l, last_line vl = Some l -> (0 <= b_width (l_border l) <= M)%Q.
Proof.
  intros Eti l Hl. pose proof Hv as Ht1. rewrite Eti in Ht1. destruct (line_inv_last _ _ _ _ Ht1) as (ls0 & l0 & a & E & Ha & Hs). rewrite E, last_line_app in Hl. injection Hl as ->.
  destruct Hs as (_ & H1 & _). destruct (H1 a ltac:(lia)) as (bd & H2 & H3 & [H4 _]). pose proof (Sel a) as K. rewrite H2 in K. unfold small in K. cbn in K. rewrite H4. exact K.
Qed.
Lemma vc_ok : (0 <= vc <= M / 2)%Q.
Proof. apply correction_ok; [apply half_ok; exact St|exact top_small]. Qed.
Lemma hc_ok : (0 <= hc <= M / 2)%Q.
Proof. apply correction_ok; [apply half_ok; exact Sl|exact vert_small]. Qed.
Lemma alike_refl b : alike b b.
Proof. split; [reflexivity|apply b_refl]. Qed.
Lemma top_step : let te := snd (pstep (vl, vint) (top, ti) xa ya x2 bl bt) in line_inv (hseg edt X yk) p (S c) (fst te) (snd te).
Proof.
  cbn [pstep snd]. fold hc. pose proof hc_ok as Hh.
  set (top1 := if ti then top else upd_last (fun l => set_x2 (l_x2 l + hc)%Q l) top).
  assert (H1 : line_inv (hseg edt X yk) p c top1 true).
  { unfold top1. destruct ti; [exact Ht|]. destruct (line_inv_last _ _ _ _ Ht) as (ls0 & l0 & a & E & _ & _). rewrite E in Ht |- *. rewrite upd_last_app.
    apply (line_inv_close _ _ _ _ l0 (fun l => set_x2 (l_x2 l + hc)%Q l)); [exact Ht|]. intros a0 Ha0 (K1 & K2 & K3 & K4 & K5 & K6).
    do 5 (split; [assumption|]). cbn [set_x2 l_x2]. rewrite K6. lra. }
  destruct (shown bt) eqn:Es.
  - destruct (shown_some _ Es) as (b & Eb & Hb & Hq). specialize (Et eq_refl). specialize (Hx2 eq_refl). rewrite Eb in *. rewrite Hq.
    assert (Hnew : hseg edt X yk false (c, S c) (mkLine b (xa - hc)%Q ya x2 ya)).
    { split; [lia|]. split; [intros c' Hc'; replace c' with c by lia; exists b; cbn [l_border]; split; [exact Et|split; [exact Hb|apply alike_refl]]|].
      cbn [l_y1 l_y2 l_x1 l_x2]. rewrite Hx. split; [exact Hyk|]. split; [exact Hyk|]. split; [lra|exact Hx2]. }
    destruct ti eqn:Eti.
    + cbn [fst snd]. apply line_inv_new; [exact H1|exact Pt|exact Hnew].
    + destruct (line_inv_last _ _ _ _ Ht) as (ls0 & l0 & a & E & _ & _). unfold top1. rewrite E. rewrite upd_last_app, last_line_app.
      destruct (compare_borders b_eqb (l_border (set_x2 (l_x2 l0 + hc)%Q l0)) b) eqn:Ec.
      * cbn [fst snd]. rewrite upd_last_app. rewrite E in Ht.
        apply (line_inv_extend _ _ _ _ l0 (fun l0 => set_x2 x2 (set_x2 (l_x2 l0 + hc)%Q l0))); [exact Ht|exact Pt|].
        intros a0 Ha0 (K1 & K2 & K3 & K4 & K5 & K6). split; [lia|]. split; [|do 3 (split; [assumption|]); exact Hx2].
        intros c' Hc'. destruct (Nat.eq_dec c' c) as [->|Hne]; [|exact (K2 c' ltac:(lia))]. exists b. split; [exact Et|]. split; [exact Hb|].
        apply compare_alike in Ec. exact Ec.
      * cbn [fst snd]. rewrite <- (upd_last_app (fun l0 => set_x2 (l_x2 l0 + hc)%Q l0)), <- E. apply line_inv_new; [|exact Pt|exact Hnew]. unfold top1 in H1. exact H1.
  - assert (K : match bt with Some b => qlt 0 (b_width b) | None => false end = false) by exact Es.
    destruct bt as [b|]; [rewrite K|]; cbn [fst snd]; apply line_inv_skip; assumption.
Qed.
Lemma vert_step : let ve := fst (pstep (vl, vint) (top, ti) xa ya x2 bl bt) in line_inv (vseg edl Y xc) pv (S k) (fst ve) (snd ve).
Proof.
  cbn [pstep fst]. fold vc. pose proof vc_ok as Hh.
  set (vl1 := if vint then vl else upd_last (set_y2 (ya - vc)%Q) vl).
  assert (H1 : line_inv (vseg edl Y xc) pv k vl1 true).
  { unfold vl1. destruct vint; [exact Hv|]. destruct (line_inv_last _ _ _ _ Hv) as (ls0 & l0 & a & E & _ & _). rewrite E in Hv |- *. rewrite upd_last_app.
    apply (line_inv_close _ _ _ _ l0 (set_y2 (ya - vc)%Q)); [exact Hv|]. intros a0 Ha0 (K1 & K2 & K3 & K4 & K5 & K6).
    do 5 (split; [assumption|]). cbn [set_y2 l_y2]. rewrite Hy. lra. }
  destruct (shown bl) eqn:Es.
  - destruct (shown_some _ Es) as (b & Eb & Hb & Hq). specialize (El eq_refl). rewrite Eb in *. rewrite Hq.
    assert (Hnew : vseg edl Y xc false (k, S k) (mkLine b xa (ya + vc)%Q xa (ya + vc)%Q)).
    { split; [lia|]. split; [intros c' Hc'; replace c' with k by lia; exists b; cbn [l_border]; split; [exact El|split; [exact Hb|apply alike_refl]]|].
      cbn [l_y1 l_y2 l_x1 l_x2]. rewrite Hy. split; [exact Hxc|]. split; [exact Hxc|]. split; [lra|exact I]. }
    destruct vint eqn:Eti.
    + cbn [fst snd]. apply line_inv_new; [exact H1|exact Pl|exact Hnew].
    + destruct (line_inv_last _ _ _ _ Hv) as (ls0 & l0 & a & E & _ & _). unfold vl1. rewrite E. rewrite upd_last_app, last_line_app.
      destruct (compare_borders b_eqb (l_border (set_y2 (ya - vc)%Q l0)) b) eqn:Ec.
      * cbn [fst snd]. rewrite E in Hv. apply (line_inv_extend _ _ _ _ l0 (set_y2 (ya - vc)%Q)); [exact Hv|exact Pl|].
        intros a0 Ha0 (K1 & K2 & K3 & K4 & K5 & K6). split; [lia|]. split; [|do 3 (split; [assumption|]); exact I].
        intros c' Hc'. destruct (Nat.eq_dec c' k) as [->|Hne]; [|exact (K2 c' ltac:(lia))]. exists b. split; [exact El|]. split; [exact Hb|].
        apply compare_alike in Ec. exact Ec.
      * cbn [fst snd]. rewrite <- (upd_last_app (set_y2 (ya - vc)%Q)), <- E. apply line_inv_new; [|exact Pl|exact Hnew]. unfold vl1 in H1. exact H1.
  - assert (K : match bl with Some b => qlt 0 (b_width b) | None => false end = false) by exact Es.
    destruct bl as [b|]; [rewrite K|]; cbn [fst snd]; apply line_inv_skip; assumption.
Qed.
End Both.
End Step.

Lemma nth_set_vert {B} (v : list (list (@line B) * bool)) col c e : col < List.length v -> nth_vert c (set_vert col e v) = if c =? col then e else nth_vert c v.
Proof.
  unfold nth_vert, set_vert. revert col c. induction v as [|a v IH]; intros [|col] [|c] H; cbn in *; try lia; try reflexivity.
  rewrite IH by lia. destruct (c =? col); reflexivity.
Qed.
Lemma length_set_vert {B} (v : list (list (@line B) * bool)) col e : List.length (set_vert col e v) = List.length v.
Proof. unfold set_vert. rewrite <- (firstn_skipn col v) at 3. rewrite !app_length. f_equal. destruct (skipn col v); reflexivity. Qed.
Lemma pb_pstep {E W P F B} b_eqb (t : @table E F B) width (r : @rstate E W P F B) col xa ya bl bt :
  process_borders b_eqb t width r col xa ya bl bt =
  let '(ve, (top, ti)) := pstep b_eqb (nth_vert col (r_vert r)) (r_top r, r_topint r) xa ya (xa + col_width t width col)%Q bl bt in
  with_borders r (set_vert col ve (r_vert r)) top ti.
Proof.
  unfold process_borders, pstep, correction, half. destruct (nth_vert col (r_vert r)) as [vl vint].
  repeat match goal with |- context [match ?X with Some _ => _ | None => _ end] => destruct X end;
    repeat match goal with |- context [if ?X then _ else _] => destruct X end; reflexivity.
Qed.
