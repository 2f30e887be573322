(** Boxes of several columns: what is written comes once and in order (C47,
    C75). *)
From Coq Require Import String QArith ZArith Lia Lqa List Bool Permutation.
From Verif Require Import Py Whole WholeProofs.
From Verif Require TextLayout Table TableTokens Content ContentFlow ContentCols PText PContent PWhole.
Import ListNotations.
Open Scope list_scope.
Open Scope nat_scope.

Lemma elem_ind2 {E} (Q0 : @Content.elem E -> Prop) :
  (forall s e, Q0 (Content.Leaf s e)) -> (forall s id iw ih, Q0 (Content.Image s id iw ih)) -> (forall s id l, Q0 (Content.Group s id l)) ->
  (forall s n gap l, Forall Q0 l -> Q0 (Content.Child s n gap l)) -> forall el, Q0 el.
Proof.
  intros H1 H2 H3 H4. fix IH 1. intros [s e|s id iw ih|s id l|s n gap l]; [apply H1|apply H2|apply H3|]. apply H4.
  induction l as [|e l IHl]; constructor; [apply IH|exact IHl].
Qed.

(** ** Elements that can go back to any state they have saved *)
Section Back.
Context {E O S P L T : Type}.
Variable start : E -> res O.
Variable crun : O -> Q -> Q -> Q -> Q -> res (O * Q * bool * list P * list L).
Variable save : O -> S.
Variable restore : O -> S -> O.
(** What an element has to show; what an object has left to show; what is in the
    things it draws; and an image. *)
Variable etoks : E -> list T.
Variable left : O -> list T.
Variable shown : list P -> list T.
Variable pic : Q -> Q -> list T.
(** An object shows what it has, in order, and is finished with the last of it. *)
Hypothesis start_ok : forall e o, start e = Ok o -> left o = etoks e.
Hypothesis run_ok : forall o x y w h o' ht fin ps ls, crun o x y w h = Ok (o', ht, fin, ps, ls) ->
  left o = shown ps ++ left o' /\ (fin = true -> left o' = []).
(** What becomes of an object as it is run and set to states. *)
Inductive later (o : O) : O -> Prop :=
| la_now : later o o
| la_run o1 x y w h o2 ht fin ps ls : later o o1 -> crun o1 x y w h = Ok (o2, ht, fin, ps, ls) -> later o o2
| la_set o1 s : later o o1 -> later o (restore o1 s).
Hypothesis back_ok : forall o o', later o o' -> restore o' (save o) = o.

(** Images that keep their place, no groups; boxes in boxes as one likes. *)
Fixpoint still (el : @Content.elem E) : Prop :=
  match el with
  | Content.Leaf _ _ => True
  | Content.Image s _ _ _ => Content.s_place s = Content.PNormal
  | Content.Group _ _ _ => False
  | Content.Child _ _ _ l => fold_right (fun e acc => still e /\ acc) True l
  end.
(** What is written in an element. *)
Fixpoint written (el : @Content.elem E) : list T :=
  match el with
  | Content.Leaf _ e => etoks e
  | Content.Image _ _ iw ih => pic iw ih
  | Content.Group _ _ _ => []
  | Content.Child _ _ _ l => flat_map written l
  end.
(** What is in the things drawn on a page, in the order they are drawn. *)
Definition on_page (o : @Content.output O P L) : list T :=
  flat_map (fun p => match p with
                     | Content.PlLeaf _ _ _ _ _ _ _ _ _ ps => shown ps
                     | Content.PlImage _ _ _ _ _ iw ih => pic iw ih
                     end) (Content.o_parts o).

Lemma later_trans a b c : later a b -> later b c -> later a c.
Proof. intros H. induction 1; [exact H|econstructor; eassumption|constructor; assumption]. Qed.
Lemma still_ok m el : still el -> ContentCols.eok (fun _ => True) (fun _ => True) 1 m el.
Proof.
  revert m. induction el as [s e|s id iw ih|s id l|s n gap l IH] using elem_ind2; intros m; cbn [still ContentCols.eok]; auto.
  intros H. induction IH as [|e l He IH IHl]; [exact I|]. cbn [fold_right] in *. destruct H as [H1 H2]. split; [apply He, H1|apply IHl, H2].
Qed.
Lemma written_toks l : ContentCols.ltoks etoks pic l = flat_map written l.
Proof.
  reflexivity.
Qed.

(** Over any pages, with any boxes of any numbers of columns inside one another:
    what is written comes in order, once, and all of it when the content is
    finished. *)
Theorem C47_columns_partial : forall fuel l cols gap rs c outs,
  Forall still l -> PContent.runs start crun save restore fuel rs (Content.fresh_content l cols gap) = Content.Done (c, outs) ->
  exists rest, flat_map written l = flat_map on_page outs ++ rest /\ (Content.c_finished c = true -> rest = []).
Proof.
  intros fuel l cols gap rs c outs Hl.
  assert (Hcg : ContentCols.cong (@eq (list T))) by (constructor; congruence).
  pose (rw := fun _ : O => True). pose (inv := fun _ : O => True).
  assert (A1 : forall e o, True -> start e = Ok o -> inv o /\ etoks e = left o /\ (True -> rw o)) by (intros e o _ H; rewrite (start_ok _ _ H); repeat split; auto).
  assert (A2 : forall o x y w h o' ht fin ps ls, inv o -> crun o x y w h = Ok (o', ht, fin, ps, ls) ->
    left o = shown ps ++ left o' /\ (if fin then left o' = [] else inv o') /\ later o o' /\ (rw o -> rw o')).
  { intros o x y w h o' ht fin ps ls _ H. destruct (run_ok _ _ _ _ _ _ _ _ _ _ H) as [H1 H2]. split; [exact H1|]. split; [destruct fin; [auto|exact I]|].
    split; [|auto]. eapply la_run; [apply la_now|exact H]. }
  assert (A3 : forall o, inv o -> inv (restore o (save o)) /\ left (restore o (save o)) = left o) by (intros o _; rewrite (back_ok o o (la_now o)); repeat split).
  assert (A4 : forall o1 o, rw o1 -> later o1 o -> inv o1 -> inv (restore o (save o1)) /\ left (restore o (save o1)) = left o1 /\ rw (restore o (save o1)))
    by (intros o1 o _ H _; rewrite (back_ok o1 o H); repeat split).
  assert (A5 : forall o s, later o (restore o s)) by (intros o s; apply la_set, la_now).
  assert (Hgen : forall rs c0 c outs, (if Content.c_finished c0 then True else ContentCols.cinv save (fun _ => True) (fun _ => True) inv rw later 1 c0) ->
    PContent.runs start crun save restore fuel rs c0 = Content.Done (c, outs) ->
    exists rest, ContentCols.cleft restore etoks left pic c0 = flat_map on_page outs ++ rest /\ (Content.c_finished c = true -> rest = [])).
  { clear rs c outs. induction rs as [|r rs IH]; intros c0 c outs Hi; cbn [PContent.runs].
    - intros H. injection H as <- <-. eexists. split; [reflexivity|]. intros Hf. unfold ContentCols.cleft. rewrite Hf. reflexivity.
    - destruct (Content.c_finished c0) eqn:Ef.
      + intros H. injection H as <- <-. exists []. unfold ContentCols.cleft. rewrite Ef. split; reflexivity.
      + destruct (Content.run start crun save restore fuel _ _ _ _ c0) as [[c1 o]| |] eqn:Er; cbn [Content.abind]; try discriminate.
        destruct (PContent.runs start crun save restore fuel rs c1) as [[c2 os]| |] eqn:Es; cbn [Content.abind]; try discriminate.
        intros H. injection H as <- <-.
        destruct (ContentCols.page_step start crun save restore eq Hcg (fun _ => True) (fun _ => True) etoks inv rw later left shown pic la_now later_trans A1 A2 A3 A4 A5
          1 ltac:(lia) fuel _ _ _ _ c0 c1 o Hi ltac:(destruct (Content.c_part c0); auto) Er) as [G1 G2].
        destruct (IH c1 c2 os) as (rest & I1 & I2); [destruct (Content.c_finished c1); [exact I|exact G2]|exact Es|].
        exists rest. split; [|exact I2]. cbn [flat_map]. rewrite <- app_assoc, <- I1. exact G1. }
  assert (Hok : ContentCols.eoks (fun _ => True) (fun _ => True) 1 (ContentCols.cnt cols) l).
  { apply fold_forall. intros e He. apply still_ok. rewrite Forall_forall in Hl. apply Hl, He. }
  destruct (ContentCols.fresh_cinv save restore (fun _ => True) (fun _ => True) etoks inv rw later left pic 1 l cols gap Hok) as [F1 F2].
  intros H. destruct (Hgen rs (Content.fresh_content l cols gap) c outs F1 H) as (rest & R1 & R2).
  exists rest. split; [|exact R2]. rewrite <- written_toks, <- F2. exact R1.
Qed.
End Back.
Print Assumptions C47_columns_partial.

(** Paragraphs in boxes of two and three columns, one inside the other, and an
    image, over three pages: the lines by name. *)
Definition ex_start (e : nat * nat) : res (nat * nat * nat) := Ok (fst e, snd e, 0).
Definition ex_crun (o : nat * nat * nat) (x y w h : Q) : res ((nat * nat * nat) * Q * bool * list (nat * nat) * list unit) :=
  let '(a, n, i) := o in
  let k := Nat.min (n - i) (Z.to_nat (Qround.Qfloor (h / 10))) in
  Ok ((a, n, i + k), (10 * inject_Z (Z.of_nat k))%Q, n - (i + k) =? 0, map (fun j => (a, j)) (seq i k), []).
Definition ex_left (o : nat * nat * nat) : list (nat * nat) := let '(a, n, i) := o in map (fun j => (a, j)) (seq i (n - i)).
Definition ex_restore (o : nat * nat * nat) (i : nat) : nat * nat * nat := (fst o, i).
Definition ex_elems : list (@Content.elem (nat * nat)) :=
  [Content.Leaf PContent.ex_style (1, 3);
   Content.Child PContent.ex_style 3 None [Content.Leaf PContent.ex_style (2, 7); Content.Image PContent.ex_style 0 80 20;
     Content.Child PContent.ex_style 2 (Some 4%Q) [Content.Leaf PContent.ex_style (3, 5)]; Content.Leaf PContent.ex_style (4, 6)];
   Content.Leaf PContent.ex_style (5, 4)].
Definition ex_lines (a i k : nat) := map (fun j => (a, j)) (seq i k).
Example C47_columns_applies :
  (forall e o, ex_start e = Ok o -> ex_left o = ex_lines (fst e) 0 (snd e)) /\
  (forall o x y w h o' ht fin ps ls, ex_crun o x y w h = Ok (o', ht, fin, ps, ls) -> ex_left o = ps ++ ex_left o' /\ (fin = true -> ex_left o' = [])) /\
  (forall o o', later ex_crun ex_restore o o' -> ex_restore o' (snd o) = o) /\
  Forall still ex_elems /\
  match PContent.runs ex_start ex_crun snd ex_restore 60 (repeat (PContent.mkRect 0 500 300 35) 6) (Content.fresh_content ex_elems 2 None) with
  | Content.Done (c, outs) => Content.c_finished c = true /\ map (on_page (fun l => l) (fun _ _ => [(0, 0)])) outs =
      [ex_lines 1 0 3 ++ ex_lines 2 0 7 ++ [(0, 0)]; ex_lines 3 0 5 ++ ex_lines 4 0 6 ++ ex_lines 5 0 3; ex_lines 5 3 1]
  | _ => False
  end.
Proof.
  split; [|split; [|split; [|split]]].
  - intros [a n] o H. injection H as <-. cbn [ex_left fst snd]. rewrite Nat.sub_0_r. reflexivity.
  - intros [[a n] i] x y w h o' ht fin ps ls H. unfold ex_crun in H. remember (Nat.min (n - i) _) as k eqn:Ek. injection H as <- <- <- <- <-.
    assert (k <= n - i) by lia. clear Ek. cbn [ex_left]. split.
    + rewrite <- map_app, <- seq_app. do 2 f_equal. lia.
    + intros Hf. apply Nat.eqb_eq in Hf. rewrite Hf. reflexivity.
  - intros [[a n] i] o' H. cbn [snd]. assert (Hf : fst o' = (a, n)).
    { induction H as [|o1 x y w h o2 ht fin ps ls _ IH Hr|o1 s _ IH]; [reflexivity| |exact IH]. destruct o1 as [[a1 n1] i1]. cbn in IH. injection IH as -> ->.
      unfold ex_crun in Hr. remember (Nat.min _ _) as k. injection Hr as <- <- <- <- <-. reflexivity. }
    unfold ex_restore. rewrite Hf. reflexivity.
  - repeat constructor.
  - vm_compute. split; reflexivity.
Qed.

(** ** Paragraphs and tables, in pages that begin outside of columns *)
Section Words.
Context {F B : Type}.
Variable b_eqb : B -> B -> bool.
Variable round3 : Q -> Q.
Variable text_w : TextLayout.fkey -> str -> Q.
Variable space_w : TextLayout.fkey -> Q.
Variable fref : TextLayout.fkey -> str.
Variable fuel : nat.
Notation leaf_kit := (@leaf_kit F B b_eqb round3 text_w space_w fref fuel).
Notation leaf_spec := (@leaf_spec F B b_eqb round3 text_w space_w fref fuel).

(** Elements as in C75, with boxes of any number of columns but none of them
    inside another; [sv]: inside one. *)
Fixpoint flat_cols (n : nat) (sv : bool) (el : @Content.elem (kE (leaf_kit n))) : Prop :=
  match el with
  | Content.Leaf _ e => sp_ok _ (leaf_spec n) e
  | Content.Image s _ _ _ => Content.s_place s = Content.PNormal
  | Content.Group _ _ _ => False
  | Content.Child _ cols _ l => (sv = true -> cols <= 1) /\ fold_right (fun e acc => flat_cols n (sv || (1 <? cols)) e /\ acc) True l
  end.
Fixpoint el_written (n : nat) (el : @Content.elem (kE (leaf_kit n))) : list word :=
  match el with
  | Content.Leaf _ e => sp_words _ (leaf_spec n) e
  | Content.Child _ _ _ l => flat_map (el_written n) l
  | _ => []
  end.
(** The place at which a box goes on (the path of [get_state]: the element of
    the outermost box, and of the boxes inside it) is in no box of columns. *)
Fixpoint outside {E} (cols : nat) (l : list (@Content.elem E)) (i : nat) (path : list nat) : Prop :=
  cols <= 1 /\
  match path with
  | [] => True
  | i' :: path => match nth_error l i with Some (Content.Child _ cols' _ l') => outside cols' l' i' path | _ => False end
  end.
Definition goes_on_outside {E O S} (c : @Content.content E O S) : Prop :=
  match Content.get_state c with
  | Content.Done (i, _, memory) => outside (Content.c_cols c) (Content.c_elems c) i (map fst (rev memory))
  | _ => False
  end.
(** Each page but the first begins outside of columns. *)
Fixpoint begins_outside (n : nat) (c : kO (content_kit fuel (leaf_kit n))) (rs : list rect) : Prop :=
  match rs with
  | r :: ((_ :: _) as rs') =>
      match k_run (content_kit fuel (leaf_kit n)) c (rc_x r) (rc_y r) (rc_w r) (rc_h r) with
      | Ok (c', _, false, _, _) => goes_on_outside c' /\ begins_outside n c' rs'
      | _ => True
      end
  | _ => True
  end.

Section Same.
Variable same : list word -> list word -> Prop.
Hypothesis same_ok : congruent same.
Variable n : nat.
Hypothesis leaf_good : good same (leaf_kit n) (leaf_spec n).
Notation k := (leaf_kit n).
Notation content := (@Content.content (kE k) (kO k) (kS k)).

Lemma outside_clear {E S} : forall (rm : list (nat * list (@Content.delem E S))) cols (l : list (@Content.elem E)) i, outside cols l i (map fst rm) -> cols <= 1 /\ ContentCols.clear l i rm.
Proof.
  induction rm as [|[i' d'] rm IH]; intros cols l i; cbn [map fst outside ContentCols.clear]; [tauto|]. intros [H1 H2]. split; [exact H1|].
  destruct (nth_error l i) as [[s e|s id iw ih|s id l0|s n0 gap l']|]; try contradiction. destruct (IH _ _ _ H2) as [K1 K2]. exists s, n0, gap, l'. auto.
Qed.
Lemma flat_ok el : forall sv m, flat_cols n sv el -> m <= 1 -> (m = 1 -> sv = true) -> ContentCols.eok (sp_ok k (leaf_spec n)) (fun _ => False) 2 m el.
Proof.
  induction el as [s e|s id iw ih|s id l|s cols gap l IH] using elem_ind2; intros sv m; cbn [flat_cols ContentCols.eok]; auto.
  - intros H1 H2 H3. split; [exact H1|lia].
  - intros [H1 H2] H3 H4. induction IH as [|e l He IH IHl]; [exact I|]. cbn [fold_right] in *. destruct H2 as [H2 H5]. split; [|apply IHl, H5].
    unfold ContentCols.cnt in *. apply (He (sv || (1 <? cols))); [exact H2| |].
    + destruct (Nat.ltb_spec 1 cols) as [K|K]; [|lia]. destruct m as [|[|m]]; [lia| |lia]. specialize (H1 (H4 eq_refl)). lia.
    + intros K. destruct (1 <? cols); [apply orb_true_r|]. rewrite H4 by lia. reflexivity.
Qed.
Lemma written_words l : ContentCols.ltoks (sp_words k (leaf_spec n)) (fun _ _ => []) l = flat_map (el_written n) l.
Proof. apply flat_map_ext. intros el. induction el as [s e|s id iw ih|s id l0|s c0 gap l0 IH] using elem_ind2; try reflexivity.
  cbn [ContentCols.etok el_written]. induction IH as [|e l1 He IH IHl]; [reflexivity|]. cbn [flat_map]. rewrite He, IHl. reflexivity.
Qed.
Lemma placed_words (ps : list (@Content.placed (kO k) drawn)) :
  ContentCols.toks (flat_map shown_words) (fun _ _ => []) ps = flat_map shown_words (flat_map of_placed ps).
Proof.
  induction ps as [|p ps IH]; [reflexivity|]. unfold ContentCols.toks in *. cbn [flat_map]. rewrite flat_map_app, IH. f_equal. destruct p; [reflexivity|]. cbn. reflexivity.
Qed.
Lemma columns_words l cols gap rs fin pgs :
  Forall (flat_cols n (1 <? cols)) l -> begins_outside n (Content.fresh_content l cols gap) rs ->
  pages (content_kit fuel k) (Content.fresh_content l cols gap) rs = Ok (fin, pgs) ->
  exists rest, same (flat_map (el_written n) l) (PWhole.shown_on pgs ++ rest) /\ (fin = true -> rest = []).
Proof.
  intros Hl. destruct leaf_good as (inv & left & G1 & G2 & G3).
  assert (Hcg : ContentCols.cong same) by (constructor; [apply (sm_refl _ same_ok)|apply (sm_trans _ same_ok)|apply (sm_app _ same_ok)]).
  pose (rw := fun _ : kO k => False). pose (kin := fun _ _ : kO k => True).
  assert (A0 : forall a b c, kin a b -> kin b c -> kin a c) by (intros; exact I).
  assert (A1 : forall e o, sp_ok k (leaf_spec n) e -> k_start k e = Ok o -> inv o /\ same (sp_words k (leaf_spec n) e) (left o) /\ (False -> rw o)).
  { intros e o He H. destruct (G1 _ _ He H) as [K1 K2]. split; [exact K1|]. split; [apply (sm_sym _ same_ok), K2|auto]. }
  assert (A2 : forall o x y w h o' ht fin ps ls, inv o -> k_run k o x y w h = Ok (o', ht, fin, ps, ls) ->
    same (left o) (flat_map shown_words ps ++ left o') /\ (if fin then left o' = [] else inv o') /\ kin o o' /\ (rw o -> rw o')).
  { intros o x y w h o' ht fin0 ps ls Hi H. destruct (G2 _ _ _ _ _ _ _ _ _ _ Hi H) as (K1 & K2 & _). repeat (split; [assumption || exact I|]). auto. }
  assert (A3 : forall o, inv o -> inv (k_restore k o (k_save k o)) /\ left (k_restore k o (k_save k o)) = left o) by (intros o Hi; rewrite G3; auto).
  assert (A4 : forall o1 o, rw o1 -> kin o1 o -> inv o1 -> inv (k_restore k o (k_save k o1)) /\ left (k_restore k o (k_save k o1)) = left o1 /\ rw (k_restore k o (k_save k o1))) by (intros o1 o []).
  pose (ci := ContentCols.cinv (k_save k) (sp_ok k (leaf_spec n)) (fun _ => False) inv rw kin 2).
  pose (cl := ContentCols.cleft (k_restore k) (sp_words k (leaf_spec n)) left (fun _ _ => [])).
  assert (Hgen : forall rs (c0 : content) fin pgs, ci c0 -> Content.c_part c0 = None \/ goes_on_outside c0 -> begins_outside n c0 rs ->
    pages (content_kit fuel k) c0 rs = Ok (fin, pgs) -> exists rest, same (cl c0) (PWhole.shown_on pgs ++ rest) /\ (fin = true -> rest = [])).
  { clear rs fin pgs. induction rs as [|r rs IH]; intros c0 fin pgs Hi Ho Hb; cbn [pages].
    - intros H. injection H as <- <-. exists (cl c0). split; [apply (sm_refl _ same_ok)|discriminate].
    - assert (Hag : content_again c0 = c0) by (destruct c0; destruct Hi as [Hi _]; cbn in Hi; subst; reflexivity).
      destruct (k_run (content_kit fuel k) c0 _ _ _ _) as [[[[[c1 ht] f] ps] ls]|] eqn:Ek; [|discriminate]. cbn [bind].
      pose proof Ek as Er. cbn [content_kit k_run] in Er. rewrite Hag in Er.
      destruct (Content.run _ _ _ _ _ _ _ _ _ c0) as [[c2 o]| |] eqn:Eo; [|discriminate|discriminate]. injection Er as -> <- <- <- <-.
      destruct (ContentCols.page_step (k_start k) (k_run k) (k_save k) (k_restore k) same Hcg (sp_ok k (leaf_spec n)) (fun _ => False) (sp_words k (leaf_spec n)) inv rw kin left
        (flat_map shown_words) (fun _ _ => []) (fun _ => I) A0 A1 A2 A3 A4 (fun _ _ => I) 2 ltac:(lia) fuel (rc_x r) (rc_y r) (rc_w r) (rc_h r) c0 c1 o Hi) as [K1 K2]; [|exact Eo|].
      { destruct (Content.c_part c0) as [f|] eqn:Ec; [|exact I]. right. destruct Ho as [Ho|Ho]; [discriminate|]. unfold goes_on_outside, Content.get_state in Ho. rewrite Ec in Ho.
        apply outside_clear, Ho. }
      fold cl in K1. fold cl ci in K2. rewrite placed_words in K1.
      destruct (Content.c_finished c1) eqn:Ef.
      + intros H. injection H as <- <-. exists []. split; [|reflexivity]. rewrite K2 in K1. unfold PWhole.shown_on. cbn [flat_map]. rewrite !app_nil_r in *. exact K1.
      + destruct (pages (content_kit fuel k) c1 rs) as [[b l0]|] eqn:Ep; [|discriminate]. cbn [bind]. intros H. injection H as <- <-.
        assert (I0 : exists rest, same (cl c1) (PWhole.shown_on l0 ++ rest) /\ (b = true -> rest = [])).
        { destruct rs as [|r' rs'].
          - cbn [pages] in Ep. injection Ep as <- <-. exists (cl c1). split; [apply (sm_refl _ same_ok)|discriminate].
          - cbn [begins_outside] in Hb. rewrite Ek in Hb. destruct Hb as [Hb1 Hb2]. apply (IH c1); auto. }
        destruct I0 as (rest & I1 & I2). exists rest. split; [|exact I2]. unfold PWhole.shown_on. cbn [flat_map]. rewrite <- app_assoc.
        refine (sm_trans _ same_ok _ _ _ K1 _). apply (sm_app _ same_ok); [apply (sm_refl _ same_ok)|exact I1]. }
  intros Hb Hp. assert (Hok : ContentCols.eoks (sp_ok k (leaf_spec n)) (fun _ => False) 2 (ContentCols.cnt cols) l).
  { apply fold_forall. intros e He. rewrite Forall_forall in Hl. apply (flat_ok _ _ _ (Hl e He)); unfold ContentCols.cnt; destruct (1 <? cols); auto; discriminate. }
  destruct (ContentCols.fresh_cinv (k_save k) (k_restore k) (sp_ok k (leaf_spec n)) (fun _ => False) (sp_words k (leaf_spec n)) inv rw kin left (fun _ _ => []) 2 l cols gap Hok) as [F1 F2].
  rewrite <- written_words, <- F2. exact (Hgen rs _ fin pgs F1 (or_introl eq_refl) Hb Hp).
Qed.
End Same.

(** Boxes of columns with paragraphs: as long as each page after the first
    begins outside of columns, the words come in the order in which they are
    written, once, and all of them when the content is finished. *)
Theorem C75_columns_order_partial : forall l cols gap rs fin pgs,
  Forall (flat_cols 0 (1 <? cols)) l -> begins_outside 0 (Content.fresh_content l cols gap) rs ->
  pages (content_kit fuel (leaf_kit 0)) (Content.fresh_content l cols gap) rs = Ok (fin, pgs) ->
  exists rest, flat_map (el_written 0) l = PWhole.shown_on pgs ++ rest /\ (fin = true -> rest = []).
Proof. intros l cols gap rs fin pgs. apply (columns_words eq eq_congruent 0). apply (text_good eq eq_congruent). Qed.
(** The same with tables, in any order. *)
Theorem C75_columns_words_partial : forall n l cols gap rs fin pgs,
  Forall (flat_cols n (1 <? cols)) l -> begins_outside n (Content.fresh_content l cols gap) rs ->
  pages (content_kit fuel (leaf_kit n)) (Content.fresh_content l cols gap) rs = Ok (fin, pgs) ->
  exists rest, Permutation (flat_map (el_written n) l) (PWhole.shown_on pgs ++ rest) /\ (fin = true -> rest = []).
Proof. intros n l cols gap rs fin pgs. apply (columns_words _ perm_congruent n). apply leaf_good. Qed.
End Words.
Print Assumptions C75_columns_order_partial.
Print Assumptions C75_columns_words_partial.

(** A paragraph, a box of two columns with paragraphs and a table, a paragraph
    that goes over the end of the page, and a box of three columns in the second
    page. *)
Definition ex_line (s : string) (n : Q) := TextLayout.CText (lit s) (PText.ex_style n) [].
Definition ex_par (l : list TextLayout.cpart) : TextLayout.config := TextLayout.mkCfg l TextLayout.ALeft 1 0 None.
Notation ex_leaf := (@leaf_kit unit unit (fun _ _ => true) (fun q => q) PText.ex_text_w PText.ex_space_w PText.ex_ref 60).
Notation ex_leaf_spec := (@leaf_spec unit unit (fun _ _ => true) (fun q => q) PText.ex_text_w PText.ex_space_w PText.ex_ref 60).
Definition ex_rows (a b c : string) : TextLayout.config := ex_par [ex_line a 10; TextLayout.CBr; ex_line b 14; TextLayout.CBr; ex_line c 10].
Definition ex_text (a b c : string) : @Content.elem (kE (ex_leaf 1)) := Content.Leaf PWhole.ex_st (inl (ex_rows a b c)).
Definition ex_tab : kE (ex_leaf 1) :=
  inr (PWhole.ex_table [[PWhole.ex_cell 1 (inl (ex_rows "d" "e" "f")); PWhole.ex_cell 1 (inl (ex_rows "g" "h" "i"))]; [PWhole.ex_cell 1 (inl (ex_rows "j" "k" "l")); PWhole.ex_cell 1 (inl (ex_par []))]] 2 (inl (ex_par []))).
Definition ex_doc : list (@Content.elem (kE (ex_leaf 1))) :=
  [ex_text "one" "two" "three"; Content.Child PWhole.ex_st 2 None [ex_text "a" "b" "c"; Content.Leaf PWhole.ex_st ex_tab; ex_text "m" "n" "o"];
   ex_text "p" "q" "r"; Content.Child PWhole.ex_st 3 None [ex_text "s" "t" "u"; ex_text "v" "w" "x"]].
Definition ex_pages : list rect := repeat (mkRect 10 500 300 150) 2.
Definition said (r : res (bool * list (list drawn))) : list (list str) :=
  match r with Ok (true, pgs) => map (fun ps => map (fun w : word => snd w) (flat_map shown_words ps)) pgs | _ => [] end.
Example C75_columns_applies : Forall (flat_cols (fun _ _ => true) (fun q => q) PText.ex_text_w PText.ex_space_w PText.ex_ref 60 1 false) ex_doc /\
  begins_outside (F := unit) (B := unit) (fun _ _ => true) (fun q => q) PText.ex_text_w PText.ex_space_w PText.ex_ref 60 1 (Content.fresh_content ex_doc 1 None) ex_pages /\
  said (pages (content_kit 60 (ex_leaf 1)) (Content.fresh_content ex_doc 1 None) ex_pages) =
    [map lit ["one"; "two"; "three"; "a"; "b"; "c"; "d"; "e"; "f"; "g"; "h"; "i"; "j"; "k"; "l"; "m"; "n"; "o"; "p"]%string; map lit ["q"; "r"; "s"; "t"; "u"; "v"; "w"; "x"]%string].
Proof.
  assert (Hp : forall l, (0 < TextLayout.c_lh (ex_par l))%Q) by (intros l; reflexivity).
  split; [|split].
  - assert (Ht : sp_ok (ex_leaf 1) (ex_leaf_spec 1) ex_tab).
    { constructor; [cbn; lia| | |intros; cbn; lra].
      - intros row c Hr Hin. repeat (destruct Hr as [<-|Hr]; [repeat (destruct Hin as [<-|Hin]; [repeat split; cbn; first [lia|lra|exact (Hp _)]|]); try contradiction|]); try contradiction.
      - repeat split; cbn; first [lia|lra|exact (Hp _)]. }
    repeat (apply Forall_cons || apply Forall_nil); cbn [flat_cols fold_right ex_text];
      repeat match goal with |- _ /\ _ => split | |- true = true -> _ => fail | |- _ = true -> _ => intros; discriminate | |- True => exact I end; first [exact (Hp _)|exact Ht].
  - vm_compute. repeat split; repeat constructor.
  - vm_compute. reflexivity.
Qed.

(** *** Not when a page begins inside columns *)
(** A paragraph with lines of different heights, in two columns, over two
    pages: the text before the last line is lost, and there is no error.  To
    find the height at which the columns are even the paragraph is set back and
    run in lower columns; when a line does not fit there, the paragraph goes
    back to where its last line began in an earlier try, which [set_state] has
    not reset. *)
Definition ex_uneven : TextLayout.config :=
  ex_par [ex_line "one two" 10; TextLayout.CBr; ex_line "three" 10; TextLayout.CBr; ex_line "BIG" 30; TextLayout.CBr; ex_line "last words" 10].
Theorem C75_columns_refuted :
  exists pgs, pages (content_kit 60 (ex_leaf 0)) (Content.fresh_content [Content.Leaf PWhole.ex_st ex_uneven] 2 None) [mkRect 0 500 500 12; mkRect 0 500 500 100] = Ok (true, pgs) /\
    map (fun w : word => snd w) (sp_words (ex_leaf 0) (ex_leaf_spec 0) ex_uneven) = map lit ["one"; "two"; "three"; "BIG"; "last"; "words"]%string /\
    said (Ok (true, pgs)) = [map lit ["one"; "two"; "three"]%string; map lit ["last"; "words"]%string].
Proof. eexists. split; [vm_compute; reflexivity|]. split; vm_compute; reflexivity. Qed.
Print Assumptions C75_columns_refuted.

(** A list paragraph that begins in the second page, in columns that began in
    the first: its mark is not drawn. *)
Definition ex_item : TextLayout.config :=
  TextLayout.mkCfg [ex_line "item one" 10; TextLayout.CBr; ex_line "goes on" 10] TextLayout.ALeft 1 0 (Some (TextLayout.mkList (lit "*") (Some 20%Q) (fun s => s))).
Definition ex_with_item (cols : nat) : res (bool * list (list drawn)) :=
  pages (content_kit 60 (ex_leaf 0)) (Content.fresh_content [Content.Leaf PWhole.ex_st (ex_par [ex_line "a" 10; TextLayout.CBr; ex_line "b" 10]); Content.Leaf PWhole.ex_st ex_item] cols None)
    (repeat (mkRect 0 500 500 12) 2 ++ [mkRect 0 500 500 100]).
Definition strings_drawn (r : res (bool * list (list drawn))) : option (list (list str)) :=
  match r with
  | Ok (true, pgs) => Some (map (flat_map (fun p => match p with
      | DPar _ _ _ d => flat_map (fun op => match op with Gfx.GShow s => [s] | _ => [] end) (TextLayout.e_text (TextLayout.d_em d))
      | _ => [] end)) pgs)
  | _ => None
  end.
Theorem C75_list_mark_refuted :
  strings_drawn (ex_with_item 1) = Some [map lit ["a"]; map lit ["b"]; map lit ["*"; "item "; "one"; "goes "; "on"]]%string /\
  strings_drawn (ex_with_item 2) = Some [map lit ["a"; "b"]; map lit ["item "; "one"; "goes "; "on"]]%string.
Proof. split; vm_compute; reflexivity. Qed.
Print Assumptions C75_list_mark_refuted.

(** A table in two columns over two pages: most of two cells is lost (see also
    C42_restore_refuted). *)
Definition ex_lines6 (l : list string) : TextLayout.config := ex_par (flat_map (fun s => [ex_line s 10; TextLayout.CBr]) l).
Definition ex_split : kE (ex_leaf 1) :=
  inr (PWhole.ex_table [[PWhole.ex_cell 1 (inl (ex_lines6 ["a"; "b"; "c"; "d"; "e"; "f"]%string)); PWhole.ex_cell 1 (inl (ex_lines6 ["g"; "h"]%string))];
                        [PWhole.ex_cell 1 (inl (ex_lines6 ["i"; "j"]%string)); PWhole.ex_cell 1 (inl (ex_lines6 ["k"; "l"; "m"; "n"; "o"; "p"]%string))]] 2 (inl (ex_par []))).
Definition ex_run : res (bool * list (list drawn)) :=
    pages (content_kit 60 (ex_leaf 1)) (Content.fresh_content [Content.Leaf PWhole.ex_st ex_split] 2 None) [mkRect 0 500 500 35; mkRect 0 500 500 100].
Theorem C75_table_columns_refuted :
  map (fun w : word => snd w) (sp_words (ex_leaf 1) (ex_leaf_spec 1) ex_split) =
    map lit ["a"; "b"; "c"; "d"; "e"; "f"; "g"; "h"; "i"; "j"; "k"; "l"; "m"; "n"; "o"; "p"]%string /\
  said ex_run = [map lit ["a"; "b"; "g"; "h"; "c"; "d"]%string; map lit ["o"; "p"; "i"; "j"]%string].
Proof. split; vm_compute; reflexivity. Qed.
Print Assumptions C75_table_columns_refuted.
