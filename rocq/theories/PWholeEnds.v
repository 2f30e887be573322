(** C84: contents with paragraphs, tables and boxes inside one another end:
    [PDF.text], [PDF.table] and [PDF.content] add a finite number of pages, and
    then all of the words are shown. *)
From Coq Require Import String QArith ZArith Lia Lqa List Bool Permutation.
From Verif Require Import Py Whole WholeProofs WholeEnds PWhole.
From Verif Require TextLayout TextOrder TextTerm Table TableTokens TableEnds Content ContentFlow ContentEnds PText.
Import ListNotations.
Open Scope list_scope.
Open Scope nat_scope.

(** A page that is at least [H] high and at most [W] wide. *)
Definition page_of (H W : Q) (r : rect) : Prop := (H <= rc_h r /\ rc_w r <= W)%Q.

Section Pages.
Context {F B : Type}.
Variable k : @kit F B.
Variable H W : Q.
Variable inv : kO k -> Prop.
Variable m : kO k -> nat.
Hypothesis step : forall o x y w h, inv o -> exists o' ht fin ps ls, k_run k o x y w h = Ok (o', ht, fin, ps, ls) /\
  (fin = false -> inv o' /\ m o' <= m o /\ ((H <= h)%Q -> (w <= W)%Q -> m o' < m o)).
Lemma pages_end : forall rs o, inv o -> m o < length rs -> Forall (page_of H W) rs -> exists pgs, pages k o rs = Ok (true, pgs).
Proof.
  induction rs as [|r rs IH]; intros o Hi Hm Hr; cbn [length] in Hm; [lia|]. inversion Hr as [|? ? [R1 R2] Hr2]; subst. cbn [pages].
  destruct (step o (rc_x r) (rc_y r) (rc_w r) (rc_h r) Hi) as (o' & ht & fin & ps & ls & -> & K). cbn [bind]. destruct fin; [now eauto|].
  destruct (K eq_refl) as (K1 & _ & K3). specialize (K3 R1 R2). destruct (IH o' K1 ltac:(lia) Hr2) as (pgs & ->). cbn [bind]. now eauto.
Qed.
Lemma pages_end_first r0 rs o : inv o -> m o < length rs -> Forall (page_of H W) rs -> exists pgs, pages k o (r0 :: rs) = Ok (true, pgs).
Proof.
  intros Hi Hm Hr. cbn [pages]. destruct (step o (rc_x r0) (rc_y r0) (rc_w r0) (rc_h r0) Hi) as (o' & ht & fin & ps & ls & -> & K). cbn [bind]. destruct fin; [now eauto|].
  destruct (K eq_refl) as (K1 & K2 & _). destruct (pages_end rs o' K1 ltac:(lia) Hr) as (pgs & ->). cbn [bind]. now eauto.
Qed.
End Pages.
Lemma live_ends {F B} (k : @kit F B) r H W e : live k r -> (0 <= W)%Q -> fits k r H W e ->
  exists o n0, k_start k e = Ok o /\ forall r0 rs, n0 < length rs -> Forall (page_of H W) rs -> exists pgs, pages k o (r0 :: rs) = Ok (true, pgs).
Proof.
  intros (size & m & _ & L) HW He. destruct (L H W HW) as (inv & A1 & A2). destruct (A1 e He) as (o & E & Hi & Hm). exists o, (m o). split; [exact E|].
  intros r0 rs Hl Hr. exact (pages_end_first k H W inv m A2 r0 rs o Hi Hl Hr).
Qed.

Section Ends.
Context {F B : Type}.
Variable b_eqb : B -> B -> bool.
Variable round3 : Q -> Q.
Variable text_w : TextLayout.fkey -> str -> Q.
Variable space_w : TextLayout.fkey -> Q.
Variable fref : TextLayout.fkey -> str.
Variable fuel : nat.
Notation leaf_kit := (@leaf_kit F B b_eqb round3 text_w space_w fref fuel).
Notation leaf_spec := (@leaf_spec F B b_eqb round3 text_w space_w fref fuel).
Notation leaf_room := (@leaf_room F B round3 text_w space_w fref fuel b_eqb).

(** [PDF.text] and [PDF.table]: what fits in a page is finished after a number
    of pages that depends on it alone.  The first rectangle, what is left of the
    page, may be of any size. *)
Theorem C84_alone_partial : forall n e H W, (0 <= W)%Q -> fits (leaf_kit n) (leaf_room n) H W e ->
  exists o n0, k_start (leaf_kit n) e = Ok o /\ forall r0 rs, n0 < length rs -> Forall (page_of H W) rs ->
    exists pgs, pages (leaf_kit n) o (r0 :: rs) = Ok (true, pgs).
Proof. intros n e H W HW He. apply (live_ends _ (leaf_room n) H W e); [apply leaf_live_kept|exact HW|exact He]. Qed.

(** [PDF.content], with paragraphs, tables and boxes inside one another. *)
Theorem C84_content_partial : forall n l gap H W, (0 <= W)%Q -> ContentEnds.box_ok (O := kO (leaf_kit n)) (fits (leaf_kit n) (leaf_room n) H W) fuel l ->
  exists n0, forall r0 rs, n0 < length rs -> Forall (page_of H W) rs ->
    exists pgs, pages (content_kit fuel (leaf_kit n)) (Content.fresh_content l 1 gap) (r0 :: rs) = Ok (true, pgs).
Proof.
  intros n l gap H W HW Hl. destruct (leaf_live_kept (F := F) round3 text_w space_w fref fuel b_eqb n) as [L K].
  destruct (live_ends _ (content_room fuel (leaf_room n)) H W (mkBox l 1 gap) (content_live fuel _ _ L K) HW) as (o & n0 & E & G); [split; [reflexivity|exact Hl]|].
  cbn in E. injection E as <-. exists n0. exact G.
Qed.

(** And then each word of it is shown, once. *)
Theorem C84_shown_partial : forall n l gap H W, (0 <= W)%Q -> ContentEnds.box_ok (O := kO (leaf_kit n)) (fits (leaf_kit n) (leaf_room n) H W) fuel l ->
  els_ok (leaf_kit n) (leaf_spec n) None l ->
  exists n0, forall r0 rs, n0 < length rs -> Forall (page_of H W) rs ->
    exists pgs, pages (content_kit fuel (leaf_kit n)) (Content.fresh_content l 1 gap) (r0 :: rs) = Ok (true, pgs) /\
      Permutation (flat_map (el_words (leaf_kit n) (leaf_spec n)) l) (shown_on pgs).
Proof.
  intros n l gap H W HW Hl Hs. destruct (C84_content_partial n l gap H W HW Hl) as (n0 & G). exists n0. intros r0 rs Hn Hr.
  destruct (G r0 rs Hn Hr) as (pgs & E). exists pgs. split; [exact E|].
  destruct (content_good _ perm_congruent fuel _ _ (leaf_good (F := F) b_eqb round3 text_w space_w fref fuel n)) as (inv & left & G1 & G2 & G3).
  destruct (G1 (mkBox l 1 gap) _ (conj eq_refl Hs) eq_refl) as [K1 K2].
  cbn [bx_elems bx_cols bx_gap] in K1, K2.
  destruct (fun Hg => pages_words _ perm_congruent (content_kit fuel (leaf_kit n)) (fun _ => True) inv left Hg (r0 :: rs) _ true pgs K1 (proj2 (Forall_forall _ _) (fun _ _ => I)) E) as (rest & R1 & R2).
  - intros o1 r o' ht f ps ls Hi _ Hrun. destruct (G2 _ _ _ _ _ _ _ _ _ _ Hi Hrun) as (P1 & P2 & _). auto.
  - rewrite (R2 eq_refl), app_nil_r in R1. rewrite <- R1. symmetry. exact K2.
Qed.
End Ends.
Print Assumptions C84_alone_partial.
Print Assumptions C84_content_partial.
Print Assumptions C84_shown_partial.

(** The paragraph, the table with a box and a table in it, and the box of the
    example of C75, on pages of 40 by 40 points; the first rectangle has a height
    of 3 points. *)
Notation ex_leaf_room := (@leaf_room unit unit (fun q => q) PText.ex_text_w PText.ex_space_w PText.ex_ref 60 (fun _ _ => true)).
Definition ex_doc84 : list (@Content.elem (kE (ex_leaf 2))) :=
  [Content.Leaf ex_st (inl (ex_par (lit "one two three"))); Content.Leaf ex_st ex_outer;
   Content.Child ex_st 1 None [Content.Leaf ex_st (inl (ex_par (lit "after it")))]].
Definition ex_result84 := pages (content_kit 60 (ex_leaf 2)) (Content.fresh_content ex_doc84 1 None) (mkRect 10 30 40 3 :: ex_pages).
Definition ex_shown84 : list (list str) := match ex_result84 with Ok (true, pgs) => map (fun ps => map (fun w : word => snd w) (flat_map shown_words ps)) pgs | _ => [] end.
Example C84_applies : ContentEnds.box_ok (O := kO (ex_leaf 2)) (fits (ex_leaf 2) (ex_leaf_room 2) 40 40) 60 ex_doc84 /\
  els_ok (ex_leaf 2) (ex_leaf_spec 2) None ex_doc84 /\ Forall (page_of 40 40) ex_pages /\
  ex_shown84 = [[]; map lit ["one"; "two"; "three"; "a"; "b"; "c"; "d"; "e"; "f"; "g"; "k"; "l"; "m"; "n"; "u"; "v"; "w"; "x"]%string;
              map lit ["o"; "p"; "i1"; "i2"; "i3"; "j1"; "y"; "z"]%string;
              map lit ["j2"; "q"; "r"; "end"; "of"; "table"]%string; map lit ["after"; "it"]%string].
Proof.
  assert (Hp : forall s H W, (6 <= H)%Q -> fits (ex_leaf 0) (ex_leaf_room 0) H W (ex_par s)).
  { intros s H W HH. split; [left; reflexivity|]. exists 4%Q, 0%Q. split; [cbn; repeat split; lra|]. intros y [<-|[]]. cbn. split; lra. }
  assert (Hb : forall E (fit empty : E -> Prop) rows blank, (forall row, In row rows -> length row = 2) ->
    (forall row c, In row rows -> In c row -> TableEnds.cell_ok fit 2 c) -> fit blank -> empty blank -> table_fits fit empty 2 1 (ex_table rows 2 blank)).
  { intros E fit empty rows blank H1 H2 H3 H4. constructor; [cbn; lia|exact H1|exact H2| |intros; cbn; lra|intros; cbn; lra| |vm_compute; discriminate].
    - split; [|split; [reflexivity|exact H4]]. split; [cbn; lia|]. split; [repeat split; cbn; lra|exact H3].
    - repeat constructor; vm_compute; discriminate. }
  assert (Hc : forall E (fit : E -> Prop) n e, fit e -> TableEnds.cell_ok fit 2 (ex_cell n e)).
  { intros E fit n e H. split; [cbn; lia|]. split; [repeat split; cbn; lra|exact H]. }
  assert (Hs : ContentEnds.side_ok ex_st) by (split; cbn; lra).
  assert (Hi : fits (ex_leaf 1) (ex_leaf_room 1) 30 40 ex_inner).
  { exists 27%Q, 2%Q, 1%Q. split; [lra|]. apply Hb.
    - intros row [<-|[<-|[]]]; reflexivity.
    - intros row c Hr Hin.
      repeat (destruct Hr as [<-|Hr]; [repeat (destruct Hin as [<-|Hin]; [apply Hc; first [apply Hp; lra|cbn; repeat split; lra]|]); try contradiction|]); try contradiction.
    - apply Hp. lra.
    - reflexivity. }
  assert (Ho : fits (ex_leaf 2) (ex_leaf_room 2) 40 40 ex_outer).
  { exists 30%Q, 2%Q, 1%Q. split; [lra|]. apply Hb.
    - intros row [<-|[<-|[<-|[]]]]; reflexivity.
    - intros row c Hr Hin.
      repeat (destruct Hr as [<-|Hr]; [repeat (destruct Hin as [<-|Hin]; [apply Hc; first [apply Hp; lra|
        split; [reflexivity|split; [do 2 (split; [split; [exact Hs|first [apply Hp; lra|exact Hi]]|]); split; [split; [exact Hs|apply Hp; lra]|exact I]|cbn; lia]]]|]); try contradiction|]); try contradiction.
    - apply Hp. lra.
    - reflexivity. }
  destruct C75_applies as ((E1 & E2 & _ & E3 & _) & _).
  split; [|split; [|split; [apply Forall_forall; intros r Hr; apply repeat_spec in Hr; subst r; split; cbn; lra|vm_compute; reflexivity]]].
  - split; [|cbn; lia]. split; [split; [exact Hs|apply Hp; lra]|]. split; [split; [exact Hs|exact Ho]|]. split; [|exact I].
    split; [reflexivity|]. split; [discriminate|]. split; [split; [exact Hs|apply Hp; lra]|exact I].
  - split; [exact E1|]. split; [exact E2|]. split; [exact E3|exact I].
Qed.

(** In a table with an image in a cell that is higher than the page, pages are
    added without end, although the cell beside it is finished. *)
Definition ex_high : kE (ex_leaf 1) := inr (ex_table [[ex_cell 1 (inl (ex_par (lit "a"))); ex_cell 1 (inr (inl (1, 4)%Q))]] 2 (inl (ex_par []))).
Definition ex_high_start : kO (ex_leaf 1) := inr (match ex_high with inr t => t | inl _ => ex_table [] 2 (inl (ex_par [])) end, Table.fresh_table).
Definition ex_high_stuck : kO (ex_leaf 1) := match k_run (ex_leaf 1) ex_high_start 10 100 40 40 with Ok (o, _, _, _, _) => o | Err _ => ex_high_start end.
Theorem C84_image_refuted : k_start (ex_leaf 1) ex_high = Ok ex_high_start /\
  forall n, exists pgs, pages (ex_leaf 1) ex_high_start (repeat (mkRect 10 100 40 40) n) = Ok (false, pgs).
Proof.
  split; [reflexivity|].
  assert (H1 : exists ht ps ls, k_run (ex_leaf 1) ex_high_start 10 100 40 40 = Ok (ex_high_stuck, ht, false, ps, ls)) by (do 3 eexists; vm_compute; reflexivity).
  assert (H2 : exists ht ps ls, k_run (ex_leaf 1) ex_high_stuck 10 100 40 40 = Ok (ex_high_stuck, ht, false, ps, ls)) by (do 3 eexists; vm_compute; reflexivity).
  assert (H3 : forall n, exists pgs, pages (ex_leaf 1) ex_high_stuck (repeat (mkRect 10 100 40 40) n) = Ok (false, pgs)).
  { destruct H2 as (ht & ps & ls & E). induction n as [|n [pgs IH]]; cbn [repeat pages rc_x rc_y rc_w rc_h]; [now eauto|]. rewrite E. cbn [bind]. rewrite IH. cbn [bind]. now eauto. }
  intros [|n]; cbn [repeat pages rc_x rc_y rc_w rc_h]; [now eauto|]. destruct H1 as (ht & ps & ls & ->). cbn [bind]. destruct (H3 n) as (pgs & ->). cbn [bind]. now eauto.
Qed.
Print Assumptions C84_image_refuted.
