(** C83: all paragraphs and images of contents, with tables and boxes inside one
    another, lie within the rectangle of their page. *)
From Coq Require Import String QArith Qround ZArith Lia Lqa List Bool.
From Verif Require Import Py Whole TableRoom WholeRoom PWhole.
From Verif Require TextLayout TextFit Table Content ContentGeom ContentRoom PText.
Import ListNotations.
Open Scope list_scope.
Open Scope nat_scope.

(** Whatever is visible on a page is within the rectangle of the page. *)
Definition on_page (bottom : Prop) (r : rect) (ps : list drawn) : Prop :=
  forall it, In it ps -> visible it -> within bottom (rc_x r) (rc_y r) (rc_w r) (rc_h r) it.

Section Pages.
Variable bottom : Prop.
Context {F B : Type}.
Variable k : @kit F B.
Variable room : rect -> Prop.
Variable inv : kO k -> Prop.
Hypothesis G : forall o r o' ht fin ps ls, inv o -> room r -> k_run k o (rc_x r) (rc_y r) (rc_w r) (rc_h r) = Ok (o', ht, fin, ps, ls) ->
  inv o' /\ Forall (R bottom (rc_x r) (rc_y r) (rc_w r) (rc_h r)) ps.
Lemma pages_within : forall rs o fin pgs, inv o -> Forall room rs -> pages k o rs = Ok (fin, pgs) -> Forall2 (on_page bottom) (firstn (length pgs) rs) pgs.
Proof.
  induction rs as [|r rs IH]; intros o fin pgs Hi Hr; cbn [pages].
  - intros H. injection H as <- <-. constructor.
  - inversion Hr as [|? ? Hr1 Hr2]; subst. destruct (k_run k o (rc_x r) (rc_y r) (rc_w r) (rc_h r)) as [[[[[o' ht] f] ps] ls]|] eqn:Er; [|discriminate]. cbn [bind].
    destruct (G _ _ _ _ _ _ _ Hi Hr1 Er) as [G1 G2].
    assert (Hp : on_page bottom r ps). { intros it Hit Hv. destruct (proj1 (Forall_forall _ _) G2 it Hit Hv) as (_ & _ & K). exact K. }
    destruct f.
    + intros H. injection H as <- <-. cbn [length firstn]. constructor; [exact Hp|constructor].
    + destruct (pages k o' rs) as [[b l]|] eqn:Ep; [|discriminate]. cbn [bind]. intros H. injection H as <- <-. cbn [length firstn]. constructor; [exact Hp|]. exact (IH _ _ _ G1 Hr2 Ep).
Qed.
End Pages.

Section Room.
Context {F B : Type}.
Variable b_eqb : B -> B -> bool.
Variable round3 : Q -> Q.
Variable text_w : TextLayout.fkey -> str -> Q.
Variable space_w : TextLayout.fkey -> Q.
Variable fref : TextLayout.fkey -> str.
Variable fuel : nat.
Notation leaf_kit := (@leaf_kit F B b_eqb round3 text_w space_w fref fuel).
Notation leaf_okay := (fun bottom => @leaf_okay bottom F B b_eqb round3 text_w space_w fref fuel).

(** [PDF.content] with paragraphs, images, groups, tables and boxes inside one
    another to any depth.  The styles [St] of the box leave the columns a width;
    if all boxes have one column, [bottom] can be [True]. *)
Theorem C83_content_partial : forall (bottom : Prop) n (St : Content.style -> Prop) l cols gap rs fin pgs,
  (forall s, St s -> plain s) ->
  box_okay bottom (leaf_okay bottom n) True (n = 0) St (mkBox l cols gap) ->
  Forall (fun r => forall l' x w s, ContentGeom.strip cols gap l (rc_x r) (rc_w r) l' x w -> St s -> (Content.s_ml s + Content.s_mr s <= w)%Q) rs ->
  pages (content_kit fuel (leaf_kit n)) (Content.fresh_content l cols gap) rs = Ok (fin, pgs) ->
  Forall2 (on_page bottom) (firstn (length pgs) rs) pgs.
Proof.
  intros bottom n St l cols gap rs fin pgs HSt Hbox Hr Hp. destruct (leaf_roomy bottom b_eqb (F:=F) round3 text_w space_w fref fuel n) as (okO & okS & G).
  assert (Hf : n = 0 -> forall o x y w h o' ht fin ps ls, k_run (leaf_kit n) o x y w h = Ok (o', ht, fin, ps, ls) -> (0 < ht)%Q -> (ht <= h)%Q).
  { intros ->. exact (text_fits round3 text_w space_w fref). }
  pose (room := fun r => forall l' x w s, ContentGeom.strip cols gap l (rc_x r) (rc_w r) l' x w -> St s -> (Content.s_ml s + Content.s_mr s <= w)%Q).
  refine (pages_within bottom (content_kit fuel (leaf_kit n)) room
    (fun c => rests bottom fuel (leaf_kit n) (leaf_okay bottom n) okO okS True (n = 0) St c /\ (Content.c_elems c = l /\ Content.c_cols c = cols /\ Content.c_gap c = gap)) _ rs _ fin pgs _ Hr Hp).
  - intros c r c' ht f ps ls [Hi (E1 & E2 & E3)] Hroom Hrun.
    destruct (box_run bottom fuel (leaf_kit n) (leaf_okay bottom n) okO okS G True (n = 0) Hf St HSt c (rc_x r) (rc_y r) (rc_w r) (rc_h r) c' ht f ps ls Hi) as (A1 & (A2 & A3 & A4) & A5); [|exact Hrun|].
    + intros _ l' x w s. rewrite E1, E2, E3. apply Hroom.
    + split; [|exact A5]. split; [exact A1|]. rewrite A2, A3, A4. auto.
  - split; [|repeat split]. refine (box_start bottom fuel (leaf_kit n) _ okO okS True (n = 0) St (mkBox l cols gap) _ Hbox eq_refl).
Qed.

(** [PDF.table] and [PDF.text]. *)
Theorem C83_alone_partial : forall (bottom : Prop) n e o rs fin pgs,
  leaf_okay bottom n e -> k_start (leaf_kit n) e = Ok o -> pages (leaf_kit n) o rs = Ok (fin, pgs) ->
  Forall2 (on_page bottom) (firstn (length pgs) rs) pgs.
Proof.
  intros bottom n e o rs fin pgs He Hs Hp. destruct (leaf_roomy bottom b_eqb (F:=F) round3 text_w space_w fref fuel n) as (okO & okS & G).
  refine (pages_within bottom (leaf_kit n) (fun _ => True) okO _ rs _ fin pgs (rm_start _ _ _ _ _ G _ _ He Hs) _ Hp).
  - intros o1 r o' ht f ps ls Hi _ Hr. exact (rm_run _ _ _ _ _ G _ _ _ _ _ _ _ _ _ _ Hi Hr).
  - apply Forall_forall. auto.
Qed.
End Room.
Print Assumptions C83_content_partial.
Print Assumptions C83_alone_partial.

(** The content of PWhole: a paragraph, a table with cells over columns and a box
    with a table in one of them, an image and a box. *)
Definition ex_places : list (list (Z * Z * Z * Z)) :=
  match ex_result with
  | Ok (true, pgs) => map (fun ps => map (fun it => (Qfloor (it_left it), Qfloor (it_top it), Qfloor (it_width it), Qfloor (it_height it))) ps) pgs
  | _ => [] end.
Example C83_applies :
  box_okay True (@leaf_okay True unit unit (fun _ _ => true) (fun q => q) PText.ex_text_w PText.ex_space_w PText.ex_ref 60 2) True (2 = 0) (fun s => s = ex_st) (mkBox ex_doc 1 None) /\
  plain ex_st /\
  Forall (fun r => forall l' x w s, ContentGeom.strip 1 None ex_doc (rc_x r) (rc_w r) l' x w -> s = ex_st -> (Content.s_ml s + Content.s_mr s <= w)%Q) ex_pages /\
  ex_places =
    [[(10, 100, 40, 9); (11, 84, 37, 9); (11, 71, 17, 9); (31, 71, 17, 9)];
     [(11, 98, 17, 5); (13, 86, 5, 13); (21, 86, 5, 3); (13, 70, 5, 5); (21, 70, 5, 5); (31, 98, 17, 5)];
     [(13, 97, 5, 5); (21, 97, 5, 5); (11, 85, 17, 5); (31, 98, 17, 5); (11, 77, 17, 5); (31, 77, 17, 9)];
     [(10, 100, 40, 30); (10, 65, 40, 0)]; [(10, 100, 40, 5)]]%Z.
Proof.
  assert (Hs : plain ex_st) by (split; [cbn; lra|exact I]).
  assert (Ht : forall E (okE : E -> Prop) rows cols (blank : E), (Table.qsum (repeat (1 / inject_Z (Z.of_nat cols))%Q cols) <= 1)%Q -> Forall (fun w => (0 <= w)%Q) (repeat (1 / inject_Z (Z.of_nat cols))%Q cols) ->
    (forall row c, In row rows -> In c row -> ok_cell okE c) -> okE blank -> ok_table (ex_table rows cols blank) okE).
  { intros E okE rows cols blank H1 H2 H3 H4. constructor; cbn [ex_table Table.t_rows Table.t_blank Table.t_bv Table.t_bh Table.t_widths].
    - apply Forall_forall. intros row Hr. apply Forall_forall. intros c Hc. exact (H3 row c Hr Hc).
    - split; [unfold ok_margins; cbn; lra|exact H4].
    - intros. cbn. lra.
    - intros. cbn. lra.
    - exact H2.
    - exact H1. }
  assert (Hc : forall E (okE : E -> Prop) n e, okE e -> ok_cell okE (ex_cell n e)).
  { intros E okE n e H. split; [unfold ok_margins; cbn; lra|exact H]. }
  assert (Hi : @leaf_okay True unit unit (fun _ _ => true) (fun q => q) PText.ex_text_w PText.ex_space_w PText.ex_ref 60 1 ex_inner).
  { apply Ht; [vm_compute; discriminate|repeat constructor; vm_compute; discriminate| |exact I]. intros row c Hr Hin.
    repeat (destruct Hr as [<-|Hr]; [repeat (destruct Hin as [<-|Hin]; [apply Hc; exact I|]); try contradiction|]); try contradiction. }
  assert (Ho : @leaf_okay True unit unit (fun _ _ => true) (fun q => q) PText.ex_text_w PText.ex_space_w PText.ex_ref 60 2 ex_outer).
  { apply Ht; [vm_compute; discriminate|repeat constructor; vm_compute; discriminate| |exact I]. intros row c Hr Hin.
    repeat (destruct Hr as [<-|Hr]; [repeat (destruct Hin as [<-|Hin]; [apply Hc; first [exact I|split; [|split; [cbn; tauto|split; [exact I|reflexivity]]]; split; [split; [exact Hs|exact I]|]; split; [split; [exact Hs|exact Hi]|]; split; [split; [exact Hs|exact I]|exact I]]|]); try contradiction|]); try contradiction. }
  split; [|split; [exact Hs|split; [|vm_compute; reflexivity]]].
  - split; [|split; [cbn; tauto|split; [exact I|reflexivity]]]. split; [split; [reflexivity|exact I]|]. split; [split; [reflexivity|exact Ho]|].
    split; [split; [reflexivity|]; split; [exact I|split; reflexivity]|]. split; [|exact I]. split; [reflexivity|]. split; [reflexivity|]. split; [split; [reflexivity|exact I]|exact I].
  - apply Forall_forall. intros r Hr l' x w s Hst ->. apply repeat_spec in Hr. subst r. cbn [ex_st Content.s_ml Content.s_mr rc_x rc_w] in *.
    assert (Hw : (w == 40)%Q); [|lra].
    induction Hst as [k x Hk Hx|l x w s m g l' k x' H IH Hin Hk Hx]; [reflexivity|].
    assert (Hl : l = ex_doc \/ l = [Content.Leaf ex_st (inl (ex_par (lit "after it")))]).
    { clear - H. induction H as [|? ? ? ? ? ? ? ? ? H IH Hin]; [left; reflexivity|]. destruct IH as [->| ->].
      - destruct Hin as [K|[K|[K|[K|[]]]]]; try discriminate. injection K as <- <- <- <-. right. reflexivity.
      - destruct Hin as [K|[]]. discriminate. }
    destruct Hl as [-> | ->]; [|destruct Hin as [K|[]]; discriminate].
    destruct Hin as [K|[K|[K|[K|[]]]]]; try discriminate. injection K as <- <- <- <-. unfold ContentGeom.col_of. set (q := ContentGeom.gap_of None w). change (ContentGeom.qn 1) with 1%Q. assert (K : ((w - q * (1 - 1)) / 1 == w)%Q) by field. rewrite K. exact IH.
Qed.
