(** C75: in contents with paragraphs, tables and boxes inside one another,
    nothing that is written is lost or shown twice. *)
From Coq Require Import String QArith ZArith Lia Lqa List Bool Permutation.
From Verif Require Import Py Whole WholeProofs.
From Verif Require TextLayout Table TableTokens Content ContentFlow PText.
Import ListNotations.
Open Scope list_scope.
Open Scope nat_scope.

(** The words that are shown on pages. *)
Definition shown_on (pgs : list (list drawn)) : list word := flat_map (flat_map shown_words) pgs.

Section Pages.
Variable same : list word -> list word -> Prop.
Hypothesis same_ok : congruent same.
Context {F B : Type}.
Variable k : @kit F B.
Variable room : rect -> Prop.
Variable inv : kO k -> Prop.
Variable left : kO k -> list word.
Hypothesis G : forall o r o' ht fin ps ls, inv o -> room r -> k_run k o (rc_x r) (rc_y r) (rc_w r) (rc_h r) = Ok (o', ht, fin, ps, ls) ->
   same (left o) (flat_map shown_words ps ++ left o') /\ (if fin then left o' = [] else inv o').
Lemma pages_words : forall rs o fin pgs, inv o -> Forall room rs -> pages k o rs = Ok (fin, pgs) ->
  exists rest, same (left o) (shown_on pgs ++ rest) /\ (fin = true -> rest = []).
Proof.
  induction rs as [|r rs IH]; intros o fin pgs Hi Hr; cbn [pages].
  - intros H. injection H as <- <-. exists (left o). split; [apply (sm_refl _ same_ok)|discriminate].
  - inversion Hr as [|? ? Hr1 Hr2]; subst. destruct (k_run k o (rc_x r) (rc_y r) (rc_w r) (rc_h r)) as [[[[[o' ht] f] ps] ls]|] eqn:Er; [|discriminate]. cbn [bind].
    destruct (G _ _ _ _ _ _ _ Hi Hr1 Er) as [G1 G2]. destruct f.
    + intros H. injection H as <- <-. exists []. split; [|reflexivity]. rewrite G2 in G1. unfold shown_on. cbn [flat_map]. rewrite !app_nil_r in *. exact G1.
    + destruct (pages k o' rs) as [[b l]|] eqn:Ep; [|discriminate]. cbn [bind]. intros H. injection H as <- <-.
      destruct (IH _ _ _ G2 Hr2 Ep) as (rest & I1 & I2). exists rest. split; [|exact I2]. unfold shown_on. cbn [flat_map]. rewrite <- app_assoc.
      refine (sm_trans _ same_ok _ _ _ G1 _). apply (sm_app _ same_ok); [apply (sm_refl _ same_ok)|exact I1].
Qed.
End Pages.

Section Words.
Context {F B : Type}.
Variable b_eqb : B -> B -> bool.
Variable round3 : Q -> Q.
Variable text_w : TextLayout.fkey -> str -> Q.
Variable space_w : TextLayout.fkey -> Q.
Variable fref : TextLayout.fkey -> str.
Variable fuel : nat.
Notation leaf_kit := (@leaf_kit F B b_eqb round3 text_w space_w fref fuel).
Notation leaf_spec := (@leaf_spec F B b_eqb round3 text_w space_w fref fuel).

(** [PDF.content] with boxes of paragraphs, and images that keep their place:
    the words come in the order in which they are written, over the pages, and
    all of them when it is finished. *)
Theorem C75_order_partial : forall l gap W0 rs fin pgs,
  els_ok (leaf_kit 0) (leaf_spec 0) (Some W0) l -> Forall (fun r => (W0 <= rc_w r)%Q) rs ->
  pages (content_kit fuel (leaf_kit 0)) (Content.fresh_content l 1 gap) rs = Ok (fin, pgs) ->
  exists rest, flat_map (el_words (leaf_kit 0) (leaf_spec 0)) l = shown_on pgs ++ rest /\ (fin = true -> rest = []).
Proof.
  intros l gap W0 rs fin pgs Hl Hr Hp. destruct (text_good eq eq_congruent (F:=F) (B:=B) round3 text_w space_w fref) as (inv & left & G1 & G2 & G3).
  destruct (fresh_inv (leaf_kit 0) (leaf_spec 0) inv left (Some W0) l gap Hl) as [K1 K2]. rewrite <- K2.
  refine (pages_words eq eq_congruent (content_kit fuel (leaf_kit 0)) (fun r => (W0 <= rc_w r)%Q)
    (c_inv (leaf_kit 0) (leaf_spec 0) inv (Some W0)) (c_left (leaf_kit 0) (leaf_spec 0) left) _ rs _ fin pgs K1 Hr Hp).
  intros c r c' ht f ps ls Hi Hroom. cbn [content_kit k_run]. rewrite (c_again _ _ _ _ c Hi).
  destruct (Content.run _ _ _ _ _ _ _ _ _ c) as [[c1 o]|e|] eqn:Er; [|discriminate|discriminate]. intros H. injection H as <- <- <- <- <-.
  destruct (content_run eq eq_congruent fuel _ (leaf_spec 0) inv left G1 G2 G3 (Some W0) c _ _ _ _ c1 o Hi Hroom Er) as (R1 & R2 & _). split; [exact R1|exact R2].
Qed.

(** [PDF.content] with paragraphs, tables and boxes inside one another to any
    depth: each word is shown once, or is left; all of them are shown when it is
    finished. *)
Theorem C75_words_partial : forall n l gap W0 rs fin pgs,
  els_ok (leaf_kit n) (leaf_spec n) (Some W0) l -> Forall (fun r => (W0 <= rc_w r)%Q) rs ->
  pages (content_kit fuel (leaf_kit n)) (Content.fresh_content l 1 gap) rs = Ok (fin, pgs) ->
  exists rest, Permutation (flat_map (el_words (leaf_kit n) (leaf_spec n)) l) (shown_on pgs ++ rest) /\ (fin = true -> rest = []).
Proof.
  intros n l gap W0 rs fin pgs Hl Hr Hp. destruct (leaf_good (F:=F) b_eqb round3 text_w space_w fref fuel n) as (inv & left & G1 & G2 & G3).
  destruct (fresh_inv (leaf_kit n) (leaf_spec n) inv left (Some W0) l gap Hl) as [K1 K2]. rewrite <- K2.
  refine (pages_words _ perm_congruent (content_kit fuel (leaf_kit n)) (fun r => (W0 <= rc_w r)%Q)
    (c_inv (leaf_kit n) (leaf_spec n) inv (Some W0)) (c_left (leaf_kit n) (leaf_spec n) left) _ rs _ fin pgs K1 Hr Hp).
  intros c r c' ht f ps ls Hi Hroom. cbn [content_kit k_run]. rewrite (c_again _ _ _ _ c Hi).
  destruct (Content.run _ _ _ _ _ _ _ _ _ c) as [[c1 o]|e|] eqn:Er; [|discriminate|discriminate]. intros H. injection H as <- <- <- <- <-.
  destruct (content_run _ perm_congruent fuel _ (leaf_spec n) inv left G1 G2 G3 (Some W0) c _ _ _ _ c1 o Hi Hroom Er) as (R1 & R2 & _). split; [exact R1|exact R2].
Qed.

(** [PDF.table] and [PDF.text] by themselves. *)
Theorem C75_alone_partial : forall n e o rs fin pgs,
  sp_ok (leaf_kit n) (leaf_spec n) e -> k_start (leaf_kit n) e = Ok o -> pages (leaf_kit n) o rs = Ok (fin, pgs) ->
  exists rest, Permutation (sp_words (leaf_kit n) (leaf_spec n) e) (shown_on pgs ++ rest) /\ (fin = true -> rest = []).
Proof.
  intros n e o rs fin pgs He Hs Hp. destruct (leaf_good (F:=F) b_eqb round3 text_w space_w fref fuel n) as (inv & left & G1 & G2 & G3).
  destruct (G1 _ _ He Hs) as [K1 K2].
  destruct (pages_words _ perm_congruent (leaf_kit n) (fun _ => True) inv left) with (rs := rs) (o := o) (fin := fin) (pgs := pgs) as (rest & R1 & R2);
    [|exact K1|apply Forall_forall; auto|exact Hp|exists rest; split; [rewrite <- K2; exact R1|exact R2]].
  intros o1 r o' ht f ps ls Hi _ Hr. destruct (G2 _ _ _ _ _ _ _ _ _ _ Hi Hr) as (R1 & R2 & _). auto.
Qed.
End Words.
Print Assumptions C75_order_partial.
Print Assumptions C75_words_partial.
Print Assumptions C75_alone_partial.

(** A paragraph; a table with a cell over two columns, a cell with a box of two
    paragraphs and a table inside it, and cells with texts; a box with a
    paragraph. *)
Definition ex_par (s : str) : TextLayout.config := TextLayout.mkCfg [TextLayout.CText s (PText.ex_style 4) []] TextLayout.ALeft (11#10) 0 None.
Notation ex_leaf := (@leaf_kit unit unit (fun _ _ => true) (fun q => q) PText.ex_text_w PText.ex_space_w PText.ex_ref 60).
Notation ex_leaf_spec := (@leaf_spec unit unit (fun _ _ => true) (fun q => q) PText.ex_text_w PText.ex_space_w PText.ex_ref 60).
Definition ex_st : Content.style := Content.mkStyle 0 0 0 5 None false Content.PNormal.
Definition ex_cs : @Table.cstyle unit := Table.mkCS 1 1 1 1 None.
Definition ex_cell {E} (n : nat) (e : E) : @Table.cell E unit := Table.mkCell n 1 ex_cs e.
Definition ex_table {E} (rows : list (list (@Table.cell E unit))) (cols : nat) (blank : E) : Table.table E unit unit :=
  Table.mkTable rows cols (repeat (1 / inject_Z (Z.of_nat cols))%Q cols) (ex_cell 1 blank) (fun _ _ => Table.mkB 1 tt) (fun _ _ => Table.mkB 1 tt) (fun _ _ => None).
Definition ex_inner : kE (ex_leaf 1) :=
  inr (ex_table [[ex_cell 1 (inl (ex_par (lit "i1 i2 i3"))); ex_cell 1 (inr (inl (3, 2)%Q))]; [ex_cell 1 (inl (ex_par (lit "j1 j2"))); ex_cell 1 (inl (ex_par []))]] 2 (inl (ex_par []))).
Definition ex_outer : kE (ex_leaf 2) :=
  inr (ex_table
    [[ex_cell 2 (inl (inl (ex_par (lit "a b c d e f g")))); ex_cell 1 (inl (inl (ex_par (lit "not shown"))))];
     [ex_cell 1 (inr (inr (mkBox [Content.Leaf ex_st (inl (ex_par (lit "k l m n o p"))); Content.Leaf ex_st ex_inner; Content.Leaf ex_st (inl (ex_par (lit "q r")))] 1 None)));
      ex_cell 1 (inl (inl (ex_par (lit "u v w x y z"))))];
     [ex_cell 1 (inl (inl (ex_par (lit "end")))); ex_cell 1 (inl (inl (ex_par (lit "of table"))))]] 2 (inl (inl (ex_par [])))).
Definition ex_doc : list (@Content.elem (kE (ex_leaf 2))) :=
  [Content.Leaf ex_st (inl (ex_par (lit "one two three"))); Content.Leaf ex_st ex_outer; Content.Image ex_st 0 40 30;
   Content.Child ex_st 1 None [Content.Leaf ex_st (inl (ex_par (lit "after it")))]].
Definition ex_pages : list rect := repeat (mkRect 10 100 40 40) 12.
Definition ex_result := pages (content_kit 60 (ex_leaf 2)) (Content.fresh_content ex_doc 1 None) ex_pages.
Definition ex_shown : list (list str) := match ex_result with Ok (true, pgs) => map (fun ps => map (fun w : word => snd w) (flat_map shown_words ps)) pgs | _ => [] end.
Example C75_applies : els_ok (ex_leaf 2) (ex_leaf_spec 2) (Some 40%Q) ex_doc /\ Forall (fun r => (40 <= rc_w r)%Q) ex_pages /\
  ex_shown = [map lit ["one"; "two"; "three"; "a"; "b"; "c"; "d"; "e"; "f"; "g"; "k"; "l"; "m"; "n"; "u"; "v"; "w"; "x"]%string;
              map lit ["o"; "p"; "i1"; "i2"; "i3"; "j1"; "y"; "z"]%string;
              map lit ["j2"; "q"; "r"; "end"; "of"; "table"]%string; []; map lit ["after"; "it"]%string].
Proof.
  assert (Hb : forall E (sp : E -> Prop) (ws : E -> list word) rows cols (blank : E), 0 < cols -> (forall row c, In row rows -> In c row -> TableTokens.cell_ok sp c) ->
    sp blank -> ws blank = [] -> TableTokens.table_ok sp ws (ex_table rows cols blank)).
  { intros E sp ws rows cols blank H1 H2 H3 H4. constructor; [exact H1|exact H2| |intros; cbn; lra].
    split; [|split; [reflexivity|exact H4]]. split; [cbn; lia|]. split; [cbn; lra|]. split; [cbn; lra|exact H3]. }
  assert (Hp : forall s, (0 < TextLayout.c_lh (ex_par s))%Q) by (intros s; reflexivity).
  assert (Hc : forall E (sp : E -> Prop) n e, sp e -> TableTokens.cell_ok sp (ex_cell n e)).
  { intros E sp n e H. split; [cbn; lia|]. split; [cbn; lra|]. split; [cbn; lra|exact H]. }
  assert (Hs : ContentFlow.plain_style ex_st) by (split; cbn; lra).
  assert (Hi : sp_ok (ex_leaf 1) (ex_leaf_spec 1) ex_inner).
  { apply Hb; [lia| |exact (Hp _)|reflexivity]. intros row c Hr Hin.
    repeat (destruct Hr as [<-|Hr]; [repeat (destruct Hin as [<-|Hin]; [apply Hc; first [exact I|exact (Hp _)]|]); try contradiction|]); try contradiction. }
  assert (Ho : sp_ok (ex_leaf 2) (ex_leaf_spec 2) ex_outer).
  { apply Hb; [lia| |exact (Hp _)|reflexivity]. intros row c Hr Hin.
    repeat (destruct Hr as [<-|Hr]; [repeat (destruct Hin as [<-|Hin]; [apply Hc; first [exact (Hp _)|split; [reflexivity|do 2 (split; [split; [exact Hs|first [exact (Hp _)|exact Hi]]|]); split; [split; [exact Hs|exact (Hp _)]|exact I]]]|]); try contradiction|]); try contradiction. }
  split; [|split; [apply Forall_forall; intros r Hr; apply repeat_spec in Hr; subst r; cbn; lra|vm_compute; reflexivity]].
  split; [split; [exact Hs|exact (Hp _)]|]. split; [split; [exact Hs|exact Ho]|]. split; [split; [exact Hs|]; split; [reflexivity|cbn; lra]|].
  split; [|exact I]. split; [exact Hs|]. split; [reflexivity|]. split; [split; [exact Hs|exact (Hp _)]|exact I].
Qed.
