(** Whole contents: what there is to show is shown once. *)
From Coq Require Import QArith Qminmax ZArith Lia Lqa List Bool Permutation.
From Verif Require Import Py PyStr Whole.
From Verif Require TextLayout TextProofs TextOrder TextFit TextApart Table TableChain TableTokens Content ContentFlow PContent.
Import ListNotations.
Open Scope list_scope.
Open Scope nat_scope.

(** ** Specification *)

(** A word of a text, with the style and the ids that go with it. *)
Definition word := (TextLayout.style * list str * str)%type.
Definition words_of (y : TextLayout.style) (ids : list str) (ws : list str) : list word :=
  map (fun w => (y, ids, w)) (filter (fun w => negb (TextLayout.isspace w)) ws).
(** The words of a paragraph. *)
Definition text_words (c : TextLayout.config) : list word :=
  flat_map (fun p => match p with TextLayout.CText t y ids => words_of y ids (TextLayout.tokenize t) | _ => [] end) (TextLayout.c_content c).
(** The words in the lines of a paragraph that was drawn. *)
Definition shown_words (p : drawn) : list word :=
  match p with
  | DPar c x y d =>
      flat_map (fun l => flat_map (fun q => words_of (TextLayout.lp_style q) (TextLayout.lp_ids q) (TextLayout.lp_words q)) (TextLayout.l_parts l))
        (TextLayout.d_lines d)
  | DPic _ _ _ _ _ _ => []
  end.

(** ** Words of chunks *)
Definition tok_words (t : TextProofs.tok) : list word := match t with TextProofs.TWord y ids w => [(y, ids, w)] | _ => [] end.
Lemma scan_words ts : forall d o, let '(d', o') := TextProofs.scan d o ts in
  concat d' ++ o' = concat d ++ o ++ flat_map tok_words ts.
Proof.
  induction ts as [|t ts IH]; intros d o; cbn [TextProofs.scan flat_map]; [now rewrite app_nil_r|].
  destruct t as [y ids w|y|]; cbn [tok_words].
  - specialize (IH d (o ++ [(y, ids, w)])). destruct (TextProofs.scan _ _ ts) as [d' o']. rewrite IH, <- !app_assoc. reflexivity.
  - specialize (IH (TextProofs.close d o) []). destruct (TextProofs.scan _ _ ts) as [d' o']. rewrite IH. cbn [app].
    destruct o as [|a o]; cbn [TextProofs.close app]; [reflexivity|]. rewrite concat_app. cbn [concat]. rewrite app_nil_r, <- app_assoc. reflexivity.
  - specialize (IH (TextProofs.close d o) []). destruct (TextProofs.scan _ _ ts) as [d' o']. rewrite IH. cbn [app].
    destruct o as [|a o]; cbn [TextProofs.close app]; [reflexivity|]. rewrite concat_app. cbn [concat]. rewrite app_nil_r, <- app_assoc. reflexivity.
Qed.
Lemma chunks_words ts : concat (TextProofs.chunks ts) = flat_map tok_words ts.
Proof.
  unfold TextProofs.chunks. pose proof (scan_words ts [] []) as H. destruct (TextProofs.scan [] [] ts) as [d o]. cbn [concat app] in H.
  rewrite <- H. destruct o; cbn [TextProofs.close]; [now rewrite app_nil_r|]. rewrite concat_app. cbn [concat]. now rewrite app_nil_r.
Qed.
Lemma tok_of_words y ids ws : flat_map tok_words (map (TextProofs.tok_of y ids) ws) = words_of y ids ws.
Proof.
  unfold words_of. induction ws as [|w ws IH]; [reflexivity|]. cbn [map flat_map filter]. unfold TextProofs.tok_of at 1.
  destruct (TextLayout.isspace w); cbn [tok_words negb map app]; [exact IH|]. now rewrite IH.
Qed.
Lemma flat_map_flat_map {A B C} (f : B -> list C) (g : A -> list B) l : flat_map f (flat_map g l) = flat_map (fun a => flat_map f (g a)) l.
Proof. induction l as [|a l IH]; [reflexivity|]. cbn [flat_map]. rewrite flat_map_app, IH. reflexivity. Qed.
Lemma text_words_chunks c : text_words c = concat (TextProofs.chunks (TextProofs.all_toks (TextLayout.c_content c))).
Proof.
  rewrite chunks_words. unfold text_words, TextProofs.all_toks. rewrite flat_map_flat_map. apply flat_map_ext. intros p.
  destruct p as [|t y ids|]; [reflexivity| |reflexivity]. symmetry. apply tok_of_words.
Qed.
Lemma concat_flat {A C} (f : C -> list (list A)) l : concat (flat_map f l) = flat_map (fun a => concat (f a)) l.
Proof. induction l as [|a l IH]; [reflexivity|]. cbn [flat_map]. rewrite concat_app, IH. reflexivity. Qed.
Lemma shown_chunks c x y d : shown_words (DPar c x y d) = concat (TextOrder.lc (TextLayout.d_lines d)).
Proof.
  unfold TextOrder.lc. etransitivity; [|symmetry; apply concat_flat]. apply flat_map_ext. intros l. unfold TextProofs.line_chunks. rewrite chunks_words.
  unfold TextProofs.ltoks. rewrite flat_map_flat_map. apply flat_map_ext. intros q. symmetry. apply tok_of_words.
Qed.

(** ** Kits that show what they have to *)
Section Same.
(** In this order, or in any order. *)
Variable same : list word -> list word -> Prop.
Record congruent : Prop := mkCong {
  sm_refl : forall a, same a a; sm_sym : forall a b, same a b -> same b a; sm_trans : forall a b c, same a b -> same b c -> same a c;
  sm_app : forall a b c d, same a b -> same c d -> same (a ++ c) (b ++ d) }.
Hypothesis same_ok : congruent.

Section Kits.
Context {F B : Type}.
Notation kit := (@kit F B).

(** The elements a kit is good for, and their words. *)
Record spec (k : kit) := mkSpec { sp_ok : kE k -> Prop; sp_words : kE k -> list word }.
Arguments sp_ok {k}. Arguments sp_words {k}.
Definition good (k : kit) (sp : spec k) : Prop :=
  exists (inv : kO k -> Prop) (left : kO k -> list word),
    (forall e o, sp_ok sp e -> k_start k e = Ok o -> inv o /\ same (left o) (sp_words sp e)) /\
    (forall o x y w h o' ht fin ps ls, inv o -> k_run k o x y w h = Ok (o', ht, fin, ps, ls) ->
       same (left o) (flat_map shown_words ps ++ left o') /\ (if fin then left o' = [] else inv o') /\ ((ht <= 0)%Q -> flat_map shown_words ps = [])) /\
    (forall o, k_restore k o (k_save k o) = o).

Definition sum_spec {a b : kit} (sa : spec a) (sb : spec b) : spec (sum_kit a b) :=
  mkSpec (sum_kit a b) (fun e => match e with inl e => sp_ok sa e | inr e => sp_ok sb e end)
    (fun e => match e with inl e => sp_words sa e | inr e => sp_words sb e end).
Lemma sum_good (a b : kit) sa sb : good a sa -> good b sb -> good (sum_kit a b) (sum_spec sa sb).
Proof.
  intros (ia & la & A1 & A2 & A3) (ib & lb & B1 & B2 & B3).
  exists (fun o => match o with inl o => ia o | inr o => ib o end), (fun o => match o with inl o => la o | inr o => lb o end).
  split; [|split].
  - intros [e|e] o He; cbn [sum_kit k_start sum_spec sp_ok sp_words] in *.
    + destruct (k_start a e) as [o1|] eqn:Es; [|discriminate]. cbn [bind]. intros H. injection H as <-. exact (A1 _ _ He Es).
    + destruct (k_start b e) as [o1|] eqn:Es; [|discriminate]. cbn [bind]. intros H. injection H as <-. exact (B1 _ _ He Es).
  - intros [o|o] x y w h o' ht fin ps ls Hi; cbn [sum_kit k_run].
    + destruct (k_run a o x y w h) as [[[[[o1 ht1] fin1] ps1] ls1]|] eqn:Es; [|discriminate]. cbn [bind]. intros H. injection H as <- <- <- <- <-.
      exact (A2 _ _ _ _ _ _ _ _ _ _ Hi Es).
    + destruct (k_run b o x y w h) as [[[[[o1 ht1] fin1] ps1] ls1]|] eqn:Es; [|discriminate]. cbn [bind]. intros H. injection H as <- <- <- <- <-.
      exact (B2 _ _ _ _ _ _ _ _ _ _ Hi Es).
  - intros [o|o]; cbn [sum_kit k_restore k_save]; [now rewrite A3|now rewrite B3].
Qed.

(** Paragraphs. *)
Section Text.
Variable round3 : Q -> Q.
Variable text_w : TextLayout.fkey -> str -> Q.
Variable space_w : TextLayout.fkey -> Q.
Variable fref : TextLayout.fkey -> str.
Notation text_kit := (@text_kit F B round3 text_w space_w fref).
Definition text_spec : spec text_kit := mkSpec text_kit (fun c => (0 < TextLayout.c_lh c)%Q) text_words.
Lemma no_lines c ls : (0 < TextLayout.c_lh c)%Q -> TextApart.lines_ok c ls -> (TextFit.total_height c ls <= 0)%Q -> ls = [].
Proof.
  intros Hlh Hok Hh. destruct ls as [|l ls]; [reflexivity|]. exfalso.
  assert (Hnn : forall a m b, l :: ls = a ++ m :: b -> (0 <= TextLayout.line_height m)%Q).
  { intros a m b E. destruct (Hok _ _ _ E) as [H _]. assert (0 <= TextLayout.l_top m)%Q.
    { unfold TextApart.after_line in H. destruct (rev a); [rewrite H; lra|]. destruct H as [->|[-> _]]; [apply TextApart.line_bottom_ge|lra]. }
    unfold TextLayout.line_height. destruct (TextApart.max_size_ge (TextLayout.l_parts m)) as [M _], (TextApart.top_rise_ge (TextLayout.l_parts m)) as [R _]. lra. }
  assert (Hr : (0 <= TextFit.rest_height c ls)%Q).
  { assert (G : forall b a, l :: ls = a ++ b -> (0 <= TextFit.rest_height c b)%Q).
    { induction b as [|m b IH]; intros a E; [apply Qle_refl|]. change (0 <= TextLayout.line_height m * TextLayout.c_lh c + TextFit.rest_height c b)%Q.
      specialize (IH (a ++ [m])). rewrite <- app_assoc in IH. specialize (IH E). pose proof (Qmult_le_0_compat _ _ (Hnn _ _ _ E) (Qlt_le_weak _ _ Hlh)). lra. }
    apply (G ls [l]). reflexivity. }
  destruct (Hok [] l ls eq_refl) as [H _]. cbn in H. change (TextLayout.line_height l + TextFit.rest_height c ls <= 0)%Q in Hh.
  unfold TextLayout.line_height in Hh. rewrite H in Hh.
  destruct (TextApart.max_size_ge (TextLayout.l_parts l)) as [M _], (TextApart.top_rise_ge (TextLayout.l_parts l)) as [R _]. lra.
Qed.
Lemma text_good : good text_kit text_spec.
Proof.
  exists (fun o => (0 < TextLayout.c_lh (fst o))%Q /\ exists done, TextOrder.paused (fst o) done (snd o)), (fun o => concat (TextOrder.remaining (fst o) (snd o))).
  split; [|split].
  - intros c o Hc H. cbn in H. injection H as <-. cbn [fst snd text_spec sp_words]. split; [split; [exact Hc|exists []; apply TextOrder.paused_fresh]|].
    unfold TextOrder.remaining. cbn [TextLayout.fresh TextLayout.d_fin TextLayout.get_state TextLayout.d_part TextLayout.d_word fst snd].
    rewrite text_words_chunks. destruct (TextOrder.paused_fresh c) as (_ & Hr & _). apply TextOrder.reads_rest in Hr. cbn [app] in Hr.
    cbn [TextLayout.fresh TextLayout.d_part TextLayout.d_word] in Hr. rewrite Hr. apply (sm_refl same_ok).
  - intros [c d] x y w h o' ht fin ps ls [Hlh (done & Hp)]. cbn [fst snd text_kit k_run] in *.
    assert (unfinished d = d) as -> by (destruct Hp as (Hf & _); destruct d; cbn in Hf; subst; reflexivity).
    destruct (TextLayout.run round3 text_w space_w fref c d w h) as [d'|] eqn:Er; [|discriminate]. cbn [bind]. intros H. injection H as <- <- <- <- <-.
    cbn [fst snd flat_map]. rewrite app_nil_r, shown_chunks.
    pose proof (TextOrder.run_order round3 text_w space_w fref c done d w h d' Hp Er) as Ho.
    pose proof (TextApart.run_tops round3 text_w space_w fref c done d w h d' Hp Er) as Ht.
    destruct (TextFit.run_height round3 text_w space_w fref c d w h d' Er) as [_ _ Hh _ _ _].
    cbn [fst snd] in Hp, Hlh. destruct Hp as (Hf & Hr & _). apply TextOrder.reads_rest in Hr. unfold TextOrder.remaining. rewrite Hf. cbn [TextLayout.get_state fst snd].
    rewrite <- concat_app. split; [|split].
    + destruct Ho as [[Hf' Ho]|(Hf' & Hr' & _)]; rewrite Hf'.
      * rewrite app_nil_r. rewrite <- Ho in Hr. apply app_inv_head in Hr. rewrite Hr. apply (sm_refl same_ok).
      * apply TextOrder.reads_rest in Hr'. rewrite <- Hr', <- app_assoc in Hr. apply app_inv_head in Hr. rewrite Hr. apply (sm_refl same_ok).
    + destruct Ho as [[Hf' Ho]|(Hf' & Hr' & H1 & H2)]; rewrite Hf'; [reflexivity|]. split; [exact Hlh|].
      exists (done ++ TextOrder.lc (TextLayout.d_lines d')). repeat split; try assumption; apply Hr'.
    + intros Hle. rewrite Hh in Hle. rewrite (no_lines c _ Hlh Ht Hle). reflexivity.
  - intros [c d]. cbn. destruct d. reflexivity.
Qed.

End Text.

(** Images have no words. *)
Definition image_spec : spec (@image_kit F B) := mkSpec image_kit (fun _ => True) (fun _ => []).
Lemma image_good : good image_kit image_spec.
Proof.
  exists (fun _ => True), (fun _ => []). split; [|split].
  - intros e o _ _. split; [exact I|apply (sm_refl same_ok)].
  - intros [iw ih] x y w h o' ht fin ps ls _. cbn [image_kit k_run]. destruct (Qeq_bool iw 0); [discriminate|].
    destruct (Table.qlt _ h); intros H; injection H as <- <- <- <- <-; cbn [flat_map shown_words app]; repeat split; try apply (sm_refl same_ok).
  - intros o. reflexivity.
Qed.
(** Boxes of one column, with margins that are not negative, without groups;
    with images that keep their place if the width of the box is known to be
    [W0] at least. *)
Section Box.
Variable fuel : nat.
Variable k : kit.
Variable sp : spec k.
Notation elem := (@Content.elem (kE k)).
Notation content := (@Content.content (kE k) (kO k) (kS k)).
Notation work := (@ContentFlow.work (kE k) (kO k)).
Fixpoint el_ok (W0 : option Q) (el : elem) : Prop :=
  match el with
  | Content.Leaf s e => ContentFlow.plain_style s /\ sp_ok sp e
  | Content.Image s _ iw ih => match W0 with Some W => ContentFlow.plain_style s /\ ContentFlow.plain_image W s iw ih | None => False end
  | Content.Group _ _ _ => False
  | Content.Child s cols _ l => ContentFlow.plain_style s /\ cols = 1 /\ fold_right (fun e acc => el_ok W0 e /\ acc) True l
  end.
Definition els_ok (W0 : option Q) (l : list elem) : Prop := fold_right (fun e acc => el_ok W0 e /\ acc) True l.
Fixpoint el_words (el : elem) : list word :=
  match el with
  | Content.Leaf _ e => sp_words sp e
  | Content.Image _ _ _ _ => []
  | Content.Group _ _ _ => []
  | Content.Child _ _ _ l => flat_map el_words l
  end.
Definition content_spec : spec (content_kit fuel k) :=
  mkSpec (content_kit fuel k) (fun e => bx_cols e = 1 /\ els_ok None (bx_elems e)) (fun e => flat_map el_words (bx_elems e)).

Section elem_ind.
Variable P : elem -> Prop.
Hypothesis H1 : forall s e, P (Content.Leaf s e).
Hypothesis H2 : forall s id iw ih, P (Content.Image s id iw ih).
Hypothesis H3 : forall s id l, P (Content.Group s id l).
Hypothesis H4 : forall s cols gap l, (forall e, In e l -> P e) -> P (Content.Child s cols gap l).
Fixpoint elem_rect2 (el : elem) : P el :=
  match el with
  | Content.Leaf s e => H1 s e
  | Content.Image s id iw ih => H2 s id iw ih
  | Content.Group s id l => H3 s id l
  | Content.Child s cols gap l => H4 s cols gap l
      ((fix go (l : list elem) : forall e, In e l -> P e :=
          match l with
          | [] => fun e H => match H with end
          | a :: l => fun e H => match H with or_introl K => match K in _ = z return P z with eq_refl => elem_rect2 a end | or_intror K => go l e K end
          end) l)
  end.
End elem_ind.

Lemma fold_forall {A} (f : A -> Prop) l : fold_right (fun e acc => f e /\ acc) True l <-> forall e, In e l -> f e.
Proof.
  induction l as [|a l IH]; cbn; [split; [intros _ e []|trivial]|]. rewrite IH. split.
  - intros [H K] e [<-|He]; auto.
  - intros H. split; [apply H; now left|intros e He; apply H; now right].
Qed.
Lemma el_plain W0 W el : match W0 with Some W' => W' = W | None => True end -> el_ok W0 el -> ContentFlow.plain W el.
Proof.
  intros HW. induction el as [s e|s id iw ih|s id l|s cols gap l IH] using elem_rect2; cbn [el_ok ContentFlow.plain].
  - tauto.
  - destruct W0 as [W'|]; [rewrite HW; tauto|tauto].
  - tauto.
  - intros (H1 & H2 & H3). split; [exact H1|]. split; [exact H2|]. apply fold_forall. intros e He. apply IH; [exact He|]. rewrite (fold_forall (el_ok W0)) in H3. exact (H3 e He).
Qed.
Lemma els_plain W0 W l : match W0 with Some W' => W' = W | None => True end -> els_ok W0 l -> ContentFlow.plains W l.
Proof.
  intros HW H. apply fold_forall. intros e He. apply (el_plain W0 W e HW). unfold els_ok in H. rewrite (fold_forall (el_ok W0)) in H. exact (H e He).
Qed.

Section Good.
Variable inv : kO k -> Prop.
Variable left : kO k -> list word.
Hypothesis G1 : forall e o, sp_ok sp e -> k_start k e = Ok o -> inv o /\ same (left o) (sp_words sp e).
Hypothesis G2 : forall o x y w h o' ht fin ps ls, inv o -> k_run k o x y w h = Ok (o', ht, fin, ps, ls) ->
   same (left o) (flat_map shown_words ps ++ left o') /\ (if fin then left o' = [] else inv o') /\ ((ht <= 0)%Q -> flat_map shown_words ps = []).
Hypothesis G3 : forall o, k_restore k o (k_save k o) = o.
Definition w_ok (w : work) : Prop := match w with ContentFlow.New e => sp_ok sp e | ContentFlow.Old o => inv o | ContentFlow.Pic _ _ => True end.
Definition w_left (w : work) : list word := match w with ContentFlow.New e => sp_words sp e | ContentFlow.Old o => left o | ContentFlow.Pic _ _ => [] end.
Definition shows (ps : list (@Content.placed (kO k) drawn)) : list word := flat_map shown_words (flat_map of_placed ps).
Lemma shows_cons p ps : shows (p :: ps) = flat_map shown_words (of_placed p) ++ shows ps.
Proof. unfold shows. cbn [flat_map]. apply flat_map_app. Qed.

Lemma begins_ok w o : w_ok w -> ContentFlow.begins (k_start k) w o -> inv o /\ same (w_left w) (left o).
Proof.
  destruct w as [e|o1|iw ih]; cbn [w_ok w_left ContentFlow.begins]; intros Hw Hb.
  - destruct (G1 _ _ Hw Hb) as [K1 K2]. split; [exact K1|apply (sm_sym same_ok), K2].
  - subst. split; [exact Hw|apply (sm_refl same_ok)].
  - destruct Hb.
Qed.
Lemma works_words t ps t' : ContentFlow.works (k_start k) (k_run k) t ps t' -> Forall w_ok t ->
  same (flat_map w_left t) (shows ps ++ flat_map w_left t') /\ Forall w_ok t' /\
  ((forall p, In p ps -> (ContentFlow.p_height p <= 0)%Q) -> shows ps = []).
Proof.
  induction 1 as [t|w0 t ps t' s x y w h o o' height parts lines Hb Hc Hw IH|w0 t s x y w h o o' height parts lines Hb Hc|t ps t' s x y w h iw ih Hw IH]; intros Hok.
  - split; [apply (sm_refl same_ok)|]. split; [exact Hok|]. reflexivity.
  - inversion Hok as [|? ? Ho Hok']; subst. destruct (begins_ok _ _ Ho Hb) as [Hi Hs]. destruct (G2 _ _ _ _ _ _ _ _ _ _ Hi Hc) as (R1 & R2 & R3).
    destruct (IH Hok') as (I1 & I2 & I3). rewrite shows_cons. cbn [of_placed flat_map]. rewrite R2, app_nil_r in R1. split; [|split; [exact I2|]].
    + rewrite <- app_assoc. apply (sm_app same_ok); [exact (sm_trans same_ok _ _ _ Hs R1)|exact I1].
    + intros Hp. rewrite R3 by exact (Hp _ (or_introl eq_refl)). apply I3. intros p Hin. apply Hp. now right.
  - inversion Hok as [|? ? Ho Hok']; subst. destruct (begins_ok _ _ Ho Hb) as [Hi Hs]. destruct (G2 _ _ _ _ _ _ _ _ _ _ Hi Hc) as (R1 & R2 & R3).
    rewrite shows_cons. cbn [of_placed flat_map w_left]. change (shows []) with (@nil word). rewrite app_nil_r. split; [|split; [constructor; [exact R2|exact Hok']|]].
    + rewrite app_assoc. apply (sm_app same_ok); [exact (sm_trans same_ok _ _ _ Hs R1)|apply (sm_refl same_ok)].
    + intros Hp. apply R3, (Hp _ (or_introl eq_refl)).
  - inversion Hok as [|? ? Ho Hok']; subst. destruct (IH Hok') as (I1 & I2 & I3). rewrite shows_cons. cbn [of_placed flat_map w_left shown_words app].
    split; [exact I1|]. split; [exact I2|]. intros Hp. apply I3. intros p Hin. apply Hp. now right.
Qed.

Definition ctodo (c : content) : list work :=
  match Content.c_part c with None => ContentFlow.flat (Content.c_elems c) | Some f => ContentFlow.saved (k_restore k) (Content.c_heap c) f end.
Notation between := (@PContent.between (kE k) (kO k) (kS k) (k_restore k)).
Lemma between_todo W elems c t : between W elems c t -> t = ctodo c.
Proof. intros (H1 & H2 & H3). unfold ctodo. destruct (Content.c_part c); [symmetry; apply H3|now rewrite H1]. Qed.
Definition c_inv (W0 : option Q) (c : content) : Prop :=
  Content.c_finished c = false /\ Forall w_ok (ctodo c) /\
  exists elems, els_ok W0 elems /\ match W0 with Some W => between W elems c (ctodo c) | None => exists m, forall W, (W <= m)%Q -> between W elems c (ctodo c) end.
Lemma c_again W0 (c : content) : c_inv W0 c -> content_again c = c.
Proof. intros [H _]. destruct c. cbn in H. subst. reflexivity. Qed.
Definition c_left (c : content) : list word := if Content.c_finished c then [] else flat_map w_left (ctodo c).
Lemma content_run W0 c x y w h c' o : c_inv W0 c -> match W0 with Some W => (W <= w)%Q | None => True end ->
  Content.run (k_start k) (k_run k) (k_save k) (k_restore k) fuel x y w h c = Content.Done (c', o) ->
  same (c_left c) (shows (Content.o_parts o) ++ c_left c') /\ (if Content.c_finished c' then c_left c' = [] else c_inv W0 c') /\
  ((Content.o_height o <= 0)%Q -> shows (Content.o_parts o) = []).
Proof.
  intros (Hf & Hok & elems & Hel & Hb) Hw Hrun.
  assert (Hone : exists W, (W <= w)%Q /\ match W0 with Some W' => W' = W | None => True end /\ between W elems c (ctodo c)).
  { destruct W0 as [W|]; [exists W; auto|]. destruct Hb as [m Hb]. exists (Qmin m w). split; [apply Q.le_min_r|]. split; [exact I|]. apply Hb, Q.le_min_l. }
  destruct Hone as (W & HW & HW0 & Hb1).
  destruct (PContent.run_ok _ _ _ _ G3 W fuel elems c (ctodo c) x y w h c' o (els_plain W0 W elems HW0 Hel) HW Hb1 Hf Hrun) as (t' & H1 & (fl & H2 & H3) & H4).
  destruct (works_words _ _ _ H1 Hok) as (I1 & I2 & I3).
  assert (Hl : c_left c' = flat_map w_left t').
  { unfold c_left. destruct (Content.c_finished c'); [now rewrite H4|]. now rewrite (between_todo _ _ _ _ H4). }
  split; [|split].
  - rewrite Hl. unfold c_left. rewrite Hf. exact I1.
  - rewrite Hl. destruct (Content.c_finished c') eqn:Ef; [now rewrite H4|]. split; [exact Ef|]. rewrite <- (between_todo _ _ _ _ H4). split; [exact I2|].
    exists elems. split; [exact Hel|]. destruct W0 as [W'|]; [rewrite HW0; exact H4|]. destruct Hb as [m Hb]. exists (Qmin m w). intros W1 HW1.
    destruct (PContent.run_ok (k_start k) (k_run k) (k_save k) (k_restore k) G3 W1 fuel elems c (ctodo c) x y w h c' o) as (t2 & _ & _ & H5); [apply (els_plain None W1 elems I Hel)| | |exact Hf|exact Hrun|].
    + apply (Qle_trans _ _ _ HW1), Q.le_min_r.
    + apply Hb. apply (Qle_trans _ _ _ HW1), Q.le_min_l.
    + rewrite Ef in H5. rewrite (between_todo _ _ _ _ H4), <- (between_todo _ _ _ _ H5). exact H5.
  - intros Hle. apply I3. intros p Hp. destruct H3 as [H3|H3]; [lra|]. destruct (Qlt_le_dec 0 (ContentFlow.p_height p)) as [Hq|Hq]; [|exact Hq].
    apply In_nth_error in Hp as [i Hi]. destruct (PContent.stacked_apart _ _ _ H2) as ((A1 & _) & _ & A3). specialize (A1 i p Hi Hq). specialize (A3 i p Hi Hq). rewrite H3 in A3. lra.
Qed.
Lemma flat_words_ok W0 l : els_ok W0 l -> Forall w_ok (ContentFlow.flat l) /\ flat_map w_left (ContentFlow.flat l) = flat_map el_words l.
Proof.
  assert (Hel : forall el, el_ok W0 el -> Forall w_ok (ContentFlow.flat_elem el) /\ flat_map w_left (ContentFlow.flat_elem el) = el_words el).
  { induction el as [s e|s id iw ih|s id l0|s cols gap l0 IH] using elem_rect2; cbn [el_ok ContentFlow.flat_elem el_words].
    - intros [_ H]. cbn [flat_map w_left]. rewrite app_nil_r. split; [repeat constructor; exact H|reflexivity].
    - intros _. split; [repeat constructor|reflexivity].
    - intros [].
    - intros (_ & _ & H). rewrite (fold_forall (el_ok W0)) in H. clear -IH H. induction l0 as [|a l0 IHl]; cbn [flat_map]; [split; [constructor|reflexivity]|].
      destruct (IH a (or_introl eq_refl) (H a (or_introl eq_refl))) as [A1 A2]. destruct IHl as [B1 B2]; [intros e He; apply IH; now right|intros e He; apply H; now right|].
      split; [apply Forall_app; auto|]. rewrite flat_map_app, A2, B2. reflexivity. }
  unfold els_ok. rewrite (fold_forall (el_ok W0)). unfold ContentFlow.flat. induction l as [|a l IHl]; intros H; cbn [flat_map]; [split; [constructor|reflexivity]|].
  destruct (Hel a (H a (or_introl eq_refl))) as [A1 A2]. destruct IHl as [B1 B2]; [intros e He; apply H; now right|].
  split; [apply Forall_app; auto|]. rewrite flat_map_app, A2, B2. reflexivity.
Qed.
Lemma fresh_inv W0 l gap : els_ok W0 l -> c_inv W0 (Content.fresh_content l 1 gap) /\ c_left (Content.fresh_content l 1 gap) = flat_map el_words l.
Proof.
  intros H. destruct (flat_words_ok W0 l H) as [H1 H2]. unfold c_inv, c_left, ctodo. cbn [Content.fresh_content Content.c_finished Content.c_part Content.c_elems].
  split; [|exact H2]. split; [reflexivity|]. split; [exact H1|]. exists l. split; [exact H|].
  assert (Hb : forall W, between W l (Content.fresh_content l 1 gap) (ContentFlow.flat l)) by (intros W; repeat split). destruct W0 as [W|]; [apply Hb|]. exists 0%Q. intros W _. apply Hb.
Qed.
End Good.

Lemma content_good : good k sp -> good (content_kit fuel k) content_spec.
Proof.
  intros (inv & left & G1 & G2 & G3). exists (c_inv inv None), (c_left left). split; [|split].
  - intros [l cols gap] o [Hc Hl] H. cbn [content_kit k_start bx_elems bx_cols bx_gap content_spec sp_words] in *. injection H as <-. subst cols.
    destruct (fresh_inv inv left None l gap Hl) as [K1 K2]. split; [exact K1|]. rewrite K2. apply (sm_refl same_ok).
  - intros c x y w h c' ht fin ps ls Hi. cbn [content_kit k_run].
    rewrite (c_again _ _ c Hi). destruct (Content.run _ _ _ _ _ _ _ _ _ c) as [[c1 o]|e|] eqn:Er; [|discriminate|discriminate]. intros H. injection H as <- <- <- <- <-.
    exact (content_run inv left G1 G2 G3 None c x y w h c1 o Hi I Er).
  - intros c. cbn [content_kit k_restore k_save]. unfold Content.get_state, Content.set_state. destruct c as [el co ga [f|] fi he tr]; cbn; [|reflexivity].
    unfold Content.with_section. destruct f. reflexivity.
Qed.
End Box.
End Kits.
End Same.

Lemma eq_congruent : congruent eq.
Proof. constructor; congruence. Qed.
Lemma perm_congruent : congruent (@Permutation word).
Proof.
  constructor; [apply Permutation_refl|apply Permutation_sym|intros a b c; apply Permutation_trans|].
  intros a b c d H1 H2. apply Permutation_app; assumption.
Qed.

Section Tables.
Context {F B : Type}.
Notation kit := (@kit F B).
Notation good := (good (@Permutation word)).
Variable b_eqb : B -> B -> bool.
Definition table_spec {k : kit} (sp : spec k) : spec (table_kit b_eqb k) :=
  mkSpec (table_kit b_eqb k) (fun t => TableTokens.table_ok (sp_ok k sp) (sp_words k sp) t)
    (fun t => TableTokens.rows_toks (sp_words k sp) (Table.t_rows t)).
Definition both_words (p : drawn + @rule F B) : list word := match p with inl p => shown_words p | inr _ => [] end.
Lemma both_lefts ps : flat_map both_words ps = flat_map shown_words (lefts ps).
Proof. induction ps as [|[a|b] ps IH]; cbn [flat_map both_words lefts app]; [reflexivity| |exact IH]. rewrite IH. reflexivity. Qed.
Lemma both_map ps (ls : list (@rule F B)) : flat_map both_words (map inl ps ++ map inr ls) = flat_map shown_words ps.
Proof.
  rewrite flat_map_app. replace (flat_map both_words (map inr ls)) with (@nil word) by (induction ls; [reflexivity|assumption]).
  rewrite app_nil_r. induction ps as [|a ps IH]; [reflexivity|]. cbn [map flat_map both_words]. now rewrite IH.
Qed.
Lemma table_good (k : kit) sp : good k sp -> good (table_kit b_eqb k) (table_spec sp).
Proof.
  intros (inv & left & G1 & G2 & G3).
  set (inv' := fun p : kO k * option (kS k) => inv (fst p) /\ (snd p = None \/ snd p = Some (k_save k (fst p)))).
  set (left' := fun p : kO k * option (kS k) => left (fst p)).
  assert (H1 : forall e w, sp_ok k sp e -> cell_start k e = Ok w -> inv' w /\ Permutation (left' w) (sp_words k sp e)).
  { intros e w He. unfold cell_start. destruct (k_start k e) as [o|] eqn:Es; [|discriminate]. cbn [bind]. intros H. injection H as <-.
    destruct (G1 _ _ He Es) as [K1 K2]. split; [split; [exact K1|left; reflexivity]|exact K2]. }
  assert (H2 : forall o x y w h o' ht fin ps, inv' o -> cell_run k o x y w h = Ok (o', ht, fin, ps) ->
    Permutation (left' o) (flat_map both_words ps ++ left' o') /\ (if fin then left' o' = [] else inv' o') /\ ((ht <= 0)%Q -> flat_map both_words ps = [])).
  { intros [o sv] x y w h o' ht fin ps [Hi Hs]. cbn [fst snd] in Hi, Hs. unfold cell_run. cbn [fst snd].
    assert (E : match sv with Some s => k_restore k o s | None => o end = o) by (destruct Hs as [->| ->]; [reflexivity|apply G3]). rewrite E.
    destruct (k_run k o x y w h) as [[[[[o1 ht1] fin1] ps1] ls1]|] eqn:Er; [|discriminate]. cbn [bind]. intros H. injection H as <- <- <- <-.
    rewrite both_map. destruct (G2 _ _ _ _ _ _ _ _ _ _ Hi Er) as (K1 & K2 & K3). unfold left', inv'. cbn [fst snd].
    split; [exact K1|]. split; [destruct fin1; [exact K2|split; [exact K2|right; reflexivity]]|exact K3]. }
  exists (fun o => TableTokens.table_ok (sp_ok k sp) (sp_words k sp) (fst o) /\ TableTokens.state_ok inv' (fst o) (snd o)),
    (fun o => TableTokens.state_left (sp_words k sp) left' (fst o) (snd o)).
  split; [|split].
  - intros t o Ht H. cbn in H. injection H as <-. cbn [fst snd table_spec sp_words sp_ok] in *. split; [split; [exact Ht|]|].
    + constructor; cbn [Table.fresh_table Table.t_finished Table.t_index Table.t_delayed Table.t_first]; try reflexivity; try lia.
      * intros _. reflexivity.
      * discriminate.
      * apply TableTokens.clear_nil.
    + unfold TableTokens.state_left. cbn [Table.fresh_table Table.t_index Table.t_delayed skipn].
      replace (flat_map (TableTokens.pend left' []) (seq 0 (Table.t_cols t))) with (@nil word); [apply Permutation_refl|].
      generalize (seq 0 (Table.t_cols t)). induction l as [|a l IH]; [reflexivity|exact IH].
  - intros [t s] x y w h o' ht fin ps ls [Ht Hs]. cbn [fst snd] in *. cbn [table_kit k_run].
    assert (table_again s = s) as -> by (destruct Hs as [Hf]; destruct s; cbn in Hf; subst; reflexivity).
    destruct (Table.run (cell_start k) (cell_run k) b_eqb t x y w h s) as [[s' out]|] eqn:Er; [|discriminate]. cbn [bind]. intros H. injection H as <- <- <- <- <-.
    cbn [fst snd]. rewrite <- both_lefts.
    destruct (TableTokens.run_toks (cell_start k) (cell_run k) b_eqb _ inv' _ left' both_words H1 H2 t Ht x y w h s s' out Hs Er) as (K1 & K2 & K3).
    split; [exact K1|]. split; [destruct (Table.t_finished s'); [exact K2|split; assumption]|exact K3].
  - intros [t s]. cbn. destruct s. reflexivity.
Qed.

Variable round3 : Q -> Q.
Variable text_w : TextLayout.fkey -> str -> Q.
Variable space_w : TextLayout.fkey -> Q.
Variable fref : TextLayout.fkey -> str.
Variable fuel : nat.
Notation leaf_kit := (@leaf_kit F B b_eqb round3 text_w space_w fref fuel).
Notation cell_kit := (@cell_kit F B fuel).
Definition cell_spec {k : kit} (sp : spec k) : spec (cell_kit k) := sum_spec sp (sum_spec image_spec (content_spec fuel k sp)).
Fixpoint leaf_spec (n : nat) : spec (leaf_kit n) :=
  match n with
  | 0 => text_spec round3 text_w space_w fref
  | S n => sum_spec (text_spec round3 text_w space_w fref) (table_spec (cell_spec (leaf_spec n)))
  end.
Lemma cell_good (k : kit) sp : good k sp -> good (cell_kit k) (cell_spec sp).
Proof.
  intros H. apply sum_good; [exact H|]. apply sum_good; [apply image_good, perm_congruent|]. apply content_good; [apply perm_congruent|exact H].
Qed.
Lemma leaf_good n : good (leaf_kit n) (leaf_spec n).
Proof.
  induction n as [|n IH]; [apply text_good, perm_congruent|]. cbn [Whole.leaf_kit leaf_spec].
  apply sum_good; [apply text_good, perm_congruent|]. apply table_good, cell_good, IH.
Qed.
End Tables.
