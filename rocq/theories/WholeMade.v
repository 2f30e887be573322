(** Every paragraph that whole contents show comes from a run of its text,
    which goes on where the runs before have ended. *)
From Coq Require Import QArith Qminmax ZArith Lia Lqa List Bool Permutation.
From Verif Require Import Py PyStr Whole WholeProofs.
From Verif Require TextLayout PText2 Table TableProofs TableTokens Content ContentFlow PContent.
Import ListNotations.
Open Scope list_scope.
Open Scope nat_scope.

(** ** The cells of tables *)
Section TableMade.
Import Table TableProofs.
Context {E W P F B : Type}.
Variable start : E -> res W.
Variable crun : W -> Q -> Q -> Q -> Q -> res (W * Q * bool * list P).
Variable b_eqb : B -> B -> bool.
Variable t : @table E F B.
Variables x y width height : Q.
Variable okE : E -> Prop.
Variable okW : W -> Prop.
Variable R : P -> Prop.
Hypothesis start_ok : forall e s, okE e -> start e = Ok s -> okW s.
Hypothesis run_ok : forall s x y w h s' ht fin ps, okW s -> crun s x y w h = Ok (s', ht, fin, ps) -> Forall R ps /\ (fin = false -> okW s').
Notation rstate := (@rstate E W P F B).
Notation incell := (@incell E W F).
Hypothesis ok_rows : forall row c, In row (t_rows t) -> In c row -> okE (c_elem c).
Hypothesis ok_blank : okE (c_elem (t_blank t)).
Definition okds (l : ndict (@dcell W F)) : Prop := Forall (fun kv => okW (d_state (snd kv))) l.
Definition okin (el : incell) : Prop := match el with New c => okE (c_elem c) | Blank => True | Cont d => okW (d_state d) end.
Lemma okin_begins el s : okin el -> begins start t el = Ok s -> okW s.
Proof.
  destruct el as [c| |d]; cbn [okin begins]; intros H Hb.
  - exact (start_ok _ _ H Hb).
  - exact (start_ok _ _ ok_blank Hb).
  - injection Hb as <-. exact H.
Qed.
Lemma event_made index first y0 h0 col el e : okin el -> event_of start crun t x width index first y0 h0 col el e ->
  Forall R (e_parts e) /\ (e_fin e = false -> okW (e_out e)).
Proof. intros Hel [_ _ _ _ _ _ _ Hin Hrun _]. exact (run_ok _ _ _ _ _ _ _ _ _ (okin_begins _ _ Hel Hin) Hrun). Qed.
Lemma nset_made k d l : okW (d_state d) -> okds l -> okds (nset k d l).
Proof.
  intros Hd. unfold okds. induction l as [|[k' v] l IH]; intros H; cbn [nset]; [constructor; [exact Hd|constructor]|].
  inversion H as [|? ? H1 H2]; subst. destruct (k =? k'); constructor; auto.
Qed.
Lemma npop_made k l : okds l -> okds (npop k l).
Proof. intros H. apply Forall_forall. intros kv Hk. apply filter_In in Hk as [Hk _]. exact (proj1 (Forall_forall _ _) H kv Hk). Qed.
Lemma nget_made k l d : okds l -> nget k l = Some d -> okW (d_state d).
Proof.
  induction l as [|[k' v] l IH]; cbn [nget]; [discriminate|]. intros H. inversion H as [|? ? H1 H2]; subst. destruct (k =? k'); [intros [= <-]; exact H1|exact (IH H2)].
Qed.
Record rmade (r : rstate) : Prop := { rd_del : okds (r_delayed r); rd_parts : Forall R (r_parts r) }.
Lemma scan_made index first del y0 h0 : forall r col row r' evs,
  scan start crun t x width index first del y0 h0 r col row r' evs -> Forall okin row -> rmade r -> rmade r'.
Proof.
  induction 1 as [r col|r col el row r1 r2 evs H1 H2 H3 IH|r col el row e r1 r2 evs H1 H2 H3 H4 IH]; intros Hrow Hok; [exact Hok| |].
  - inversion Hrow as [|? ? He Hl]; subst. destruct Hok as [O1 O2]. destruct H2. apply (IH Hl). constructor; congruence.
  - inversion Hrow as [|? ? He Hl]; subst. destruct Hok as [O1 O2]. destruct (event_made _ _ _ _ _ _ _ He H2) as (E1 & E2). destruct H3. apply (IH Hl). constructor.
    + rewrite pr_delayed. destruct (e_fin e); [apply npop_made; exact O1|]. apply nset_made; [|exact O1]. exact (E2 eq_refl).
    + rewrite pr_parts. apply Forall_app. auto.
Qed.
Lemma add_row_made index first del r row a r' : Forall okin row -> rmade r -> add_row start crun b_eqb t x y width height index first del r row = Ok (a, r') -> rmade r'.
Proof.
  intros Hrow Hok H. destruct (add_row_cases _ _ _ _ _ _ _ _ _ _ _ _ _ _ _ H) as (r1 & evs & Hs & _ & Hc).
  assert (H0 : rmade (TableProofs.reset r)) by (destruct Hok as [O1 O2]; constructor; auto).
  pose proof (scan_made _ _ _ _ _ _ _ _ _ _ Hs Hrow H0) as H1.
  destruct Hc as [(_ & _ & _ & ->)|(_ & _ & go & _ & [_ (r2 & Hs2 & _ & _ & Hp & _ & Hd & _ & _ & _ & _ & Hh)])]; [exact H1|].
  cbn [rr_index rr_first rr_del rr_row rr_evs] in Hs2. destruct (scan_made _ _ _ _ _ _ _ _ _ _ Hs2 Hrow H0) as [O1 O2]. constructor; congruence.
Qed.
Lemma add_rows_made : forall rows index first r a r' index' first', (forall row c, In row rows -> In c row -> okE (c_elem c)) -> rmade r ->
  add_rows start crun b_eqb t x y width height index first r rows = Ok (a, r', index', first') -> rmade r'.
Proof.
  induction rows as [|row rows IH]; intros index first r a r' index' first' Hrows Hok; cbn [add_rows].
  - intros H. injection H as _ <- _ _. exact Hok.
  - destruct (add_row start crun b_eqb t x y width height index first false r (map New row)) as [[a1 r1]|] eqn:Er; [|discriminate]. cbn [bind].
    assert (H3 : rmade r1). { refine (add_row_made _ _ _ _ _ _ _ _ Hok Er). apply Forall_forall. intros el He. apply in_map_iff in He as (c & <- & Hc). exact (Hrows row c (or_introl eq_refl) Hc). }
    destruct a1; [|intros H; injection H as _ <- _ _; exact H3|intros H; injection H as _ <- _ _; exact H3]. apply IH; [|exact H3]. intros row' c Hr. apply Hrows. now right.
Qed.
Theorem table_run_made s s' o : okds (t_delayed s) -> run start crun b_eqb t x y width height s = Ok (s', o) ->
  okds (t_delayed s') /\ Forall R (o_parts o).
Proof.
  intros Hd H. unfold run in H.
  match type of H with bind ?e _ = _ => destruct e as [[[[a r1] index] first]|] eqn:Ea; [|discriminate] end. cbn [bind] in H.
  assert (H0 : rmade (empty_run t (t_delayed s))) by (constructor; [exact Hd|constructor]).
  assert (Hrows : forall row c, In row (skipn (t_index s) (t_rows t)) -> In c row -> okE (c_elem c)).
  { intros row c Hr. apply ok_rows. rewrite <- (firstn_skipn (t_index s) (t_rows t)). apply in_or_app. now right. }
  assert (H1 : rmade r1).
  { destruct (t_delayed s) as [|kv dl] eqn:Ed; [exact (add_rows_made _ _ _ _ _ _ _ _ Hrows H0 Ea)|].
    destruct (add_row start crun b_eqb t x y width height (t_index s) (t_first s) true (empty_run t (kv :: dl)) (delayed_row t (kv :: dl))) as [[a1 r2]|] eqn:Er; [|discriminate]. cbn [bind] in Ea.
    assert (H2 : rmade r2).
    { refine (add_row_made _ _ _ _ _ _ _ _ H0 Er). apply Forall_forall. intros el He. unfold delayed_row in He. apply in_map_iff in He as (c & <- & _).
      destruct (nget c (kv :: dl)) as [d|] eqn:Eg; cbn [okin]; [exact (nget_made _ _ _ Hd Eg)|exact I]. }
    destruct a1; [|injection Ea as _ <- _ _; exact H2|injection Ea as _ <- _ _; exact H2].
    refine (add_rows_made _ _ _ _ _ _ _ _ _ H2 Ea). destruct (skipn (t_index s) (t_rows t)); [intros ? ? []|]. intros row c Hr. apply Hrows. now right. }
  destruct (last_borders_fields b_eqb t x y width index r1) as (L1 & _ & _ & L4 & _). destruct H1 as [O1 O2].
  destruct a; injection H as <- <-; [| |split; [exact O1|constructor]]; rewrite <- L1 in O2; rewrite <- L4 in O1; (split; [exact O1|exact O2]).
Qed.
End TableMade.

(** ** Kits *)
Section Made.
Context {F B : Type}.
Variable b_eqb : B -> B -> bool.
Variable round3 : Q -> Q.
Variable text_w : TextLayout.fkey -> str -> Q.
Variable space_w : TextLayout.fkey -> Q.
Variable fref : TextLayout.fkey -> str.
Variable fuel : nat.
Notation kit := (@kit F B).
Notation leaf_kit := (@leaf_kit F B b_eqb round3 text_w space_w fref fuel).
Notation leaf_spec := (@leaf_spec F B b_eqb round3 text_w space_w fref fuel).
Notation text_kit := (@text_kit F B round3 text_w space_w fref).
Notation image_kit := (@image_kit F B).
Notation content_kit := (@content_kit F B fuel).
Notation table_kit := (table_kit (F:=F) b_eqb).
Notation cell_kit := (@cell_kit F B fuel).

Definition made (it : drawn) : Prop :=
  match it with
  | DPar c x y d => exists ds d0 w h, PText2.between round3 text_w space_w fref c ds d0 /\ TextLayout.run round3 text_w space_w fref c d0 w h = Ok d
  | DPic _ _ _ _ _ _ => True
  end.
Record makes (k : kit) (okE : kE k -> Prop) (inv : kO k -> Prop) : Prop := {
  mk_start : forall e o, okE e -> k_start k e = Ok o -> inv o;
  mk_run : forall o x y w h o' ht fin ps ls, inv o -> k_run k o x y w h = Ok (o', ht, fin, ps, ls) -> Forall made ps /\ (fin = false -> inv o');
  mk_again : forall o, k_restore k o (k_save k o) = o }.

Lemma runs_app c : forall r1 d ds r2 ds2, TextLayout.runs round3 text_w space_w fref c d r1 = Ok ds -> TextLayout.d_fin (last ds d) = false ->
  TextLayout.runs round3 text_w space_w fref c (last ds d) r2 = Ok ds2 -> TextLayout.runs round3 text_w space_w fref c d (r1 ++ r2) = Ok (ds ++ ds2).
Proof.
  induction r1 as [|[w h] r1 IH]; intros d ds r2 ds2 E Hf E2; cbn [TextLayout.runs app] in E |- *.
  - injection E as <-. exact E2.
  - destruct (TextLayout.run round3 text_w space_w fref c d w h) as [d1|]; [|discriminate]. cbn [bind] in E |- *. destruct (TextLayout.d_fin d1) eqn:E1.
    + injection E as <-. cbn [last] in Hf. congruence.
    + destruct (TextLayout.runs round3 text_w space_w fref c d1 r1) as [rest|] eqn:Er; [|discriminate]. cbn [bind] in E. injection E as <-.
      rewrite PText2.last_cons in Hf, E2. rewrite (IH _ _ _ _ Er Hf E2). reflexivity.
Qed.
Lemma between_next c ds d w h d' : PText2.between round3 text_w space_w fref c ds d -> TextLayout.run round3 text_w space_w fref c d w h = Ok d' ->
  TextLayout.d_fin d' = false -> PText2.between round3 text_w space_w fref c (ds ++ [d']) d'.
Proof.
  intros ((rects & E) & -> & Hf) Er Hf'. split; [|split; [now rewrite last_last|exact Hf']]. exists (rects ++ [(w, h)]). apply (runs_app _ _ _ _ _ _ E Hf).
  cbn [TextLayout.runs]. rewrite Er. cbn [bind]. now rewrite Hf'.
Qed.
Definition text_inv (o : TextLayout.config * TextLayout.dyn) : Prop := exists ds, PText2.between round3 text_w space_w fref (fst o) ds (snd o).
Lemma text_makes okE : makes text_kit okE text_inv.
Proof.
  constructor.
  - intros c o _ H. cbn in H. injection H as <-. exists []. split; [exists []; reflexivity|]. split; reflexivity.
  - intros [c d] x y w h o' ht fin ps ls [ds Hb]. cbn [Whole.text_kit k_run fst snd] in *.
    assert (unfinished d = d) as -> by (destruct Hb as (_ & _ & Hf); destruct d; cbn in Hf; subst; reflexivity).
    destruct (TextLayout.run round3 text_w space_w fref c d w h) as [d'|] eqn:Er; [|discriminate]. cbn [bind]. intros H. injection H as <- <- <- <- <-.
    split; [|intros Hf; exists (ds ++ [d']); exact (between_next _ _ _ _ _ _ Hb Er Hf)]. constructor; [|constructor]. exists ds, d, w, h. split; assumption.
  - intros [c d]. cbn. destruct d. reflexivity.
Qed.
Lemma image_makes okE : makes image_kit okE (fun _ => True).
Proof.
  constructor; [auto| |reflexivity]. intros [iw ih] x y w h o' ht fin ps ls _. cbn [Whole.image_kit k_run]. destruct (Qeq_bool iw 0); [discriminate|].
  destruct (Table.qlt _ h); intros H; injection H as <- <- <- <- <-; (split; [|auto]); [constructor; [exact I|constructor]|constructor].
Qed.
Lemma sum_makes a b sa sb ia ib : makes a (sp_ok a sa) ia -> makes b (sp_ok b sb) ib ->
  makes (sum_kit a b) (sp_ok (sum_kit a b) (sum_spec sa sb)) (fun o => match o with inl o => ia o | inr o => ib o end).
Proof.
  intros [A1 A2 A3] [B1 B2 B3]. constructor.
  - intros [e|e] o He; cbn [sum_kit k_start sum_spec sp_ok] in *; [destruct (k_start a e) as [o1|] eqn:Es|destruct (k_start b e) as [o1|] eqn:Es]; cbn [bind]; try discriminate; intros H; injection H as <-; [exact (A1 _ _ He Es)|exact (B1 _ _ He Es)].
  - intros [o|o] x y w h o' ht fin ps ls Ho; cbn [sum_kit k_run].
    + destruct (k_run a o x y w h) as [[[[[o1 ht1] f1] ps1] ls1]|] eqn:Er; [|discriminate]. cbn [bind]. intros H. injection H as <- <- <- <- <-. exact (A2 _ _ _ _ _ _ _ _ _ _ Ho Er).
    + destruct (k_run b o x y w h) as [[[[[o1 ht1] f1] ps1] ls1]|] eqn:Er; [|discriminate]. cbn [bind]. intros H. injection H as <- <- <- <- <-. exact (B2 _ _ _ _ _ _ _ _ _ _ Ho Er).
  - intros [o|o]; cbn [sum_kit k_restore k_save]; [now rewrite A3|now rewrite B3].
Qed.

(** *** Boxes *)
Section Box.
Variable k : kit.
Variable sp : spec k.
Variable inv : kO k -> Prop.
Hypothesis G : makes k (sp_ok k sp) inv.
Notation c_inv := (c_inv k sp inv).
Lemma works_made t ps t' : ContentFlow.works (k_start k) (k_run k) t ps t' -> Forall (w_ok k sp inv) t ->
  Forall made (flat_map of_placed ps) /\ Forall (w_ok k sp inv) t'.
Proof.
  assert (Hb : forall w o, w_ok k sp inv w -> ContentFlow.begins (k_start k) w o -> inv o).
  { intros [e|o1|iw ih] o; cbn [w_ok ContentFlow.begins]; [exact (mk_start _ _ _ G e o)|intros H ->; exact H|intros _ []]. }
  induction 1 as [t|w0 t ps t' s x y w h o o' height parts lines Hb1 Hc Hw IH|w0 t s x y w h o o' height parts lines Hb1 Hc|t ps t' s x y w h iw ih Hw IH]; intros Hok.
  - split; [constructor|exact Hok].
  - inversion Hok as [|? ? Ho Hok']; subst. destruct (mk_run _ _ _ G _ _ _ _ _ _ _ _ _ _ (Hb _ _ Ho Hb1) Hc) as [R1 R2].
    destruct (IH Hok') as (I1 & I2). split; [|exact I2]. cbn [flat_map of_placed]. apply Forall_app. auto.
  - inversion Hok as [|? ? Ho Hok']; subst. destruct (mk_run _ _ _ G _ _ _ _ _ _ _ _ _ _ (Hb _ _ Ho Hb1) Hc) as [R1 R2].
    split; [|constructor; [exact (R2 eq_refl)|exact Hok']]. cbn [flat_map of_placed]. rewrite app_nil_r. exact R1.
  - inversion Hok as [|? ? Ho Hok']; subst. destruct (IH Hok') as (I1 & I2). split; [|exact I2]. cbn [flat_map of_placed]. constructor; [exact I|exact I1].
Qed.
Lemma content_made W0 c x y w h c' o : c_inv W0 c -> match W0 with Some W => (W <= w)%Q | None => True end ->
  Content.run (k_start k) (k_run k) (k_save k) (k_restore k) fuel x y w h c = Content.Done (c', o) ->
  Forall made (flat_map of_placed (Content.o_parts o)) /\ (Content.c_finished c' = false -> c_inv W0 c').
Proof.
  intros (Hf & Hok & elems & Hel & Hb) Hw Hrun. pose proof (mk_again _ _ _ G) as G3.
  assert (Hone : exists W, (W <= w)%Q /\ match W0 with Some W' => W' = W | None => True end /\ PContent.between (k_restore k) W elems c (ctodo k c)).
  { destruct W0 as [W|]; [exists W; auto|]. destruct Hb as [m Hb]. exists (Qmin m w). split; [apply Q.le_min_r|]. split; [exact I|]. apply Hb, Q.le_min_l. }
  destruct Hone as (W & HW & HW0 & Hb1).
  destruct (PContent.run_ok _ _ _ _ G3 W fuel elems c (ctodo k c) x y w h c' o (els_plain k sp W0 W elems HW0 Hel) HW Hb1 Hf Hrun) as (t' & H1 & (fl & H2 & H3) & H4).
  destruct (works_made _ _ _ H1 Hok) as (I1 & I2).
  split; [exact I1|]. intros Ef. rewrite Ef in H4. split; [exact Ef|]. rewrite <- (between_todo _ _ _ _ _ H4). split; [exact I2|].
  exists elems. split; [exact Hel|]. destruct W0 as [W'|]; [rewrite HW0; exact H4|]. destruct Hb as [m Hb]. exists (Qmin m w). intros W1 HW1.
  destruct (PContent.run_ok (k_start k) (k_run k) (k_save k) (k_restore k) G3 W1 fuel elems c (ctodo k c) x y w h c' o) as (t2 & _ & _ & H5); [apply (els_plain k sp None W1 elems I Hel)| | |exact Hf|exact Hrun|].
  - apply (Qle_trans _ _ _ HW1), Q.le_min_r.
  - apply Hb. apply (Qle_trans _ _ _ HW1), Q.le_min_l.
  - rewrite Ef in H5. rewrite (between_todo _ _ _ _ _ H4), <- (between_todo _ _ _ _ _ H5). exact H5.
Qed.
Lemma content_run_made W0 c x y w h c' ht fin ps ls : c_inv W0 c -> match W0 with Some W => (W <= w)%Q | None => True end ->
  k_run (content_kit k) c x y w h = Ok (c', ht, fin, ps, ls) -> Forall made ps /\ (fin = false -> c_inv W0 c').
Proof.
  intros Hi HW. cbn [Whole.content_kit k_run]. rewrite (c_again _ _ _ _ c Hi).
  destruct (Content.run _ _ _ _ _ _ _ _ _ c) as [[c1 o]|e|] eqn:Er; [|discriminate|discriminate]. intros H. injection H as <- <- <- <- <-.
  exact (content_made W0 c x y w h c1 o Hi HW Er).
Qed.
Lemma fresh_made W0 l gap : els_ok k sp W0 l -> c_inv W0 (Content.fresh_content l 1 gap).
Proof.
  intros H. unfold WholeProofs.c_inv, ctodo. cbn [Content.fresh_content Content.c_finished Content.c_part Content.c_elems]. split; [reflexivity|]. split.
  - exact (proj1 (flat_words_ok k sp inv (fun _ => []) W0 l H)).
  - exists l. split; [exact H|].
    assert (Hb : forall W, PContent.between (k_restore k) W l (Content.fresh_content l 1 gap) (ContentFlow.flat l)) by (intros W; repeat split). destruct W0 as [W|]; [apply Hb|]. exists 0%Q. intros W _. apply Hb.
Qed.
Lemma content_makes : makes (content_kit k) (sp_ok (content_kit k) (content_spec fuel k sp)) (c_inv None).
Proof.
  constructor.
  - intros [l cols gap] o [Hc Hl] H. cbn [Whole.content_kit k_start bx_elems bx_cols bx_gap] in *. injection H as <-. subst cols. exact (fresh_made None l gap Hl).
  - intros c x y w h c' ht fin ps ls Hi. exact (content_run_made None c x y w h c' ht fin ps ls Hi I).
  - intros c. cbn [Whole.content_kit k_restore k_save]. unfold Content.get_state, Content.set_state. destruct c as [el co ga [f|] fi he tr]; cbn; [|reflexivity].
    unfold Content.with_section. destruct f. reflexivity.
Qed.
End Box.

(** *** Tables *)
Lemma table_makes k sp inv : makes k (sp_ok k sp) inv ->
  makes (table_kit k) (sp_ok (table_kit k) (table_spec b_eqb sp))
    (fun o => TableTokens.table_ok (sp_ok k sp) (sp_words k sp) (fst o) /\
       okds (fun p : kO k * option (kS k) => inv (fst p) /\ (snd p = None \/ snd p = Some (k_save k (fst p)))) (Table.t_delayed (snd o))).
Proof.
  intros G. constructor.
  - intros t o Ht H. cbn in H. injection H as <-. split; [exact Ht|constructor].
  - intros [t s] x y w h o' ht fin ps ls [Ht Hd] H. cbn [Whole.table_kit k_run fst snd] in *.
    destruct (Table.run (cell_start k) (cell_run k) b_eqb t x y w h (table_again s)) as [[s' out]|] eqn:Er; [|discriminate]. cbn [bind] in H. injection H as <- _ _ <- _. cbn [fst snd].
    destruct (table_run_made (cell_start k) (cell_run k) b_eqb t x y w h (sp_ok k sp)
      (fun p : kO k * option (kS k) => inv (fst p) /\ (snd p = None \/ snd p = Some (k_save k (fst p))))
      (fun p : drawn + @rule F B => match p with inl it => made it | inr _ => True end)) with (s := table_again s) (s' := s') (o := out) as [K1 K2]; [| | | |exact Hd|exact Er|].
    + intros e p He Hs. unfold cell_start in Hs. destruct (k_start k e) as [o1|] eqn:Es; [|discriminate]. cbn [bind] in Hs. injection Hs as <-. split; [exact (mk_start _ _ _ G _ _ He Es)|now left].
    + intros [o1 sv] px py pw ph p' pht pfin pps [Hp1 Hp2] Hrun. cbn [fst snd] in Hp1, Hp2. unfold cell_run in Hrun. cbn [fst snd] in Hrun.
      assert (E : match sv with Some s => k_restore k o1 s | None => o1 end = o1) by (destruct Hp2 as [->| ->]; [reflexivity|apply (mk_again _ _ _ G)]). rewrite E in Hrun.
      destruct (k_run k o1 px py pw ph) as [[[[[o2 ht1] f1] ps1] ls1]|] eqn:Ek; [|discriminate]. cbn [bind] in Hrun. injection Hrun as <- _ <- <-.
      destruct (mk_run _ _ _ G _ _ _ _ _ _ _ _ _ _ Hp1 Ek) as [J1 J2]. split; [|intros Hf; split; [exact (J2 Hf)|now right]].
      apply Forall_app. split; apply Forall_forall; intros q Hq; apply in_map_iff in Hq as (q0 & <- & Hq0); cbn; [exact (proj1 (Forall_forall _ _) J1 q0 Hq0)|exact I].
    + intros row c Hr Hc. exact (proj2 (proj2 (proj2 (TableTokens.tk_cells _ _ _ Ht row c Hr Hc)))).
    + exact (proj2 (proj2 (proj2 (proj1 (TableTokens.tk_blank _ _ _ Ht))))).
    + split; [|intros _; split; [exact Ht|exact K1]]. apply Forall_forall. intros it Hit. unfold lefts in Hit. apply in_flat_map in Hit as (q & Hq1 & Hq2).
      destruct q as [q|q]; [|destruct Hq2]. destruct Hq2 as [<-|[]]. exact (proj1 (Forall_forall _ _) K2 _ Hq1).
  - intros [t s]. cbn. destruct s. reflexivity.
Qed.
Lemma leaf_makes : forall n, exists inv, makes (leaf_kit n) (sp_ok (leaf_kit n) (leaf_spec n)) inv.
Proof.
  induction n as [|n [inv G]].
  - exists text_inv. exact (text_makes _).
  - eexists. cbn [Whole.leaf_kit WholeProofs.leaf_spec]. refine (sum_makes _ _ _ _ _ _ (text_makes _) (table_makes _ _ _ _)).
    unfold Whole.cell_kit, cell_spec. apply sum_makes; [exact G|]. apply sum_makes; [apply image_makes|]. apply content_makes. exact G.
Qed.

(** ** Pages *)
Theorem pages_made n l gap W0 : forall rs fin pgs, els_ok (leaf_kit n) (leaf_spec n) (Some W0) l -> Forall (fun r => (W0 <= rc_w r)%Q) rs ->
  pages (content_kit (leaf_kit n)) (Content.fresh_content l 1 gap) rs = Ok (fin, pgs) -> Forall (Forall made) pgs.
Proof.
  intros rs fin pgs Hl. destruct (leaf_makes n) as [inv G]. generalize (fresh_made (leaf_kit n) (leaf_spec n) inv (Some W0) l gap Hl).
  generalize (Content.fresh_content (O := kO (leaf_kit n)) (S := kS (leaf_kit n)) l 1 gap). revert fin pgs. induction rs as [|r rs IH]; intros fin pgs o Hi Hr; cbn [pages].
  - intros H. injection H as <- <-. constructor.
  - inversion Hr as [|? ? Hr1 Hr2]; subst. destruct (k_run (content_kit (leaf_kit n)) o (rc_x r) (rc_y r) (rc_w r) (rc_h r)) as [[[[[o' ht] f] ps] ls]|] eqn:Er; [|discriminate]. cbn [bind].
    destruct (content_run_made _ _ _ G (Some W0) o _ _ _ _ _ _ _ _ _ Hi Hr1 Er) as [G1 G2]. destruct f.
    + intros H. injection H as <- <-. constructor; [exact G1|constructor].
    + destruct (pages _ o' rs) as [[b l']|] eqn:Ep; [|discriminate]. cbn [bind]. intros H. injection H as <- <-. constructor; [exact G1|]. exact (IH _ _ _ (G2 eq_refl) Hr2 Ep).
Qed.
End Made.
