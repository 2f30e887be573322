(** The height that a text, a table or a box of texts in one column reports covers
    what it shows; proofs for C91. *)
From Coq Require Import QArith ZArith Lia Lqa List.
From Verif Require Import Py Table TableProofs TableRoom Whole WholeRoom.
From Verif Require TextLayout TextFit TextNonneg Content ContentFlow ContentApart ContentCover.
Import ListNotations.
Open Scope list_scope.
Open Scope nat_scope.

(** ** Tables *)
Section TableCover.
Context {E W P F B : Type}.
Variable start : E -> res W.
Variable crun : W -> Q -> Q -> Q -> Q -> res (W * Q * bool * list P).
Variable b_eqb : B -> B -> bool.
Variable t : @table E F B.
Variables x y width height : Q.
Variable okE : E -> Prop.
Variable okW : W -> Prop.
(** What is shown is over a height. *)
Variable low : Q -> P -> Prop.
Hypothesis low_mono : forall a b p, (b <= a)%Q -> low a p -> low b p.
Definition void (p : P) : Prop := forall b, low b p.
Hypothesis start_ok : forall e s, okE e -> start e = Ok s -> okW s.
Hypothesis run_ok : forall s x y w h s' ht fin ps, okW s -> crun s x y w h = Ok (s', ht, fin, ps) ->
  (fin = false -> okW s') /\ (0 <= ht)%Q /\ Forall (low (y - ht)%Q) ps /\ ((ht == 0)%Q -> Forall void ps).
Notation rstate := (@rstate E W P F B).
Notation incell := (@incell E W F).
Notation ok_margins := (@ok_margins F).

Definition cv_cell (c : @cell E F) : Prop := ok_margins (c_style c) /\ okE (c_elem c) /\ c_rowspan c <= 1.
Record cv_table : Prop := {
  ct_rows : Forall (Forall cv_cell) (t_rows t); ct_blank : cv_cell (t_blank t); ct_bh : forall i j, (0 <= b_width (t_bh t i j))%Q }.
Definition cv_dcell (index : nat) (d : @dcell W F) : Prop := ok_margins (d_style d) /\ okW (d_state d) /\ d_rowspan d <= 1 /\ d_row d <= index.
Definition cv_dcells (index : nat) (l : ndict (@dcell W F)) : Prop := Forall (fun kv => cv_dcell index (snd kv)) l.
Hypothesis ok : cv_table.
Lemma later i j l : i <= j -> cv_dcells i l -> cv_dcells j l.
Proof. intros H. apply Forall_impl. intros [k d] (A & C & D & G). repeat split; try assumption; try apply A. cbn in *. lia. Qed.
Definition cvin (index : nat) (el : incell) : Prop := match el with New c => cv_cell c | Blank => True | Cont d => cv_dcell index d end.
Lemma cvin_facts index el : cvin index el -> ok_margins (style_of t el) /\ rowspan_of t el <= 1 /\ row_of index el <= index.
Proof. destruct el as [c| |d]; cbn [cvin style_of rowspan_of row_of]; [intros (A & _ & C); auto|intros _; destruct (ct_blank ok) as (A & _ & C); auto|intros (A & _ & C & D); auto]. Qed.
Lemma cvin_begins index el s : cvin index el -> begins start t el = Ok s -> okW s.
Proof.
  destruct el as [c| |d]; cbn [cvin begins].
  - intros (_ & H & _) Hb. exact (start_ok _ _ H Hb).
  - intros _ Hb. destruct (ct_blank ok) as (_ & H & _). exact (start_ok _ _ H Hb).
  - intros (_ & H & _) Hb. now injection Hb as <-.
Qed.
(** A cell: what its row needs for it covers what it shows. *)
Lemma event_cv index first r_h rm col el e : cvin index el -> event_of start crun t x width index first (y - r_h)%Q rm col el e ->
  (rows_left t index el <= 0)%Z /\ (0 <= e_need e)%Q /\ Forall (low (y - r_h - e_need e)%Q) (e_parts e) /\ ((e_need e == 0)%Q -> Forall void (e_parts e)) /\
  (e_fin e = false -> cv_dcell index (TableProofs.rest_of t e)).
Proof.
  intros Hel [Hrow _ Hwhat _ Hy _ _ Hin Hrun Hneed]. destruct (cvin_facts _ _ Hel) as ((M1 & _ & M3 & _) & Hs & Hr).
  destruct (run_ok _ _ _ _ _ _ _ _ _ (cvin_begins _ _ _ Hel Hin) Hrun) as (K1 & K2 & K3 & K4).
  assert (Hl : (rows_left t index el <= 0)%Z) by (unfold rows_left; lia).
  assert (Hp : (0 <= pad_top t index col el /\ 0 <= pad_bottom t index col el)%Q).
  { unfold pad_top, pad_bottom. pose proof (half _ (ct_bh ok index col)). pose proof (half _ (ct_bh ok (Z.to_nat (Z.of_nat index + rows_left t index el + 1)) col)). lra. }
  rewrite Hy in K3. split; [exact Hl|]. rewrite Hneed. destruct (qlt 0 (e_height e)) eqn:El.
  - apply qlt_lt in El. split; [lra|]. split; [|split; [intros Hz; lra|]].
    + refine (Forall_impl _ _ K3). intros p. apply low_mono. lra.
    + intros Hf. unfold TableProofs.rest_of. rewrite Hwhat, Hrow. split; [|split; [exact (K1 Hf)|auto]]. exact (proj1 (cvin_facts _ _ Hel)).
  - assert (Hz : (e_height e == 0)%Q). { unfold qlt in El. apply negb_false_iff in El. apply Qle_bool_iff in El. lra. }
    specialize (K4 Hz). assert (Hn : (0 <= (if first then 0 else 4))%Q) by (destruct first; lra). split; [lra|]. split; [|split; [intros _; exact K4|]].
    + refine (Forall_impl _ _ K4). intros p V. apply V.
    + intros Hf. unfold TableProofs.rest_of. rewrite Hwhat, Hrow. split; [|split; [exact (K1 Hf)|auto]]. exact (proj1 (cvin_facts _ _ Hel)).
Qed.

Record rcv (index : nat) (r : rstate) (H : Q) : Prop := {
  rc_del : cv_dcells index (r_delayed r); rc_low : Forall (low (y - H)%Q) (r_parts r); rc_void : (H == 0)%Q -> Forall void (r_parts r); rc_pos : (0 <= H)%Q }.
Lemma nset_cv i k d l : cv_dcell i d -> cv_dcells i l -> cv_dcells i (nset k d l).
Proof.
  intros Hd. unfold cv_dcells. induction l as [|[k' v] l IH]; intros H; cbn [nset]; [constructor; [exact Hd|constructor]|].
  inversion H as [|? ? H1 H2]; subst. destruct (k =? k'); constructor; auto.
Qed.
Lemma npop_cv i k l : cv_dcells i l -> cv_dcells i (npop k l).
Proof. intros H. apply Forall_forall. intros kv Hk. apply filter_In in Hk as [Hk _]. exact (proj1 (Forall_forall _ _) H kv Hk). Qed.
Lemma nget_cv i k l d : cv_dcells i l -> nget k l = Some d -> cv_dcell i d.
Proof.
  induction l as [|[k' v] l IH]; cbn [nget]; [discriminate|]. intros H. inversion H as [|? ? H1 H2]; subst. destruct (k =? k'); [intros [= <-]; exact H1|exact (IH H2)].
Qed.
Lemma rcv_more index (r r' : rstate) H H' : r_delayed r' = r_delayed r -> r_parts r' = r_parts r -> (H <= H')%Q -> rcv index r H -> rcv index r' H'.
Proof.
  intros E1 E2 Hle [A C D G]. constructor; [now rewrite E1| | |lra].
  - rewrite E2. refine (Forall_impl _ _ C). intros p. apply low_mono. lra.
  - rewrite E2. intros Hz. apply D. lra.
Qed.
Lemma scan_cv index first del r_h rm : (0 <= r_h)%Q -> forall r col row r' evs,
  scan start crun t x width index first del (y - r_h)%Q rm r col row r' evs -> Forall (cvin index) row -> (0 <= r_max r)%Q -> rcv index r (r_h + r_max r) ->
  (0 <= r_max r')%Q /\ rcv index r' (r_h + r_max r') /\ r_height r' = r_height r.
Proof.
  intros Hr. induction 1 as [r col|r col el row r1 r2 evs H1 H2 H3 IH|r col el row e r1 r2 evs H1 H2 H3 H4 IH]; intros Hrow Hm Hok; [auto| |].
  - inversion Hrow as [|? ? He Hl]; subst. destruct H2. assert (Hge : (r_max r <= max_after r col)%Q).
    { unfold max_after. destruct (nget col (r_span r)) as [[rows cols]|]; [|lra]. destruct (rows - 1 =? 0)%Z; [|lra].
      cbv zeta. match goal with |- context [if qlt ?a ?b then _ else _] => destruct (qlt a b) eqn:Eq end; [apply qlt_lt in Eq; lra|lra]. }
    destruct (IH Hl) as (A & C & D); [rewrite sk_max; lra| |rewrite D, sk_height; auto]. rewrite sk_max. refine (rcv_more index r r1 (r_h + r_max r) _ sk_delayed sk_parts _ Hok). lra.
  - inversion Hrow as [|? ? He Hl]; subst. destruct (event_cv _ _ _ _ _ _ _ He H2) as (E1 & E2 & E3 & E4 & E5). destruct H3.
    assert (Hmx : (r_max r <= r_max r1 /\ e_need e <= r_max r1)%Q).
    { rewrite pr_max. cbv zeta. assert ((0 <? rows_left t index el)%Z = false) as -> by (apply Z.ltb_ge; exact E1).
      destruct (qlt (r_max r) (e_need e)) eqn:Eq; [apply qlt_lt in Eq; lra|]. unfold qlt in Eq. apply negb_false_iff in Eq. apply Qle_bool_iff in Eq. lra. }
    destruct Hmx as [X1 X2]. destruct (IH Hl) as (A & C & D); [lra| |rewrite D, pr_height; auto]. destruct Hok as [O1 O2 O3 O4]. constructor.
    + rewrite pr_delayed. destruct (e_fin e); [apply npop_cv; exact O1|]. apply nset_cv; auto.
    + rewrite pr_parts. apply Forall_app. split; [refine (Forall_impl _ _ O2)|refine (Forall_impl _ _ E3)]; intros p; apply low_mono; lra.
    + intros Hz. rewrite pr_parts. apply Forall_app. split; [apply O3|apply E4]; lra.
    + lra.
Qed.
Lemma add_row_cv index first del r row a r' : Forall (cvin index) row -> rcv index r (r_height r) ->
  add_row start crun b_eqb t x y width height index first del r row = Ok (a, r') -> rcv index r' (r_height r').
Proof.
  intros Hrow Hok H. destruct (add_row_cases _ _ _ _ _ _ _ _ _ _ _ _ _ _ _ H) as (r1 & evs & Hs & _ & Hc). pose proof (rc_pos _ _ _ Hok) as H0.
  assert (Hz : rcv index (TableProofs.reset r) (r_height r + r_max (TableProofs.reset r))) by (refine (rcv_more index r (TableProofs.reset r) (r_height r) _ eq_refl eq_refl _ Hok); cbn; lra).
  assert (Hm : (0 <= r_max (TableProofs.reset r))%Q) by (cbn; lra).
  destruct Hc as [(_ & _ & Hx & ->)|(_ & _ & go & _ & [_ (r2 & Hs2 & _ & _ & Hp & _ & Hd & _ & _ & _ & _ & Hh)])].
  - destruct (scan_cv _ _ _ _ _ H0 _ _ _ _ _ Hs Hrow Hm Hz) as (A & [C1 C2 C3 C4] & D). rewrite D. cbn [TableProofs.reset r_height]. constructor; [exact C1| | |exact H0].
    + refine (Forall_impl _ _ C2). intros p. apply low_mono. lra.
    + intros K. apply C3. lra.
  - cbn [rr_index rr_first rr_del rr_row rr_evs] in Hs2. destruct (scan_cv _ _ _ _ _ H0 _ _ _ _ _ Hs2 Hrow Hm Hz) as (A & C & D).
    apply (rcv_more index r2 r' (r_height r + r_max r2)); [exact Hd|exact Hp| |exact C]. rewrite Hh, D. cbn [TableProofs.reset r_height]. lra.
Qed.
Lemma add_rows_cv : forall rows index first r a r' index' first', Forall (Forall cv_cell) rows -> rcv index r (r_height r) ->
  add_rows start crun b_eqb t x y width height index first r rows = Ok (a, r', index', first') -> rcv index' r' (r_height r').
Proof.
  induction rows as [|row rows IH]; intros index first r a r' index' first' Hrows Hok; cbn [add_rows].
  - intros H. injection H as _ <- <- _. exact Hok.
  - inversion Hrows as [|? ? H1 H2]; subst. destruct (add_row start crun b_eqb t x y width height index first false r (map New row)) as [[a1 r1]|] eqn:Er; [|discriminate]. cbn [bind].
    assert (H3 : rcv index r1 (r_height r1)). { refine (add_row_cv _ _ _ _ _ _ _ _ Hok Er). apply Forall_forall. intros el He. apply in_map_iff in He as (c & <- & Hc). exact (proj1 (Forall_forall _ _) H1 c Hc). }
    destruct a1; [|intros H; injection H as _ <- <- _; exact H3|intros H; injection H as _ <- <- _; exact H3]. apply IH; [exact H2|].
    destruct H3 as [A C D G]. constructor; auto. exact (later index (S index) _ ltac:(lia) A).
Qed.
Lemma table_run_cv s s' o : cv_dcells (t_index s) (t_delayed s) -> run start crun b_eqb t x y width height s = Ok (s', o) ->
  cv_dcells (t_index s') (t_delayed s') /\ (0 <= o_height o)%Q /\ Forall (low (y - o_height o)%Q) (o_parts o) /\ ((o_height o == 0)%Q -> Forall void (o_parts o)).
Proof.
  intros Hd H. unfold run in H.
  match type of H with bind ?e _ = _ => destruct e as [[[[a r1] index] first]|] eqn:Ea; [|discriminate] end. cbn [bind] in H.
  assert (H0 : rcv (t_index s) (empty_run t (t_delayed s)) (r_height (@empty_run E W P F B t (t_delayed s)))) by (constructor; [exact Hd|constructor|constructor|cbn; lra]).
  assert (Hrows : Forall (Forall cv_cell) (skipn (t_index s) (t_rows t))) by (apply Forall_skipn; exact (ct_rows ok)).
  assert (H1 : rcv index r1 (r_height r1)).
  { destruct (t_delayed s) as [|kv dl] eqn:Ed; [exact (add_rows_cv _ _ _ _ _ _ _ _ Hrows H0 Ea)|].
    destruct (add_row start crun b_eqb t x y width height (t_index s) (t_first s) true (empty_run t (kv :: dl)) (delayed_row t (kv :: dl))) as [[a1 r2]|] eqn:Er; [|discriminate]. cbn [bind] in Ea.
    assert (H2 : rcv (t_index s) r2 (r_height r2)).
    { refine (add_row_cv _ _ _ _ _ _ _ _ H0 Er). apply Forall_forall. intros el He. unfold delayed_row in He. apply in_map_iff in He as (c & <- & _).
      destruct (nget c (kv :: dl)) as [d|] eqn:Eg; cbn [cvin]; [exact (nget_cv _ _ _ _ Hd Eg)|exact I]. }
    destruct a1; [|injection Ea as _ <- <- _; exact H2|injection Ea as _ <- <- _; exact H2].
    refine (add_rows_cv _ _ _ _ _ _ _ _ _ _ Ea); [destruct (skipn (t_index s) (t_rows t)); [constructor|inversion Hrows; assumption]|].
    destruct H2 as [A C D G]. constructor; auto. exact (later (t_index s) (S (t_index s)) _ ltac:(lia) A). }
  destruct (last_borders_fields b_eqb t x y width index r1) as (L1 & L2). destruct H1 as [O1 O2 O3 O4].
  cbv zeta in L1, L2. destruct L2 as (_ & L3 & L4 & _).
  destruct a; injection H as <- <-; [| |split; [exact O1|]; split; [exact O4|]; split; constructor]; rewrite <- L4 in O1; rewrite <- L1 in O2, O3; rewrite <- L3 in O2, O3, O4; (split; [exact O1|]; split; [exact O4|]; split; [exact O2|exact O3]).
Qed.
End TableCover.

(** ** Texts and tables inside one another *)
Definition it_bottom (it : drawn) : Q := (it_top it - it_height it)%Q.
Definition weight (it : drawn) : Prop := match it with DPar _ _ _ d => (0 <= TextLayout.d_h d)%Q | DPic _ _ _ _ _ _ => False end.
Definition over (b : Q) (it : drawn) : Prop := (visible it -> (b <= it_bottom it)%Q) /\ weight it.
Section Kits.
Context {F B : Type}.
Variable b_eqb : B -> B -> bool.
Variable round3 : Q -> Q.
Variable text_w : TextLayout.fkey -> str -> Q.
Variable space_w : TextLayout.fkey -> Q.
Variable fref : TextLayout.fkey -> str.
Variable fuel : nat.
Notation kit := (@kit F B).
Notation leaf_kit := (@leaf_kit F B b_eqb round3 text_w space_w fref fuel).
Notation cell_kit k := (@cell_kit F B fuel k).
Notation table_kit k := (@table_kit F B b_eqb k).
Notation text_kit := (@text_kit F B round3 text_w space_w fref).

Record covers (k : kit) (okE : kE k -> Prop) (okO : kO k -> Prop) (okS : kO k -> kS k -> Prop) : Prop := {
  cv_start : forall e o, okE e -> k_start k e = Ok o -> okO o;
  cv_run : forall o x y w h o' ht fin ps ls, okO o -> k_run k o x y w h = Ok (o', ht, fin, ps, ls) ->
    okO o' /\ (0 <= ht)%Q /\ Forall (over (y - ht)%Q) ps /\ ((ht == 0)%Q -> Forall (fun it => forall b, over b it) ps);
  cv_save : forall o, okO o -> okS o (k_save k o);
  cv_restore : forall o s, okO o -> okS o s -> okO (k_restore k o s) }.

Lemma text_covers : covers text_kit (fun c => (0 <= TextLayout.c_lh c)%Q) (fun o => (0 <= TextLayout.c_lh (fst o))%Q) (fun _ _ => True).
Proof.
  constructor.
  - intros c o Hc H. cbn in H. injection H as <-. exact Hc.
  - intros [c d] x y w h o' ht fin ps ls Hlh. cbn [fst snd Whole.text_kit k_run] in *.
    destruct (TextLayout.run round3 text_w space_w fref c (unfinished d) w h) as [d'|] eqn:Er; [|discriminate]. cbn [bind]. intros H. injection H as <- <- <- <- <-.
    pose proof (TextNonneg.run_up round3 text_w space_w fref c Hlh _ _ _ _ Er) as Hn.
    destruct (TextFit.run_height round3 text_w space_w fref c _ w h d' Er) as [_ _ Hh _ _ _].
    split; [exact Hlh|]. split; [exact Hn|]. split.
    + constructor; [|constructor]. split; [|exact Hn]. intros _. unfold it_bottom. cbn [it_top it_height]. lra.
    + intros Hz. constructor; [|constructor]. intros b. split; [|exact Hn]. intros [_ V]. cbn [it_height] in V. exfalso. lra.
  - auto.
  - intros [c d] sv H _. exact H.
Qed.
Lemma sum_covers a b ea oa sa eb ob sb : covers a ea oa sa -> covers b eb ob sb ->
  covers (sum_kit a b) (fun e => match e with inl e => ea e | inr e => eb e end) (fun e => match e with inl e => oa e | inr e => ob e end) (fun o s => match o, s with inl o, inl s => sa o s | inr o, inr s => sb o s | _, _ => False end).
Proof.
  intros [A1 A2 A3 A4] [B1 B2 B3 B4]. constructor.
  - intros [e|e] o He; cbn [sum_kit k_start]; [destruct (k_start a e) as [o1|] eqn:Es|destruct (k_start b e) as [o1|] eqn:Es]; cbn [bind]; try discriminate; intros H; injection H as <-; eauto.
  - intros [o|o] x y w h o' ht fin ps ls Ho; cbn [sum_kit k_run].
    + destruct (k_run a o x y w h) as [[[[[o1 ht1] f1] ps1] ls1]|] eqn:Er; [|discriminate]. cbn [bind]. intros H. injection H as <- <- <- <- <-. exact (A2 _ _ _ _ _ _ _ _ _ _ Ho Er).
    + destruct (k_run b o x y w h) as [[[[[o1 ht1] f1] ps1] ls1]|] eqn:Er; [|discriminate]. cbn [bind]. intros H. injection H as <- <- <- <- <-. exact (B2 _ _ _ _ _ _ _ _ _ _ Ho Er).
  - intros [o|o] Ho; cbn [sum_kit k_save]; auto.
  - intros [o|o] [v|v] Ho Hv; cbn [sum_kit k_restore]; auto; contradiction.
Qed.
Lemma no_covers (k : kit) : covers k (fun _ => False) (fun _ => False) (fun _ _ => False).
Proof. constructor; intros; contradiction. Qed.
Lemma table_covers k okE okO okS : covers k okE okO okS ->
  let okW := fun p : kO k * option (kS k) => okO (fst p) /\ match snd p with Some s => okS (fst p) s | None => True end in
  covers (table_kit k) (fun t => cv_table t okE)
    (fun o => cv_table (fst o) okE /\ cv_dcells okW (Table.t_index (snd o)) (Table.t_delayed (snd o))) (fun o s => fst s = Table.t_index (snd o)).
Proof.
  intros G okW. constructor.
  - intros t o Ht H. cbn [Whole.table_kit k_start] in H. injection H as <-. split; [exact Ht|constructor].
  - intros [t s] x y w h o' ht fin ps ls [Ht Hd] H. cbn [Whole.table_kit k_run fst snd] in *.
    destruct (Table.run (cell_start k) (cell_run k) b_eqb t x y w h (table_again s)) as [[s' out]|] eqn:Er; [|discriminate]. cbn [bind] in H. injection H as <- <- _ <- _. cbn [fst snd].
    pose (low := fun b (p : drawn + @rule F B) => match p with inl it => over b it | inr _ => True end).
    destruct (table_run_cv (cell_start k) (cell_run k) b_eqb t x y w h okE okW low) with (s := table_again s) (s' := s') (o := out) as (K1 & K2 & K3 & K4); [| | |exact Ht|exact Hd|exact Er|].
    + intros a b [it|r] Hle; [|intros _; exact I]. intros [A C]. split; [|exact C]. intros V. specialize (A V). lra.
    + intros e p He Hs. unfold cell_start in Hs. destruct (k_start k e) as [o1|] eqn:Es; [|discriminate]. cbn [bind] in Hs. injection Hs as <-. split; [exact (cv_start _ _ _ _ G _ _ He Es)|exact I].
    + intros [o sv] px py pw ph p' pht pfin pps [Hp1 Hp2] Hrun. cbn [fst snd] in *. unfold cell_run in Hrun. cbn [fst snd] in Hrun.
      assert (Ho : okO (match sv with Some s => k_restore k o s | None => o end)) by (destruct sv as [v|]; [exact (cv_restore _ _ _ _ G o v Hp1 Hp2)|exact Hp1]).
      destruct (k_run k _ px py pw ph) as [[[[[o1 ht1] f1] ps1] ls1]|] eqn:Ek; [|discriminate]. cbn [bind] in Hrun. injection Hrun as <- <- <- <-.
      destruct (cv_run _ _ _ _ G _ _ _ _ _ _ _ _ _ _ Ho Ek) as (J1 & J2 & J3 & J4). split; [intros _; split; [exact J1|exact (cv_save _ _ _ _ G _ J1)]|]. split; [exact J2|].
      split; [|intros Hz; specialize (J4 Hz)]; apply Forall_app; split; apply Forall_forall; intros q Hq; apply in_map_iff in Hq as (q0 & <- & Hq0); try (intros b); cbn; try exact I.
      * exact (proj1 (Forall_forall _ _) J3 q0 Hq0).
      * exact (proj1 (Forall_forall _ _) J4 q0 Hq0 b).
    + split; [split; [exact Ht|exact K1]|]. split; [exact K2|].
      assert (L : forall (Pr : drawn -> Prop), (forall it, In (inl it) (Table.o_parts out) -> Pr it) -> Forall Pr (lefts (Table.o_parts out))).
      { intros Pr HP. apply Forall_forall. intros it Hit. unfold lefts in Hit. apply in_flat_map in Hit as (q & Hq1 & Hq2). destruct q as [q|q]; [|destruct Hq2]. destruct Hq2 as [<-|[]]. auto. }
      rewrite Forall_forall in K3. split; [apply L; intros it Hit; exact (K3 _ Hit)|]. intros Hz. specialize (K4 Hz). rewrite Forall_forall in K4. apply L. intros it Hit b. exact (K4 _ Hit b).
  - reflexivity.
  - intros [t s] sv [Ht Hd] Hs. cbn in Hs |- *. rewrite Hs. split; [exact Ht|exact Hd].
Qed.
(** *** Boxes of one column *)
Definition one_column {E} (okE : E -> Prop) (b : box E) : Prop := bx_cols b = 1 /\ ContentCover.cvels okE (bx_elems b).
Section Box.
Variable k : kit.
Variable okE : kE k -> Prop.
Variable okO : kO k -> Prop.
Hypothesis G : covers k okE okO (fun _ _ => True).
Notation okS := (fun _ : kS k => True).
Notation okd := (@ContentCover.okd (kE k) (kS k) okE okS).
Notation okm := (@ContentCover.okm (kE k) (kS k) okE okS).
Definition box_rests (c : kO (content_kit fuel k)) : Prop :=
  one_column okE (mkBox (Content.c_elems c) (Content.c_cols c) (Content.c_gap c)) /\ Forall okO (Content.c_heap c) /\
  match Content.c_part c with
  | None => True
  | Some f => ContentCover.cvels okE (Content.f_elems f) /\ Content.f_cols f = 1 /\
      Forall okd (Content.f_sdelayed f) /\ okm (Content.f_memory f) /\ match Content.f_partial f with Some m => okm m | None => True end
  end.
Definition box_saved (_ : kO (content_kit fuel k)) (s : kS (content_kit fuel k)) : Prop := match s with Some (_, d, m) => Forall okd d /\ okm m | None => True end.
Lemma content_covers : covers (content_kit fuel k) (one_column okE) box_rests box_saved.
Proof.
  constructor.
  - intros e o He H. cbn [Whole.content_kit k_start] in H. injection H as <-. destruct e. split; [exact He|]. split; [constructor|exact I].
  - intros c x y w h c' ht fin ps ls ([Hcols Hels] & Hheap & Hp). cbn [Whole.content_kit k_run]. unfold Content.run. cbn [content_again Content.c_part Content.c_heap Content.c_tries Content.c_elems Content.c_cols Content.c_gap bx_elems bx_cols] in *.
    destruct (match Content.c_part c with None => _ | Some _ => _ end) as [f| |] eqn:Ef; cbn [Content.abind]; try discriminate.
    assert (Hf : ContentCover.sound okE okS f /\ Content.f_y f = y /\ Content.f_miny f = y).
    { assert (Hset : forall f0 : @Content.part (kE k) (kS k), ContentCover.cvels okE (Content.f_elems f0) -> Content.f_cols f0 = 1 -> Forall okd (Content.f_sdelayed f0) -> okm (Content.f_memory f0) -> match Content.f_partial f0 with Some m => okm m | None => True end ->
        Content.setup x w y (y - h) 0 f0 = Content.Done f -> ContentCover.sound okE okS f /\ Content.f_y f = y /\ Content.f_miny f = y).
      { intros f0 A1 A2 A4 A5 A6 H. unfold Content.setup in H. rewrite A2 in H. injection H as <-. split; [|split; reflexivity].
        constructor; cbn; try reflexivity; try assumption; try lra. }
      destruct (Content.c_part c) as [f0|].
      - destruct Hp as (A1 & A2 & A4 & A5 & A6). exact (Hset f0 A1 A2 A4 A5 A6 Ef).
      - unfold Content.new_part in Ef. refine (Hset _ _ _ _ _ _ Ef); cbn; first [exact Hels|exact Hcols|constructor]. }
    destruct Hf as (Hf & Y0 & M0).
    destruct (Content.run_part (k_start k) (k_run k) (k_save k) (k_restore k) fuel f [] _) as [[act [[f1 anc1] g1]]| |] eqn:Er; cbn [Content.abind]; try discriminate.
    intros H. injection H as <- <- _ <- _. cbn [Content.o_parts Content.o_height].
    destruct (ContentCover.run_part_cover (k_start k) (k_run k) (k_save k) (k_restore k) okE okO okS (cv_start _ _ _ _ G)
      (fun o x y w h o' ht fin ps ls H1 H2 => let K := cv_run _ _ _ _ G o x y w h o' ht fin ps ls H1 H2 in conj (proj1 K) (proj1 (proj2 K))) (cv_save _ _ _ _ G) (cv_restore _ _ _ _ G)
      fuel f [] (Content.mkG [] [] (Content.c_heap c) (Content.c_tries c)) act f1 anc1 g1 Hf (Forall_nil _) Hheap Er) as (_ & H2 & H3 & (new & H4 & H5 & H6) & _ & H7).
    cbn [Content.g_parts app] in H4. rewrite H4. rewrite (ContentCover.so_cols _ _ f1 H3). cbn [Nat.ltb Nat.leb]. rewrite H2, M0. rewrite Y0 in *.
    assert (Hps : forall (Pr : drawn -> Prop), (forall s px py pw ph o o' pht pfin pps, In (Content.PlLeaf s px py pw ph o o' pht pfin pps) new -> Forall Pr pps) -> Forall Pr (flat_map of_placed new)).
    { intros Pr HP. apply Forall_forall. intros it Hit. apply in_flat_map in Hit as (p & P1 & P2). destruct (proj1 (Forall_forall _ _) H6 p P1) as [Gd _].
      destruct p as [s px py pw ph o o' pht pfin pps|]; [|destruct Gd]. exact (proj1 (Forall_forall _ _) (HP _ _ _ _ _ _ _ _ _ _ P1) it P2). }
    assert (Hone : forall s px py pw ph o o' pht pfin pps, In (Content.PlLeaf s px py pw ph o o' pht pfin pps) new ->
      ((pht == 0)%Q /\ Forall (fun it => forall b, over b it) pps) \/ ((0 < pht)%Q /\ (Content.f_y f1 <= py - pht)%Q /\ (py <= y)%Q /\ Forall (over (py - pht)%Q) pps)).
    { intros s px py pw ph o o' pht pfin pps P1. destruct (proj1 (Forall_forall _ _) H6 _ P1) as [[Go (ls' & Gr)] Gh]. destruct (cv_run _ _ _ _ G _ _ _ _ _ _ _ _ _ _ Go Gr) as (_ & J2 & J3 & J4).
      unfold ContentApart.p_bot in Gh. cbn [ContentFlow.p_height ContentFlow.p_top] in Gh. destruct (Qlt_le_dec 0 pht) as [K|K]; [right|left].
      - destruct (Gh K) as [G1 G2]. auto.
      - assert (Hz : (pht == 0)%Q) by lra. auto. }
    split; [|split; [lra|split]].
    + split; [split; assumption|]. split; [exact H7|]. cbn [Content.c_part Content.c_elems Content.c_cols]. destruct H3 as [q1 q2 q3 q4 q5 q6 q7 q8 q9 q10]. auto 8.
    + apply Hps. intros s px py pw ph o o' pht pfin pps P1. destruct (Hone _ _ _ _ _ _ _ _ _ _ P1) as [[_ K]|(K1 & K2 & K3 & K)]; refine (Forall_impl _ _ K).
      * intros it V. apply V.
      * intros it [V W]. split; [|exact W]. intros Vi. specialize (V Vi). lra.
    + intros Hz. apply Hps. intros s px py pw ph o o' pht pfin pps P1. destruct (Hone _ _ _ _ _ _ _ _ _ _ P1) as [[_ K]|(K1 & K2 & K3 & K)]; [exact K|]. exfalso. lra.
  - intros o (_ & _ & Hp). cbn [Whole.content_kit k_save]. unfold Content.get_state. destruct (Content.c_part o) as [f|]; [|exact I]. destruct Hp as (_ & _ & A4 & A5 & _). split; assumption.
  - intros o s Ho Hs. cbn [Whole.content_kit k_restore]. destruct s as [[[i d] m]|]; [|exact Ho]. unfold Content.set_state. destruct (Content.c_part o) as [f|] eqn:Ep; [|exact Ho].
    destruct Ho as (A & C & D). rewrite Ep in D. destruct D as (D1 & D2 & D3 & D4 & D5), Hs as [S1 S2]. split; [exact A|]. split; [exact C|]. cbn. auto 8.
Qed.
End Box.
(** Texts, which can be in such boxes. *)
Definition text_only (n : nat) : kE (leaf_kit n) -> Prop :=
  match n return kE (leaf_kit n) -> Prop with
  | 0 => fun c => (0 <= TextLayout.c_lh c)%Q
  | S n => fun e => match e with inl c => (0 <= TextLayout.c_lh c)%Q | inr _ => False end
  end.
Lemma text_only_covers : forall n, exists okO, covers (leaf_kit n) (text_only n) okO (fun _ _ => True).
Proof.
  intros [|n]; [eexists; exact text_covers|].
  destruct (sum_covers _ _ _ _ _ _ _ _ text_covers (no_covers (table_kit (cell_kit (leaf_kit n))))) as [A1 A2 A3 A4].
  eexists. constructor; [exact A1|exact A2|auto|]. intros [o|o] [v|v] Ho _; cbn [sum_kit k_restore]; try exact Ho; contradiction.
Qed.
(** Texts, and tables whose cells take one row, of texts, tables and boxes of one
    column of texts. *)
Fixpoint texts_and_tables (n : nat) : kE (leaf_kit n) -> Prop :=
  match n return kE (leaf_kit n) -> Prop with
  | 0 => fun c => (0 <= TextLayout.c_lh c)%Q
  | S n => fun e => match e with
      | inl c => (0 <= TextLayout.c_lh c)%Q
      | inr t => cv_table t (fun e : kE (cell_kit (leaf_kit n)) => match e with inl e => texts_and_tables n e | inr (inl _) => False | inr (inr b) => one_column (text_only n) b end)
      end
  end.
Lemma leaf_covers : forall n, exists okO okS, covers (leaf_kit n) (texts_and_tables n) okO okS.
Proof.
  induction n as [|n (okO & okS & G)].
  - eexists _, _. exact text_covers.
  - destruct (text_only_covers n) as (okT & GT). eexists _, _. cbn [Whole.leaf_kit texts_and_tables]. refine (sum_covers _ _ _ _ _ _ _ _ text_covers (table_covers _ _ _ _ _)).
    pose proof (sum_covers _ _ _ _ _ _ _ _ G (sum_covers _ _ _ _ _ _ _ _ (no_covers (@image_kit F B)) (content_covers _ _ _ GT))) as K. exact K.
Qed.
End Kits.
