(** What whole contents show lies within the rectangles they are given, through
    boxes and tables inside one another. *)
From Coq Require Import QArith ZArith Lia Lqa List.
From Verif Require Import Py Whole TableRoom.
From Verif Require TextLayout TextFit Table Content ContentGeom ContentRoom.
Import ListNotations.
Open Scope list_scope.
Open Scope nat_scope.

(** ** Specification *)

(** A paragraph is as wide as it was given and as high as its lines: the first
    with its own height, the others multiplied by the line height. *)
Definition it_left (it : drawn) : Q := match it with DPar _ x _ _ => x | DPic x _ _ _ _ _ => x end.
Definition it_width (it : drawn) : Q := match it with DPar _ _ _ d => TextLayout.d_width d | DPic _ _ w _ _ _ => w end.
Definition it_height (it : drawn) : Q := match it with DPar c _ _ d => TextFit.total_height c (TextLayout.d_lines d) | DPic _ _ _ h _ _ => h end.
Definition it_top (it : drawn) : Q := match it with DPar _ _ y _ => y | DPic _ y _ h _ _ => (y + h)%Q end.
Definition visible (it : drawn) : Prop := (0 < it_width it /\ 0 < it_height it)%Q.
(** Between the sides, below the top; above the bottom, if that is claimed. *)
Definition within (bottom : Prop) (x y w h : Q) (it : drawn) : Prop :=
  (x <= it_left it /\ it_left it + it_width it <= x + w /\ it_top it <= y)%Q /\ (bottom -> (y - h <= it_top it - it_height it)%Q).

(** Styles with margins that are not negative. *)
Definition plain (s : Content.style) : Prop :=
  (0 <= Content.s_mt s /\ 0 <= Content.s_mb s /\ 0 <= Content.s_ml s /\ 0 <= Content.s_mr s)%Q /\ match Content.s_min s with Some m => (0 < m)%Q | None => True end.
Definition gap_ok (g : option Q) : Prop := match g with Some g => (0 <= g)%Q | None => True end.
Section Gaps.
Context {E : Type}.
Fixpoint gapel (el : @Content.elem E) : Prop :=
  match el with Content.Child _ _ g l => gap_ok g /\ fold_right (fun e acc => gapel e /\ acc) True l | _ => True end.
Definition gapels (l : list (@Content.elem E)) : Prop := fold_right (fun e acc => gapel e /\ acc) True l.
End Gaps.

Section WholeRoom.
Variable bottom : Prop.
Context {F B : Type}.
Variable b_eqb : B -> B -> bool.
Variable round3 : Q -> Q.
Variable text_w : TextLayout.fkey -> str -> Q.
Variable space_w : TextLayout.fkey -> Q.
Variable fref : TextLayout.fkey -> str.
Variable fuel : nat.
Notation kit := (@kit F B).
Notation text_kit := (@text_kit F B round3 text_w space_w fref).
Notation image_kit := (@image_kit F B).
Notation content_kit := (@content_kit F B fuel).
Notation table_kit := (table_kit (F:=F) b_eqb).
Notation cell_kit := (@cell_kit F B fuel).
Notation leaf_kit := (@leaf_kit F B b_eqb round3 text_w space_w fref fuel).

(** A box: margins and gaps are not negative; [St] are its styles, [pics] is
    whether it has images.  Boxes of one column, if the bottom is claimed. *)
Definition box_okay {E} (okE : E -> Prop) (pics tidy : Prop) (St : Content.style -> Prop) (b : box E) : Prop :=
  ContentRoom.okels okE pics tidy St bottom (bx_elems b) /\ gapels (bx_elems b) /\ gap_ok (bx_gap b) /\ (bottom -> bx_cols b = 1).
Fixpoint leaf_okay (n : nat) : kE (leaf_kit n) -> Prop :=
  match n return kE (leaf_kit n) -> Prop with
  | 0 => fun _ => True
  | S n => fun e => match e with
      | inl _ => True
      | inr t => ok_table t (fun e : kE (cell_kit (leaf_kit n)) => match e with
          | inl e => leaf_okay n e
          | inr (inl _) => True
          | inr (inr b) => box_okay (leaf_okay n) False False plain b
          end)
      end
  end.

(** ** Proof *)

Definition R (x y w h : Q) (it : drawn) : Prop := visible it -> (0 < w)%Q /\ (bottom -> (0 < h)%Q) /\ within bottom x y w h it.
Lemma R_sub x y w h x' y' w' h' it : sub bottom x y w h x' y' w' h' -> R x' y' w' h' it -> R x y w h it.
Proof.
  intros (S1 & S2 & S3) HR Hv. destruct (HR Hv) as (A1 & A2 & (A3 & A4 & A5) & A6). destruct (S1 A1) as [S4 S5]. split; [lra|]. split; [|split].
  - intros Hb. specialize (A2 Hb). specialize (S3 Hb A2). lra.
  - lra.
  - intros Hb. specialize (A2 Hb). specialize (S3 Hb A2). specialize (A6 Hb). lra.
Qed.
Record roomy (k : kit) (okE : kE k -> Prop) (okO : kO k -> Prop) (okS : kS k -> Prop) : Prop := {
  rm_start : forall e o, okE e -> k_start k e = Ok o -> okO o;
  rm_run : forall o x y w h o' ht fin ps ls, okO o -> k_run k o x y w h = Ok (o', ht, fin, ps, ls) -> okO o' /\ Forall (R x y w h) ps;
  rm_save : forall o, okO o -> okS (k_save k o);
  rm_restore : forall o s, okO o -> okS s -> okO (k_restore k o s) }.

Lemma text_roomy : roomy text_kit (fun _ => True) (fun _ => True) (fun _ => True).
Proof.
  constructor; try (intros; exact I). intros [c d] x y w h o' ht fin ps ls _. cbn [Whole.text_kit k_run].
  destruct (TextLayout.run round3 text_w space_w fref c (unfinished d) w h) as [d'|] eqn:Er; [|discriminate]. cbn [bind]. intros H. injection H as <- <- <- <- <-.
  split; [exact I|]. constructor; [|constructor]. destruct (TextFit.run_height _ _ _ _ _ _ _ _ _ Er) as [H1 _ H3 H4 _ _].
  intros [V1 V2]. cbn [it_width it_height it_left it_top] in *. rewrite H1 in V1.
  assert (Hb : (TextFit.total_height c (TextLayout.d_lines d') <= h)%Q). { rewrite <- H3. apply H4. intros E. rewrite E in V2. cbn in V2. lra. }
  split; [exact V1|]. split; [intros _; lra|]. split; cbn [it_width it_height it_left it_top]; [rewrite H1; lra|intros _; lra].
Qed.
Lemma text_fits (o : kO text_kit) x y w h o' ht fin ps ls : k_run text_kit o x y w h = Ok (o', ht, fin, ps, ls) -> (0 < ht)%Q -> (ht <= h)%Q.
Proof.
  destruct o as [c d]. cbn [Whole.text_kit k_run].
  destruct (TextLayout.run round3 text_w space_w fref c (unfinished d) w h) as [d'|] eqn:Er; [|discriminate]. cbn [bind]. intros H. injection H as <- <- <- <- <-.
  destruct (TextFit.run_height _ _ _ _ _ _ _ _ _ Er) as [H1 _ H3 H4 _ _]. intros V. apply H4. intros E. rewrite E in H3. cbn in H3. lra.
Qed.
Lemma image_roomy : roomy image_kit (fun _ => True) (fun _ => True) (fun _ => True).
Proof.
  constructor; try (intros; exact I). intros [iw ih] x y w h o' ht fin ps ls _. cbn [Whole.image_kit k_run]. destruct (Qeq_bool iw 0); [discriminate|].
  cbv zeta. destruct (Table.qlt (w * ih / iw) h) eqn:El; intros H; injection H as <- <- <- <- <-; (split; [exact I|]); [|constructor].
  constructor; [|constructor]. apply qlt_lt in El. intros [V1 V2]. cbn [it_width it_height it_left it_top] in *.
  set (hh := (w * ih / iw)%Q) in *. clearbody hh. split; [exact V1|]. split; [intros _; lra|]. split; cbn [it_width it_height it_left it_top]; [lra|intros _; lra].
Qed.
Lemma sum_roomy a b ea oa sa eb ob sb : roomy a ea oa sa -> roomy b eb ob sb ->
  roomy (sum_kit a b) (fun e => match e with inl e => ea e | inr e => eb e end) (fun e => match e with inl e => oa e | inr e => ob e end) (fun e => match e with inl e => sa e | inr e => sb e end).
Proof.
  intros [A1 A2 A3 A4] [B1 B2 B3 B4]. constructor.
  - intros [e|e] o He; cbn [sum_kit k_start]; [destruct (k_start a e) as [o1|] eqn:Es|destruct (k_start b e) as [o1|] eqn:Es]; cbn [bind]; try discriminate; intros H; injection H as <-; eauto.
  - intros [o|o] x y w h o' ht fin ps ls Ho; cbn [sum_kit k_run].
    + destruct (k_run a o x y w h) as [[[[[o1 ht1] f1] ps1] ls1]|] eqn:Er; [|discriminate]. cbn [bind]. intros H. injection H as <- <- <- <- <-. exact (A2 _ _ _ _ _ _ _ _ _ _ Ho Er).
    + destruct (k_run b o x y w h) as [[[[[o1 ht1] f1] ps1] ls1]|] eqn:Er; [|discriminate]. cbn [bind]. intros H. injection H as <- <- <- <- <-. exact (B2 _ _ _ _ _ _ _ _ _ _ Ho Er).
  - intros [o|o] Ho; cbn [sum_kit k_save]; auto.
  - intros [o|o] [s|s] Ho Hs; cbn [sum_kit k_restore]; auto.
Qed.

(** *** Boxes *)
Lemma gapels_in {E} (l : list (@Content.elem E)) el : gapels l -> In el l -> gapel el.
Proof. induction l as [|a l IH]; [intros _ []|]. intros [Ha Hl] [<-|H]; auto. Qed.
Lemma gap_of_pos gap w : gap_ok gap -> (0 <= ContentGeom.gap_of gap w)%Q.
Proof. destruct gap as [g|]; cbn [gap_ok ContentGeom.gap_of]; intros H; [exact H|]. pose proof (ContentFlow.qmax_le (w / 25) 7) as Hq. lra. Qed.
Lemma column_in gap n w k : gap_ok gap -> k < n -> (0 < ContentGeom.col_of gap n w)%Q ->
  (0 < w /\ 0 <= ContentGeom.qn k * (ContentGeom.col_of gap n w + ContentGeom.gap_of gap w) /\ ContentGeom.qn k * (ContentGeom.col_of gap n w + ContentGeom.gap_of gap w) + ContentGeom.col_of gap n w <= w)%Q.
Proof.
  intros Hg Hk Hc. pose proof (gap_of_pos gap w Hg) as Hp. unfold ContentGeom.col_of in *. set (g := ContentGeom.gap_of gap w) in *. clearbody g.
  assert (Hn : (1 <= ContentGeom.qn n)%Q) by (unfold ContentGeom.qn, Qle; cbn; lia).
  assert (Hkn : (0 <= ContentGeom.qn k /\ ContentGeom.qn k + 1 <= ContentGeom.qn n)%Q) by (unfold ContentGeom.qn, Qle, Qplus; cbn; lia).
  set (N := ContentGeom.qn n) in *. set (K := ContentGeom.qn k) in *. clearbody N K. set (c := ((w - g * (N - 1)) / N)%Q) in *.
  assert (He : (w == N * c + g * (N - 1))%Q) by (unfold c; field; lra). clearbody c. split; [nra|]. split; [nra|]. nra.
Qed.
Lemma strip_in {E} n gap (elems : list (@Content.elem E)) X W l x w : gap_ok gap -> gapels elems ->
  ContentGeom.strip n gap elems X W l x w -> gapels l /\ ((0 < w)%Q -> (X <= x /\ x + w <= X + W)%Q).
Proof.
  intros Hg He. induction 1 as [k x Hk Hx|l x w s m g l' k x' H IH Hin Hk Hx].
  - split; [exact He|]. intros Hw. destruct (column_in gap n W k Hg Hk Hw) as (A1 & A2 & A3). lra.
  - destruct IH as [I1 I2]. pose proof (gapels_in _ _ I1 Hin) as [G1 G2]. split; [exact G2|]. intros Hw. destruct (column_in g m w k G1 Hk Hw) as (A1 & A2 & A3). specialize (I2 A1). lra.
Qed.

Section Box.
Variable k : kit.
Variable okE : kE k -> Prop.
Variable okO : kO k -> Prop.
Variable okS : kS k -> Prop.
Hypothesis G : roomy k okE okO okS.
Variables pics tidy : Prop.
Hypothesis fits : tidy -> forall o x y w h o' ht fin ps ls, k_run k o x y w h = Ok (o', ht, fin, ps, ls) -> (0 < ht)%Q -> (ht <= h)%Q.
Variable St : Content.style -> Prop.
Hypothesis St_plain : forall s, St s -> plain s.
Notation okd := (ContentRoom.okd okE okS pics tidy St).
Notation okm := (ContentRoom.okm okE okS pics tidy St).
Definition rests (c : kO (content_kit k)) : Prop :=
  box_okay okE pics tidy St (mkBox (Content.c_elems c) (Content.c_cols c) (Content.c_gap c)) /\ Forall okO (Content.c_heap c) /\
  match Content.c_part c with
  | None => True
  | Some f => Content.f_elems f = Content.c_elems c /\ Content.f_cols f = Content.c_cols c /\ Content.f_gapspec f = Content.c_gap c /\
      Forall okd (Content.f_sdelayed f) /\ okm (Content.f_memory f) /\ match Content.f_partial f with Some m => okm m | None => True end
  end.
Definition saved (s : kS (content_kit k)) : Prop := match s with Some (_, d, m) => Forall okd d /\ okm m | None => True end.
Definition broad (c : kO (content_kit k)) (X W : Q) : Prop :=
  forall l x w s, ContentGeom.strip (Content.c_cols c) (Content.c_gap c) (Content.c_elems c) X W l x w -> St s -> (Content.s_ml s + Content.s_mr s <= w)%Q.

Lemma box_run c x y w h c' ht fin ps ls : rests c -> (pics -> broad c x w) -> k_run (content_kit k) c x y w h = Ok (c', ht, fin, ps, ls) ->
  rests c' /\ (Content.c_elems c' = Content.c_elems c /\ Content.c_cols c' = Content.c_cols c /\ Content.c_gap c' = Content.c_gap c) /\ Forall (R x y w h) ps.
Proof.
  intros (Hbox & Hheap & Hp) Hroom. cbn [Whole.content_kit k_run]. unfold Content.run. cbn [content_again Content.c_part Content.c_heap Content.c_tries Content.c_elems Content.c_cols Content.c_gap].
  set (elems := Content.c_elems c) in *. set (cols := Content.c_cols c) in *. set (gap := Content.c_gap c) in *. set (Bt := (y - h)%Q).
  destruct Hbox as (Hels & Hgaps & Hgap & Hsolo). cbn [bx_elems bx_cols bx_gap] in *.
  destruct (match Content.c_part c with None => _ | Some _ => _ end) as [f| |] eqn:Ef; cbn [Content.abind]; try discriminate.
  assert (Hc : ContentRoom.chain okE okS pics tidy cols gap elems x y w Bt St bottom f []).
  { assert (Hset : forall f0 : @Content.part (kE k) (kS k), Content.f_elems f0 = elems -> Content.f_cols f0 = cols -> Content.f_gapspec f0 = gap -> Forall okd (Content.f_sdelayed f0) -> okm (Content.f_memory f0) -> match Content.f_partial f0 with Some m => okm m | None => True end ->
      Content.setup x w y Bt 0 f0 = Content.Done f -> ContentRoom.chain okE okS pics tidy cols gap elems x y w Bt St bottom f []).
    { intros f0 A1 A2 A3 A4 A5 A6 H. unfold Content.setup in H. destruct (Content.f_cols f0) as [|n] eqn:En; [discriminate|]. injection H as <-. cbn [ContentRoom.chain]. split.
      - constructor; cbn [Content.f_column Content.f_cols Content.f_lastbottom Content.f_y Content.f_miny Content.f_elems Content.f_delayed Content.f_sdelayed Content.f_memory Content.f_partial Content.f_maxy Content.f_resetting Content.f_will]; try assumption; try lra; try lia; [rewrite A1; exact Hels|].
        intros So. split; [reflexivity|]. split; [reflexivity|]. split; [reflexivity|]. rewrite A2. exact (Hsolo So).
      - unfold ContentRoom.at_root. cbn [Content.f_elems Content.f_cols Content.f_gapspec Content.f_minx Content.f_gap Content.f_colw]. rewrite A3. split; [exact A1|]. split; [exact A2|]. split; [reflexivity|]. split; [reflexivity|]. split; [reflexivity|]. rewrite <- A2. reflexivity. }
    destruct (Content.c_part c) as [f0|].
    - destruct Hp as (A1 & A2 & A3 & A4 & A5 & A6). exact (Hset f0 A1 A2 A3 A4 A5 A6 Ef).
    - unfold Content.new_part in Ef. refine (Hset _ _ _ _ _ _ _ Ef); try reflexivity; cbn; constructor. }
  destruct (Content.run_part (k_start k) (k_run k) (k_save k) (k_restore k) fuel f [] _) as [[act [[f1 anc1] g1]]| |] eqn:Er; cbn [Content.abind]; try discriminate.
  intros H. injection H as <- _ _ <- _. cbn [Content.o_parts].
  assert (St_ok : forall s, St s -> (0 <= Content.s_mt s /\ 0 <= Content.s_mb s /\ match Content.s_min s with Some m => 0 < m | None => True end)%Q).
  { intros s Hs. destruct (St_plain s Hs) as ((A1 & A2 & A3 & A4) & A5). auto. }
  destruct (ContentRoom.run_part_geom (k_start k) (k_run k) (k_save k) (k_restore k) okE okO okS (rm_start _ _ _ _ G)
    (fun o x y w h o' ht fin ps ls H1 H2 => proj1 (rm_run _ _ _ _ G o x y w h o' ht fin ps ls H1 H2)) (rm_save _ _ _ _ G) (rm_restore _ _ _ _ G)
    pics tidy fits cols gap elems x y w Bt St bottom St_ok Hroom fuel f [] (Content.mkG [] [] (Content.c_heap c) (Content.c_tries c)) act f1 anc1 g1 Hc (conj (Forall_nil _) Hheap) Er) as ((H1 & H1h) & H2 & H3).
  inversion H2; subst. assert (Hc1 : ContentRoom.chain okE okS pics tidy cols gap elems x y w Bt St bottom f1 []) by (destruct act as [[| |]|]; try exact H3; destruct H3).
  cbn [ContentRoom.chain] in Hc1. destruct Hc1 as ([q1 q2 q3 q4 q5 q6 q7 q8 q9 q10] & A1 & A2 & A3 & _). split; [|split; [auto|]].
  - split; [repeat split; assumption|]. split; [exact H1h|]. cbn [Content.c_part Content.c_elems Content.c_cols Content.c_gap]. auto 10.
  - apply Forall_forall. intros it Hit. apply in_flat_map in Hit as (p & Hp1 & Hp2). pose proof (proj1 (Forall_forall _ _) H1 p Hp1) as Hi.
    destruct p as [s px py pw ph o o' pht pfin pps|s px py pw ph iw ih]; cbn [ContentRoom.inside of_placed] in Hi, Hp2.
    + destruct Hi as ((l & left & cw & I1 & I2 & (I3 & I4) & I5 & I6) & I7 & ls' & I8). destruct (rm_run _ _ _ _ G _ _ _ _ _ _ _ _ _ _ I7 I8) as [_ J].
      refine (R_sub _ _ _ _ px py pw ph it _ (proj1 (Forall_forall _ _) J it Hp2)). destruct (St_plain s I2) as ((M1 & M2 & M3 & M4) & _).
      destruct (strip_in _ _ _ _ _ _ _ _ Hgap Hgaps I1) as [_ S2]. split; [|split; [exact I5|exact I6]].
      intros Hw. assert (Hcw : (0 < cw)%Q) by lra. specialize (S2 Hcw). lra.
    + destruct Hp2 as [<-|[]]. destruct Hi as (l & left & cw & I1 & I2 & I3 & I4 & I5 & I6 & I7 & I8). destruct (St_plain s I2) as ((M1 & M2 & M3 & M4) & _).
      destruct (strip_in _ _ _ _ _ _ _ _ Hgap Hgaps I1) as [_ S2]. intros [V1 V2]. cbn [it_width it_height it_left it_top] in *.
      assert (Hcw : (0 < cw)%Q) by lra. specialize (S2 Hcw). unfold Bt in *. split; [lra|]. split; [intros Hb; specialize (I8 Hb); lra|].
      split; cbn [it_width it_height it_left it_top]; [lra|intros Hb; specialize (I8 Hb); lra].
Qed.
Lemma box_start e o : box_okay okE pics tidy St e -> k_start (content_kit k) e = Ok o -> rests o.
Proof. intros He H. cbn [Whole.content_kit k_start] in H. injection H as <-. destruct e. split; [exact He|]. split; [constructor|exact I]. Qed.
Lemma box_save o : rests o -> saved (k_save (content_kit k) o).
Proof.
  intros (_ & _ & Hp). cbn [Whole.content_kit k_save]. unfold Content.get_state. destruct (Content.c_part o) as [f|]; [|exact I]. destruct Hp as (_ & _ & _ & A4 & A5 & _). split; assumption.
Qed.
Lemma box_restore o s : rests o -> saved s -> rests (k_restore (content_kit k) o s).
Proof.
  intros Ho Hs. cbn [Whole.content_kit k_restore]. destruct s as [[[i d] m]|]; [|exact Ho]. unfold Content.set_state. destruct (Content.c_part o) as [f|] eqn:Ep; [|exact Ho].
  destruct Ho as (H1 & H2 & H3). rewrite Ep in H3. destruct H3 as (A1 & A2 & A3 & A4 & A5 & A6). destruct Hs as [S1 S2]. split; [exact H1|]. split; [exact H2|].
  cbn [Content.c_part Content.with_section Content.f_elems Content.f_cols Content.f_gapspec Content.f_sdelayed Content.f_memory Content.f_partial Content.c_elems Content.c_cols Content.c_gap]. auto 10.
Qed.
End Box.
Lemma content_roomy k okE okO okS : roomy k okE okO okS -> roomy (content_kit k) (box_okay okE False False plain) (rests k okE okO okS False False plain) (saved k okE okS False False plain).
Proof.
  intros G. constructor.
  - apply box_start.
  - intros o x y w h o' ht fin ps ls Ho Hr. destruct (box_run k okE okO okS G False False ltac:(tauto) plain (fun s H => H) o x y w h o' ht fin ps ls Ho ltac:(tauto) Hr) as (A & _ & C). auto.
  - apply box_save.
  - apply box_restore.
Qed.

(** *** Tables *)
Lemma table_roomy k okE okO okS : roomy k okE okO okS ->
  let okW := fun p : kO k * option (kS k) => okO (fst p) /\ match snd p with Some s => okS s | None => True end in
  roomy (table_kit k) (fun t => ok_table t okE) (fun o => ok_table (fst o) okE /\ ok_dcells okW (Table.t_delayed (snd o))) (fun s => ok_dcells okW (snd s)).
Proof.
  intros G okW. constructor.
  - intros t o Ht H. cbn [Whole.table_kit k_start] in H. injection H as <-. split; [exact Ht|constructor].
  - intros [t s] x y w h o' ht fin ps ls [Ht Hd] H. cbn [Whole.table_kit k_run fst snd] in *.
    destruct (Table.run (cell_start k) (cell_run k) b_eqb t x y w h (table_again s)) as [[s' out]|] eqn:Er; [|discriminate]. cbn [bind] in H. injection H as <- _ _ <- _. cbn [fst snd].
    pose (R' := fun x y w h (p : drawn + @rule F B) => match p with inl it => R x y w h it | inr _ => True end).
    destruct (table_run_ok (cell_start k) (cell_run k) b_eqb t x y w h okE okW bottom R') with (s := table_again s) (s' := s') (o := out) as [K1 K2]; [| | |exact Ht|exact Hd|exact Er|].
    + intros e p He Hs. unfold cell_start in Hs. destruct (k_start k e) as [o1|] eqn:Es; [|discriminate]. cbn [bind] in Hs. injection Hs as <-. split; [exact (rm_start _ _ _ _ G _ _ He Es)|exact I].
    + intros p px py pw ph p' pht pfin pps [Hp1 Hp2] Hrun. unfold cell_run in Hrun.
      destruct (k_run k _ px py pw ph) as [[[[[o1 ht1] f1] ps1] ls1]|] eqn:Ek; [|discriminate]. cbn [bind] in Hrun. injection Hrun as <- _ _ <-.
      destruct (rm_run _ _ _ _ G _ _ _ _ _ _ _ _ _ _ (match snd p as q return (match q with Some s => okS s | None => True end) -> okO (match q with Some s => k_restore k (fst p) s | None => fst p end) with Some s => fun Hs => rm_restore _ _ _ _ G _ _ Hp1 Hs | None => fun _ => Hp1 end Hp2) Ek) as [J1 J2].
      split; [split; [exact J1|exact (rm_save _ _ _ _ G _ J1)]|]. apply Forall_app. split; apply Forall_forall; intros q Hq; apply in_map_iff in Hq as (q0 & <- & Hq0); cbn; [exact (proj1 (Forall_forall _ _) J2 q0 Hq0)|exact I].
    + intros ? ? ? ? ? ? ? ? [it|r] Hsub; cbn; [exact (R_sub _ _ _ _ _ _ _ _ it Hsub)|auto].
    + split; [split; [exact Ht|exact K1]|]. apply Forall_forall. intros it Hit. unfold lefts in Hit. apply in_flat_map in Hit as (q & Hq1 & Hq2).
      destruct q as [q|q]; [|destruct Hq2]. destruct Hq2 as [<-|[]]. exact (proj1 (Forall_forall _ _) K2 _ Hq1).
  - intros [t s] [Ht Hd]. exact Hd.
  - intros [t s] sv [Ht Hd] Hs. split; [exact Ht|exact Hd].
Qed.
Lemma leaf_roomy : forall n, exists okO okS, roomy (leaf_kit n) (leaf_okay n) okO okS.
Proof.
  induction n as [|n (okO & okS & G)].
  - eexists _, _. exact text_roomy.
  - eexists _, _. cbn [Whole.leaf_kit leaf_okay]. refine (sum_roomy _ _ _ _ _ _ _ _ text_roomy (table_roomy _ _ _ _ _)).
    apply sum_roomy; [exact G|]. apply sum_roomy; [exact image_roomy|]. apply content_roomy. exact G.
Qed.
End WholeRoom.
