(** Property C89: the calls that make a document end when what they are given
    fits on its pages, and then all of it is shown. *)
From Coq Require Import String QArith Lqa Lia List Permutation.
From Verif Require Import Py PageGeom Content Flow Calls CallsProofs.
From Verif Require TextLayout Whole WholeProofs WholeEnds PWhole PWholeEnds ContentEnds ContentFlow PText.
Import ListNotations.
Open Scope list_scope.
Open Scope nat_scope.

Section Put.
Context {F B : Type}.
Variable float_of : str -> res Q.
Variable k : @Whole.kit F B.
Variable box : bool.
Variable s0 : pages_state.
Hypothesis can : can_add s0.
Variables H W : Q.
Hypothesis room : forall p, default_page s0 p -> (H <= p_ch p /\ p_cw p <= W)%Q.

(** It is finished in this many pages, whatever pages they are. *)
Definition ends_in (m : nat) (o : Whole.kO k) : Prop :=
  forall rs, List.length rs = m -> Forall (PWholeEnds.page_of H W) rs -> exists pgs, Whole.pages k o rs = Ok (true, pgs).
Lemma ends_step m o r : ends_in (S m) o -> PWholeEnds.page_of H W r ->
  exists o' ht fin ps ls, Whole.k_run k o (Whole.rc_x r) (Whole.rc_y r) (Whole.rc_w r) (Whole.rc_h r) = Ok (o', ht, fin, ps, ls) /\ (fin = false -> ends_in m o').
Proof.
  intros E Hr. destruct (E (r :: repeat r m)) as (pgs & Ep); [cbn; now rewrite repeat_length|constructor; [exact Hr|apply Forall_forall; intros q Hq; apply repeat_spec in Hq; now subst q]|].
  cbn [Whole.pages] in Ep. destruct (Whole.k_run k o _ _ _ _) as [[[[[o' ht] fin] ps] ls]|] eqn:Er; [|discriminate]. exists o', ht, fin, ps, ls. split; [reflexivity|]. intros ->.
  intros rs Hl Hrs. destruct (E (r :: rs)) as (pgs2 & E2); [cbn; congruence|now constructor|]. cbn [Whole.pages] in E2. rewrite Er in E2. cbn [bind] in E2.
  destruct (Whole.pages k o' rs) as [[b l]|]; [|discriminate]. cbn [bind] in E2. injection E2 as -> <-. now exists l.
Qed.
Lemma go_on_ends : forall m o fuel s, m <= fuel -> same_settings s s0 -> (obj_fin k o = false -> ends_in m (fst o)) ->
  exists l s', go_on float_of (obj_run k) (obj_fin k) (obj_after k box) fuel o s = Done (l, s').
Proof.
  induction m as [|m IH]; intros o fuel s Hf Hs He; destruct (obj_fin k o) eqn:Efin.
  - destruct fuel; cbn [go_on]; rewrite Efin; now eauto.
  - destruct (He eq_refl [] eq_refl (Forall_nil _)) as (pgs & E). discriminate.
  - destruct fuel; cbn [go_on]; rewrite Efin; now eauto.
  - destruct fuel as [|fuel]; [lia|]. cbn [go_on]. rewrite Efin.
    destruct (add_page_ok float_of s (can_add_same _ _ Hs can)) as (s1 & p & nm & K1 & K2 & K3 & _). rewrite K1.
    assert (Hp : nth_error (ps_pages s1) (ps_index s1) = Some p) by (rewrite K2; cbn; now rewrite nth_error_app2, Nat.sub_diag by lia).
    assert (Hs1 : same_settings s1 s0) by (rewrite K2; destruct Hs as (A1 & A2 & A3 & A4 & A5 & A6 & A7); repeat split; assumption).
    pose proof (room p (default_same _ _ _ (same_sym _ _ Hs) K3)) as R.
    destruct (put (obj_run k) (obj_after k box) o (fun p => Some (p_ml p)) (fun p => Some (p_mt p)) (fun p => Some (p_cw p)) (fun p => Some (p_ch p)) s1) as [[[o1 sh] s2]|] eqn:Ep.
    + cbn [lift abind]. destruct (put_ok _ _ _ _ _ _ _ _ _ Hp _ _ _ Ep) as (_ & P2 & P3 & _ & P5 & _ & _ & P8).
      unfold position_and_size in P8. cbn in P8. destruct P8 as [P8 _]. unfold Flow.rect_of in P8. injection P8 as X1 X2 X3 X4. unfold runs_in, obj_run in P2.
      destruct (ends_step m (fst o) (Whole.mkRect (sh_x sh) (sh_y sh) (sh_w sh) (sh_h sh)) (He eq_refl)) as (o' & ht & fin & ps & ls & Er & En).
      { unfold PWholeEnds.page_of. cbn. rewrite X3, X4. exact R. }
      cbn in Er. rewrite Er in P2. cbn [bind] in P2. injection P2 as P2. destruct (IH o1 fuel s2) as (l & s' & ->); [lia|exact (same_trans _ _ _ P5 Hs1)| |cbn [abind]; now eauto].
      rewrite P3, <- P2. cbn. exact En.
    + exfalso. unfold put in Ep. rewrite Hp in Ep. unfold position_and_size in Ep. cbn in Ep. unfold obj_run in Ep.
      match type of Ep with context [Whole.k_run k (fst o) ?x ?y ?w ?h] => destruct (ends_step m (fst o) (Whole.mkRect x y w h) (He eq_refl)) as (o' & ht & fin & ps & ls & Er & _) end.
      { exact R. }
      cbn in Er. rewrite Er in Ep. discriminate.
Qed.
Lemma put_all_ends o n0 : (forall r0 rs, n0 < List.length rs -> Forall (PWholeEnds.page_of H W) rs -> exists pgs, Whole.pages k o (r0 :: rs) = Ok (true, pgs)) ->
  (exists r, PWholeEnds.page_of H W r) ->
  forall pfuel s p, n0 < pfuel -> same_settings s s0 -> nth_error (ps_pages s) (ps_index s) = Some p -> exists ds s', put_all float_of pfuel k box o s = Done (ds, s').
Proof.
  intros E [r1 Hr1] pfuel s p Hf Hs Hp. unfold put_all, flow.
  assert (First : forall r0, exists o' ht fin ps ls, Whole.k_run k o (Whole.rc_x r0) (Whole.rc_y r0) (Whole.rc_w r0) (Whole.rc_h r0) = Ok (o', ht, fin, ps, ls) /\ (fin = false -> ends_in (S n0) o')).
  { intros r0. destruct (E r0 (repeat r1 (S n0))) as (pgs & Ep); [rewrite repeat_length; lia|apply Forall_forall; intros q Hq; apply repeat_spec in Hq; now subst q|].
    cbn [Whole.pages] in Ep. destruct (Whole.k_run k o _ _ _ _) as [[[[[o' ht] fin] ps] ls]|] eqn:Er; [|discriminate]. exists o', ht, fin, ps, ls. split; [reflexivity|]. intros ->.
    intros rs Hl Hrs. destruct (E r0 rs) as (pgs2 & E2); [lia|exact Hrs|]. cbn [Whole.pages] in E2. rewrite Er in E2. cbn [bind] in E2.
    destruct (Whole.pages k o' rs) as [[b l]|]; [|discriminate]. cbn [bind] in E2. injection E2 as -> <-. now exists l. }
  destruct (put (obj_run k) (obj_after k box) (o, (0%Q, false, [], [])) (fun p => Some (p_ml p)) (fun _ => None) (fun p => Some (p_cw p)) (fun _ => None) s) as [[[o1 sh] s2]|] eqn:Ep.
  - cbn [lift abind]. destruct (put_ok _ _ _ _ _ _ _ _ _ Hp _ _ _ Ep) as (_ & P2 & P3 & _ & P5 & _). unfold runs_in, obj_run in P2.
    destruct (First (Whole.mkRect (sh_x sh) (sh_y sh) (sh_w sh) (sh_h sh))) as (o' & ht & fin & ps & ls & Er & En). cbn in Er. cbn [fst] in P2. rewrite Er in P2. cbn [bind] in P2. injection P2 as P2.
    destruct (go_on_ends (S n0) o1 pfuel s2) as (l & s' & ->); [lia|exact (same_trans _ _ _ P5 Hs)| |cbn [abind]; now eauto]. rewrite P3, <- P2. cbn. exact En.
  - exfalso. unfold put in Ep. rewrite Hp in Ep. unfold position_and_size in Ep. cbn in Ep. unfold obj_run in Ep. cbn [fst] in Ep.
    match type of Ep with context [Whole.k_run k o ?x ?y ?w ?h] => destruct (First (Whole.mkRect x y w h)) as (o' & ht & fin & ps & ls & Er & _) end.
    cbn in Er. rewrite Er in Ep. discriminate.
Qed.
End Put.

Section Ends.
Context {F B : Type}.
Variable b_eqb : B -> B -> bool.
Variable round3 : Q -> Q.
Variable text_w : TextLayout.fkey -> str -> Q.
Variable space_w : TextLayout.fkey -> Q.
Variable fref : TextLayout.fkey -> str.
Variable float_of : str -> res Q.
Variables fuel n : nat.
Notation kit := (@Whole.leaf_kit F B b_eqb round3 text_w space_w fref fuel).
Notation room := (@WholeEnds.leaf_room F B round3 text_w space_w fref fuel b_eqb).
Notation call := (@call F B b_eqb round3 text_w space_w fref fuel n).
Notation call_ok := (call_ok b_eqb round3 text_w space_w fref fuel n).
Notation calls_run pfuel := (calls_run b_eqb round3 text_w space_w fref float_of fuel pfuel n).

(** What is given fits in a page that is [H] high and [W] wide: the conditions
    of C84. *)
Definition call_fits (H W : Q) (c : call) : Prop :=
  match c with
  | CPage => True
  | CAdd e => WholeEnds.fits (kit (S n)) (room (S n)) H W e
  | CContent l _ _ => ContentEnds.box_ok (O := Whole.kO (kit n)) (WholeEnds.fits (kit n) (room n) H W) fuel l
  end.

Variable start : pages_state.
Hypothesis can : can_add start.
Variables H W0 W : Q.
Hypothesis pages_room : forall p, default_page start p -> (H <= p_ch p /\ W0 <= p_cw p /\ p_cw p <= W)%Q.
Hypothesis W_pos : (0 <= W)%Q.

Lemma call_ends c : call_ok W0 c -> call_fits H W c -> exists n0, forall pfuel s, n0 < pfuel -> between_calls start s -> (ps_pages s = [] -> c = CPage) ->
  exists ds s', call_run b_eqb round3 text_w space_w fref float_of fuel pfuel n c s = Done (ds, s').
Proof.
  intros Hok Hf.
  assert (Cur : forall s, between_calls start s -> (ps_pages s = [] -> c = CPage) -> c <> CPage -> exists p, nth_error (ps_pages s) (ps_index s) = Some p).
  { intros s Hb Hc Hne. destruct (bc_last _ _ Hb) as [K|K]; [elim Hne; auto|]. destruct (nth_error (ps_pages s) (ps_index s)) as [p|] eqn:E; [now exists p|]. apply nth_error_None in E. lia. }
  assert (R : forall p, default_page start p -> (H <= p_ch p /\ p_cw p <= W)%Q) by (intros p Hp; destruct (pages_room p Hp) as (? & ? & ?); auto).
  assert (One : exists r, PWholeEnds.page_of H W r).
  { exists (Whole.mkRect 0 0 W H). split; cbn; lra. }
  destruct c as [|e|l cols gap]; cbn [Calls.call_run].
  - exists 0. intros pfuel s _ Hb _. destruct (add_page_ok float_of s (can_add_same _ _ (bc_same _ _ Hb) can)) as (s1 & p & nm & -> & _). now eauto.
  - destruct (PWholeEnds.C84_alone_partial b_eqb round3 text_w space_w fref fuel (S n) e H W W_pos Hf) as (o & n0 & -> & G). cbn [lift abind]. exists n0. intros pfuel s Hp Hb Hc.
    destruct (Cur s Hb Hc ltac:(discriminate)) as [p P]. exact (put_all_ends float_of (kit (S n)) _ start can H W R o n0 G One pfuel s p Hp (bc_same _ _ Hb) P).
  - destruct Hok as [-> _]. destruct (PWholeEnds.C84_content_partial b_eqb round3 text_w space_w fref fuel n l gap H W W_pos Hf) as (n0 & G). exists n0. intros pfuel s Hp Hb Hc.
    destruct (Cur s Hb Hc ltac:(discriminate)) as [p P]. exact (put_all_ends float_of (Whole.content_kit fuel (kit n)) true start can H W R _ n0 G One pfuel s p Hp (bc_same _ _ Hb) P).
Qed.
Lemma calls_end : forall cs, Forall (call_ok W0) cs -> Forall (call_fits H W) cs -> exists n0, forall pfuel s, n0 < pfuel -> between_calls start s -> ps_pages s <> [] ->
  exists ds s', calls_run pfuel cs s = Done (ds, s').
Proof.
  induction 1 as [|c cs Hok _ IH]; intros Hf; [exists 0; intros; cbn; now eauto|]. apply Forall_cons_iff in Hf as [Hf1 Hf2]. destruct (IH Hf2) as (n1 & G1). destruct (call_ends c Hok Hf1) as (n2 & G2).
  exists (n1 + n2). intros pfuel s Hp Hb Hne. cbn [Calls.calls_run]. destruct (G2 pfuel s ltac:(lia) Hb ltac:(contradiction)) as (ds & s1 & E). rewrite E. cbn [abind].
  destruct (call_run_ok b_eqb round3 text_w space_w fref float_of fuel pfuel n start can W0 (fun p Hp => proj1 (proj2 (pages_room p Hp))) c s ds s1 Hb Hok E) as (B1 & L1 & _).
  destruct (G1 pfuel s1 ltac:(lia) B1) as (es & s2 & ->); [|cbn [abind]; now eauto]. intros K. rewrite K in L1. destruct (ps_pages s); [contradiction|]. cbn in L1. lia.
Qed.

(** C89: a new document to which a page is added and then anything that fits
    on its pages: all the calls end, after a number of pages that depends on
    what was given, and have drawn all the words of each. *)
Theorem C89_ends_partial : ps_pages start = [] -> ps_sections start = [] -> forall cs, Forall (call_ok W0) cs -> Forall (call_fits H W) cs ->
  exists n0, forall pfuel, n0 < pfuel -> exists ds finish, calls_run pfuel (CPage :: cs) start = Done (ds, finish) /\
    exists shown, Forall2 (fun c ws => Permutation (call_words b_eqb round3 text_w space_w fref fuel n c) ws /\
      (is_text b_eqb round3 text_w space_w fref fuel n c -> call_words b_eqb round3 text_w space_w fref fuel n c = ws)) (CPage :: cs) shown /\
      flat_map WholeProofs.shown_words (flat_map dev_items ds) = concat shown.
Proof.
  intros new _ cs Hok Hf. destruct (calls_end cs Hok Hf) as (n0 & G). exists n0. intros pfuel Hp.
  assert (St : between_calls start start) by (split; [apply same_refl|rewrite new; intros p; destruct (ps_index start); discriminate|now left]).
  destruct (call_ends CPage I I) as (n1 & G1). destruct (G1 (S n1) start ltac:(lia) St (fun _ => eq_refl)) as (d1 & s1 & E1).
  assert (E1' : call_run b_eqb round3 text_w space_w fref float_of fuel pfuel n CPage start = Done (d1, s1)) by exact E1.
  destruct (call_run_ok b_eqb round3 text_w space_w fref float_of fuel pfuel n start can W0 (fun p Hp => proj1 (proj2 (pages_room p Hp))) CPage start d1 s1 St I E1') as (B1 & L1 & K1 & _).
  destruct (G pfuel s1 Hp B1) as (d2 & s2 & E2).
  { intros K. destruct (K1 new) as (w & h & r & ->). rewrite K in L1. cbn in L1. lia. }
  assert (E : calls_run pfuel (CPage :: cs) start = Done (d1 ++ d2, s2)).
  { change (calls_run pfuel (CPage :: cs) start) with (abind (call_run b_eqb round3 text_w space_w fref float_of fuel pfuel n CPage start) (fun x => let '(ds, s1) := x in abind (calls_run pfuel cs s1) (fun y => let '(es, s2) := y in Done (ds ++ es, s2)))).
    rewrite E1'. cbn [abind]. rewrite E2. reflexivity. }
  assert (Hok2 : Forall (call_ok W0) (CPage :: cs)) by (constructor; [exact I|exact Hok]).
  exists (d1 ++ d2), s2. split; [exact E|].
  destruct (calls_run_ok b_eqb round3 text_w space_w fref float_of fuel pfuel n start can W0 (fun p Hp => proj1 (proj2 (pages_room p Hp))) (CPage :: cs) start (d1 ++ d2) s2 St Hok2 E) as (_ & _ & _ & _ & shown & S1 & S2).
  now exists shown.
Qed.
End Ends.
Print Assumptions C89_ends_partial.

(** ** An example
    Pages of 60 by 60 with margins of 10: a paragraph, the contents of the
    example of C84 with tables in tables, a page and the contents again. *)
Import PWhole PWholeEnds.
Definition ex_start89 : pages_state :=
  mkPS 60 60 false [(lit "top", 10); (lit "right", 10); (lit "bottom", 10); (lit "left", 10)]%Q [] 0 None 0 false [].
Notation ex_call89 := (@call unit unit (fun _ _ => true) (fun q => q) PText.ex_text_w PText.ex_space_w PText.ex_ref 60 2).
Definition ex_calls89 : list ex_call89 := [CAdd (inl (ex_par (lit "first of all"))); CContent ex_doc84 1 None; CPage; CContent ex_doc84 1 None].
Example C89_applies :
  can_add ex_start89 /\ (forall p, default_page ex_start89 p -> (40 <= p_ch p /\ 40 <= p_cw p /\ p_cw p <= 40)%Q) /\
  Forall (call_ok (fun _ _ => true) (fun q => q) PText.ex_text_w PText.ex_space_w PText.ex_ref 60 2 40) ex_calls89 /\
  Forall (call_fits (fun _ _ => true) (fun q => q) PText.ex_text_w PText.ex_space_w PText.ex_ref 60 2 40 40) ex_calls89 /\
  exists ds s, calls_run (fun _ _ => true) (fun q => q) PText.ex_text_w PText.ex_space_w PText.ex_ref (fun _ => Ok 0%Q) 60 20 2 (CPage :: ex_calls89) ex_start89 = Done (ds, s) /\
    List.length (ps_pages s) = 8%nat.
Proof.
  split; [|split; [|split; [|split]]].
  - split; [|split; [|intros f p []]].
    + split; [repeat constructor; vm_compute; intuition discriminate|]. intros k K. vm_compute in K. vm_compute. tauto.
    + intros i. unfold page_number. cbn [ex_start89 ps_roman ps_offset]. eauto.
  - intros p (H1 & H2 & H3 & H4 & H5 & H6 & H7). cbn [ex_start89 ps_rot ps_w ps_h] in H1. injection H1 as W1 W2.
    assert (E2 : p_mt p = 10%Q) by (rewrite H2; reflexivity). assert (E3 : p_mr p = 10%Q) by (rewrite H3; reflexivity).
    assert (E4 : p_mb p = 10%Q) by (rewrite H4; reflexivity). assert (E5 : p_ml p = 10%Q) by (rewrite H5; reflexivity).
    rewrite W1, E3, E5 in H6. rewrite W2, E2, E4 in H7. lra.
  - destruct C84_applies as (_ & (E1 & E2 & E3 & _) & _). assert (G : WholeProofs.els_ok (ex_leaf 2) (ex_leaf_spec 2) (Some 40%Q) ex_doc84) by (split; [exact E1|]; split; [exact E2|]; split; [exact E3|exact I]).
    constructor; [reflexivity|]. constructor; [split; [reflexivity|exact G]|]. constructor; [exact I|]. constructor; [split; [reflexivity|exact G]|constructor].
  - destruct C84_applies as (G & _). constructor; [|constructor; [exact G|constructor; [exact I|constructor; [exact G|constructor]]]].
    split; [left; reflexivity|]. exists 4%Q, 0%Q. split; [cbn; repeat split; lra|]. intros y [<-|[]]. cbn. split; lra.
  - assert (C : match calls_run (fun _ _ => true) (fun q => q) PText.ex_text_w PText.ex_space_w PText.ex_ref (fun _ => Ok 0%Q) 60 20 2 (CPage :: ex_calls89) ex_start89 with
                | Done (_, s) => List.length (ps_pages s) | _ => 0 end = 8) by (vm_compute; reflexivity).
    revert C. generalize (calls_run (fun _ _ => true) (fun q => q) PText.ex_text_w PText.ex_space_w PText.ex_ref (fun _ => Ok 0%Q) 60 20 2 (CPage :: ex_calls89) ex_start89).
    intros [[ds s]| |] C; try discriminate. exists ds, s. split; [reflexivity|exact C].
Qed.
