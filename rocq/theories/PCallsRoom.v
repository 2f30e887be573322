(** Property C90: all that a document made by calls shows lies between the
    margins of its pages. *)
From Coq Require Import String QArith Lqa Lia List.
From Verif Require Import Py Parser PageGeom Content Flow Calls CallsProofs.
From Verif Require TextLayout TableRoom ContentGeom Whole WholeRoom PWhole PWholeRoom PText.
Import ListNotations.
Open Scope list_scope.
Open Scope nat_scope.

(** ** Specification *)
Section Spec.
Variable start : pages_state.
Definition margin_of (side : str) : Q := match dget side (ps_margin start) with Some v => v | None => 0%Q end.
Definition doc_width : Q := if ps_rot start then ps_h start else ps_w start.
Definition doc_height : Q := if ps_rot start then ps_w start else ps_h start.
(** Between the left and the right margin, and over the bottom margin if that is
    claimed. *)
Definition inside (bottom : Prop) (it : Whole.drawn) : Prop :=
  WholeRoom.visible it ->
  (margin_of (lit "left") <= WholeRoom.it_left it /\ WholeRoom.it_left it + WholeRoom.it_width it <= doc_width - margin_of (lit "right"))%Q /\
  (bottom -> (margin_of (lit "bottom") <= WholeRoom.it_top it - WholeRoom.it_height it)%Q).
Definition below (y : Q) (it : Whole.drawn) : Prop := WholeRoom.visible it -> (WholeRoom.it_top it <= y)%Q.
End Spec.

Section Room.
Context {F B : Type}.
Variable b_eqb : B -> B -> bool.
Variable round3 : Q -> Q.
Variable text_w : TextLayout.fkey -> str -> Q.
Variable space_w : TextLayout.fkey -> Q.
Variable fref : TextLayout.fkey -> str.
Variable float_of : str -> res Q.
Variables fuel pfuel n : nat.
Notation call := (@call F B b_eqb round3 text_w space_w fref fuel n).
Notation call_run := (@call_run F B b_eqb round3 text_w space_w fref float_of fuel pfuel n).
Notation calls_run := (@calls_run F B b_eqb round3 text_w space_w fref float_of fuel pfuel n).
Notation leaf_okay := (fun bottom => @WholeRoom.leaf_okay bottom F B b_eqb round3 text_w space_w fref fuel).

Variable start : pages_state.
Hypothesis can : can_add start.
Variable bottom : Prop.

(** The conditions of C83 for what is given to a call: margins and gaps that are
    not negative, and that leave the columns a width. *)
Definition call_lies (c : call) : Prop :=
  match c with
  | CPage => True
  | CAdd e => leaf_okay bottom (S n) e
  | CContent l cols gap => exists St : Content.style -> Prop, (forall s, St s -> WholeRoom.plain s) /\
      WholeRoom.box_okay bottom (leaf_okay bottom n) True (n = 0) St (Whole.mkBox l cols gap) /\
      forall p, default_page start p -> forall l' x w s, ContentGeom.strip cols gap l (p_ml p) (p_cw p) l' x w -> St s -> (Content.s_ml s + Content.s_mr s <= w)%Q
  end.

Lemma default_facts p : default_page start p ->
  p_ml p = margin_of start (lit "left") /\ p_mb p = margin_of start (lit "bottom") /\
  (p_ml p + p_cw p == doc_width start - margin_of start (lit "right"))%Q /\
  (p_height p - p_mt p == doc_height start - margin_of start (lit "top"))%Q /\ (p_height p - p_mt p - p_ch p == p_mb p)%Q.
Proof.
  intros (D1 & D2 & D3 & D4 & D5 & D6 & D7).
  assert (S : forall k, side_spec k [] (ps_margin start) = margin_of start k) by reflexivity. rewrite S in D2, D3, D4, D5.
  assert (W : p_width p = doc_width start /\ p_height p = doc_height start) by (unfold doc_width, doc_height; destruct (ps_rot start); injection D1 as -> ->; auto).
  destruct W as [W1 W2]. rewrite D5, W1, D3 in D6. rewrite W2, D2, D4 in D7. rewrite D5, D4, W2, D2. repeat split; lra.
Qed.

Lemma call_next c s ds s' : between_calls start s -> call_run c s = Done (ds, s') -> between_calls start s'.
Proof.
  assert (Wd : forall p, default_page start p -> (doc_width start - margin_of start (lit "right") - margin_of start (lit "left") <= p_cw p)%Q).
  { intros p Hp. destruct (default_facts p Hp) as (A & _ & C & _). rewrite A in C. lra. }
  intros Hb E. destruct c as [|e|l cols gap].
  - exact (proj1 (call_run_ok b_eqb round3 text_w space_w fref float_of fuel pfuel n start can _ Wd CPage s ds s' Hb I E)).
  - cbn [Calls.call_run] in E. destruct (Whole.k_start _ e) as [o|]; [|discriminate]. cbn [lift abind] in E. exact (proj1 (put_all_ok _ _ _ start can _ _ _ _ _ _ Hb Wd E)).
  - cbn [Calls.call_run] in E. exact (proj1 (put_all_ok _ _ _ start can _ _ _ _ _ _ Hb Wd E)).
Qed.

Lemma call_within c s ds s' : between_calls start s -> call_lies c -> draws b_eqb round3 text_w space_w fref fuel n c -> call_run c s = Done (ds, s') ->
  Forall (inside start bottom) (flat_map dev_items ds) /\
  exists p, nth_error (ps_pages s) (ps_index s) = Some p /\ Forall (below (p_yb p)) (fst (by_page dev_items ds)) /\
    Forall (Forall (below (doc_height start - margin_of start (lit "top")))) (snd (by_page dev_items ds)).
Proof.
  intros Hb Hl Hd E. destruct (call_breaks b_eqb round3 text_w space_w fref float_of fuel pfuel n start can c s ds s' (bc_same _ _ Hb) Hd E) as (p & r & rs & P & R0 & Rs & K).
  pose proof (bc_page _ _ Hb p P) as Dp. rewrite <- (by_page_all dev_items ds (fun _ _ => eq_refl)).
  set (a := fst (by_page dev_items ds)) in *. set (b := snd (by_page dev_items ds)) in *.
  assert (G : Forall2 (PWholeRoom.on_page bottom) (firstn (S (List.length b)) (r :: rs)) (a :: b)).
  { destruct c as [|e|l cols gap]; [destruct Hd| |]; cbn [call_pages call_lies] in *.
    - destruct (Whole.k_start _ e) as [o|] eqn:Es; [|discriminate]. cbn [bind] in K. exact (PWholeRoom.C83_alone_partial b_eqb round3 text_w space_w fref fuel bottom (S n) e o (r :: rs) true (a :: b) Hl Es K).
    - destruct Hl as (St & L1 & L2 & L3). refine (PWholeRoom.C83_content_partial b_eqb round3 text_w space_w fref fuel bottom n St l cols gap (r :: rs) true (a :: b) L1 L2 _ K).
      constructor.
      + destruct R0 as (-> & _ & -> & _). exact (L3 p Dp).
      + refine (Forall_impl _ _ Rs). intros r1 (q & Dq & -> & _ & -> & _). exact (L3 q Dq). }
  cbn [firstn] in G. inversion G as [|? ? ? ? G1 G2]; subst. clear G K E.
  assert (T : Forall (inside start bottom) (concat b) /\ Forall (Forall (below (doc_height start - margin_of start (lit "top")))) b).
  { clear - G2 Rs. generalize dependent rs. induction b as [|x b IH]; intros rs Rs G2; [split; constructor|]. destruct rs as [|r1 rs]; cbn [List.length firstn] in G2; [inversion G2|].
    inversion G2 as [|? ? ? ? H1 H2]; subst. inversion Rs as [|? ? (q & Dq & Hw) Rs2]; subst. destruct (IH rs Rs2 H2) as [I1 I2]. destruct (default_facts q Dq) as (A1 & A2 & A3 & A4 & A5). destruct Hw as (X1 & X2 & X3 & X4).
    split; [cbn [concat]; apply Forall_app; split; [|exact I1]|constructor; [|exact I2]]; apply Forall_forall; intros it Hit Hv; destruct (H1 it Hit Hv) as ((V1 & V2 & V3) & V4); rewrite X1, X3 in *; try rewrite X4 in V4.
    - split; [split; [rewrite <- A1; exact V1|lra]|]. intros Hbt. specialize (V4 Hbt). rewrite A2 in A5. lra.
    - lra. }
  destruct T as [T1 T2]. destruct R0 as (X1 & X2 & X3 & X4). destruct (default_facts p Dp) as (A1 & A2 & A3 & _). split.
  - apply Forall_app. split; [|exact T1]. apply Forall_forall. intros it Hit Hv. destruct (G1 it Hit Hv) as ((V1 & V2 & V3) & V4). rewrite X1, X3 in *.
    split; [split; [rewrite <- A1; exact V1|lra]|]. intros Hbt. specialize (V4 Hbt). rewrite A2 in X4. lra.
  - exists p. split; [exact P|]. split; [|exact T2]. apply Forall_forall. intros it Hit Hv. destruct (G1 it Hit Hv) as ((_ & _ & V3) & _). rewrite X2 in V3. exact V3.
Qed.

(** Where calls begin: [start], or where the ones before have ended. *)
Lemma calls_next : forall cs s ds s', between_calls start s -> calls_run cs s = Done (ds, s') -> between_calls start s'.
Proof.
  induction cs as [|c cs IH]; intros s ds s' Hb E; cbn [Calls.calls_run] in E; [injection E as <- <-; exact Hb|].
  destruct (call_run c s) as [[d1 s1]| |] eqn:E1; try discriminate. cbn [abind] in E. destruct (calls_run cs s1) as [[d2 s2]| |] eqn:E2; try discriminate. cbn [abind] in E. injection E as <- <-.
  exact (IH _ _ _ (call_next _ _ _ _ Hb E1) E2).
Qed.
Lemma calls_within : forall cs s ds s', between_calls start s -> Forall call_lies cs -> calls_run cs s = Done (ds, s') -> Forall (inside start bottom) (flat_map dev_items ds).
Proof.
  induction cs as [|c cs IH]; intros s ds s' Hb Hl E; cbn [Calls.calls_run] in E; [injection E as <- <-; constructor|].
  apply Forall_cons_iff in Hl as [L1 L2]. destruct (call_run c s) as [[d1 s1]| |] eqn:E1; try discriminate. cbn [abind] in E.
  destruct (calls_run cs s1) as [[d2 s2]| |] eqn:E2; try discriminate. cbn [abind] in E. injection E as <- <-. rewrite flat_map_app. apply Forall_app.
  split; [|exact (IH _ _ _ (call_next _ _ _ _ Hb E1) L2 E2)].
  destruct c as [|e|l cols gap]; [|exact (proj1 (call_within _ _ _ _ Hb L1 I E1))|exact (proj1 (call_within _ _ _ _ Hb L1 I E1))].
  cbn [Calls.call_run] in E1. destruct (add_page _ _ _ _ _) as [[u|] t]; [|discriminate]. injection E1 as <- <-. constructor.
Qed.
Lemma starts : ps_pages start = [] -> between_calls start start.
Proof. intros new. split; [apply same_refl|rewrite new; intros p; destruct (ps_index start); discriminate|now left]. Qed.

(** C90: whatever calls make a new document, all that is visible on its pages
    is between the left and the right margin of the document, and over the bottom
    margin when its boxes have one column. *)
Theorem C90_margins_partial : ps_pages start = [] -> ps_sections start = [] -> forall cs ds finish, Forall call_lies cs -> calls_run cs start = Done (ds, finish) ->
  forall i its it, nth_error (on_each_page ds) i = Some its -> In it its -> inside start bottom it.
Proof.
  intros new _ cs ds finish Hl E i its it Hi Hin. pose proof (calls_within cs start ds finish (starts new) Hl E) as G. rewrite Forall_forall in G. apply G.
  rewrite <- (by_page_all dev_items ds (fun _ _ => eq_refl)). apply in_or_app. right. apply in_concat. exists its. split; [exact (nth_error_In _ _ Hi)|exact Hin].
Qed.
(** What a call shows on the page where it begins is below the cursor that the
    calls before it left there; on its other pages it is below the top margin. *)
Theorem C90_tops_partial : ps_pages start = [] -> ps_sections start = [] -> forall before c after ds finish, call_lies c -> draws b_eqb round3 text_w space_w fref fuel n c ->
  calls_run (before ++ c :: after) start = Done (ds, finish) ->
  exists d1 s1 dc d2 p, calls_run before start = Done (d1, s1) /\ ds = d1 ++ dc ++ d2 /\ nth_error (ps_pages s1) (ps_index s1) = Some p /\
    Forall (below (p_yb p)) (fst (by_page dev_items dc)) /\ Forall (Forall (below (doc_height start - margin_of start (lit "top")))) (snd (by_page dev_items dc)).
Proof.
  intros new _ before c after ds finish Hl Hd E. destruct (calls_app b_eqb round3 text_w space_w fref float_of fuel pfuel n _ _ _ _ _ E) as (d1 & s1 & d2 & E1 & E2 & ->).
  cbn [Calls.calls_run] in E2. destruct (call_run c s1) as [[dc s2]| |] eqn:Ec; try discriminate. cbn [abind] in E2. destruct (calls_run after s2) as [[d3 s3]| |]; try discriminate. cbn [abind] in E2. injection E2 as <- <-.
  destruct (call_within c s1 dc s2 (calls_next _ _ _ _ (starts new) E1) Hl Hd Ec) as (_ & p & P & T1 & T2). exists d1, s1, dc, d3, p. auto.
Qed.
End Room.
Print Assumptions C90_margins_partial.
Print Assumptions C90_tops_partial.

(** ** An example
    Pages of 60 by 60 with margins of 10: a paragraph, the contents of the
    example of C83 with tables in tables, a page and the contents again. *)
Import PWhole PWholeRoom.
Definition ex_start90 : pages_state :=
  mkPS 60 60 false [(lit "top", 10); (lit "right", 10); (lit "bottom", 10); (lit "left", 10)]%Q [] 0 None 0 false [].
Notation ex_call90 := (@call unit unit (fun _ _ => true) (fun q => q) PText.ex_text_w PText.ex_space_w PText.ex_ref 60 2).
Definition ex_calls90 : list ex_call90 := [CPage; CAdd (inl (ex_par (lit "first of all"))); CContent ex_doc 1 None; CPage; CContent ex_doc 1 None].
Definition ex_run90 := calls_run (fun _ _ => true) (fun q => q) PText.ex_text_w PText.ex_space_w PText.ex_ref (fun _ => Ok 0%Q) 60 20 2 ex_calls90 ex_start90.
Definition ex_places90 : list (list (Z * Z * Z * Z)) :=
  match ex_run90 with
  | Done (ds, _) => map (fun ps => map (fun it => (Qround.Qfloor (WholeRoom.it_left it), Qround.Qfloor (WholeRoom.it_top it), Qround.Qfloor (WholeRoom.it_width it), Qround.Qfloor (WholeRoom.it_height it))) ps) (on_each_page ds)
  | _ => [] end.
Example C90_applies :
  ps_pages ex_start90 = [] /\ ps_sections ex_start90 = [] /\ can_add ex_start90 /\
  Forall (call_lies (fun _ _ => true) (fun q => q) PText.ex_text_w PText.ex_space_w PText.ex_ref 60 2 ex_start90 True) ex_calls90 /\
  (exists ds s, ex_run90 = Done (ds, s)) /\ map (fun l => List.length l) ex_places90 = [5; 6; 6; 2; 1; 4; 6; 6; 2; 1]%nat /\
  nth 0 ex_places90 [] = [(10, 50, 40, 9); (10, 40, 40, 9); (11, 24, 37, 9); (11, 12, 17, 0); (31, 12, 17, 0)]%Z /\
  nth 2 ex_places90 [] = [(13, 47, 5, 9); (21, 47, 5, 5); (11, 31, 17, 5); (31, 48, 17, 5); (11, 22, 17, 5); (31, 22, 17, 9)]%Z.
Proof.
  split; [reflexivity|]. split; [reflexivity|].
  assert (G : call_lies (fun _ _ => true) (fun q => q) PText.ex_text_w PText.ex_space_w PText.ex_ref 60 2 ex_start90 True (CContent ex_doc 1 None)).
  { destruct C83_applies as (G1 & G2 & _). exists (fun s => s = ex_st). split; [intros s ->; exact G2|]. split; [exact G1|].
    intros p Dp l' x w s Hst ->. destruct (default_facts ex_start90 p Dp) as (A1 & _ & A2 & _).
    assert (Wd : (p_cw p == 40)%Q) by (rewrite A1 in A2; unfold doc_width, margin_of in A2; cbn in A2; lra).
    cbn [ex_st Content.s_ml Content.s_mr] in *. assert (Hw : (w == 40)%Q); [|lra].
    assert (C1 : forall v, (ContentGeom.col_of None 1 v == v)%Q).
    { intros v. unfold ContentGeom.col_of. set (q := ContentGeom.gap_of None v). change (ContentGeom.qn 1) with 1%Q. field. }
    induction Hst as [k x Hk Hx|l x w s m g l' k x' H IH Hin Hk Hx]; [now rewrite C1|].
    assert (Hl : l = ex_doc \/ l = [Content.Leaf ex_st (inl (ex_par (lit "after it")))]).
    { clear - H. induction H as [|? ? ? ? ? ? ? ? ? H IH Hin]; [left; reflexivity|]. destruct IH as [->| ->].
      - destruct Hin as [K|[K|[K|[K|[]]]]]; try discriminate. injection K as <- <- <- <-. right. reflexivity.
      - destruct Hin as [K|[]]. discriminate. }
    destruct Hl as [-> | ->]; [|destruct Hin as [K|[]]; discriminate].
    destruct Hin as [K|[K|[K|[K|[]]]]]; try discriminate. injection K as <- <- <- <-. rewrite C1. exact IH. }
  split; [|split; [|split]].
  - split; [|split; [|intros f p []]].
    + split; [repeat constructor; vm_compute; intuition discriminate|]. intros k K. vm_compute in K. vm_compute. tauto.
    + intros i. unfold page_number. cbn [ex_start90 ps_roman ps_offset]. eauto.
  - constructor; [exact I|]. constructor; [exact I|]. constructor; [exact G|]. constructor; [exact I|]. constructor; [exact G|constructor].
  - assert (C : match ex_run90 with Done _ => true | _ => false end = true) by (vm_compute; reflexivity).
    revert C. generalize ex_run90. intros [[ds s]| |] C; try discriminate. now exists ds, s.
  - split; [|split]; vm_compute; reflexivity.
Qed.
