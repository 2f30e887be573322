(** Property C91: what a call shows does not lie on what the calls before it have
    shown. *)
From Coq Require Import String QArith Lqa Lia List.
From Verif Require Import Py Parser PageGeom Content Flow Calls CallsProofs PCallsRoom CallsCover.
From Verif Require TextLayout Table TableRoom Whole WholeRoom ContentCover PWhole PWholeRoom PText.
Import ListNotations.
Open Scope list_scope.
Open Scope nat_scope.

Section Now.
Context {F B : Type}.
(** What the last page shows. *)
Definition now_step (l : list Whole.drawn) (d : @dev F B) : list Whole.drawn := match d with NewPage _ _ => [] | Draw _ _ ps => l ++ ps end.
Lemma now_last : forall (ds : list dev) l, fold_left now_step ds l = last ((l ++ fst (by_page dev_items ds)) :: snd (by_page dev_items ds)) [].
Proof.
  induction ds as [|[w h|box rs ps] ds IH]; intros l; cbn [fold_left by_page now_step]; [cbn; now rewrite app_nil_r| |]; rewrite IH; destruct (by_page dev_items ds) as [a b]; cbn [fst snd].
  - reflexivity.
  - cbn [dev_items]. now rewrite app_assoc.
Qed.
End Now.

Section Apart.
Context {F B : Type}.
Variable b_eqb : B -> B -> bool.
Variable round3 : Q -> Q.
Variable text_w : TextLayout.fkey -> str -> Q.
Variable space_w : TextLayout.fkey -> Q.
Variable fref : TextLayout.fkey -> str.
Variable float_of : str -> res Q.
Variables fuel pfuel n : nat.
Notation kit := (@Whole.leaf_kit F B b_eqb round3 text_w space_w fref fuel).
Notation call := (@call F B b_eqb round3 text_w space_w fref fuel n).
Notation call_run := (@call_run F B b_eqb round3 text_w space_w fref float_of fuel pfuel n).
Notation calls_run := (@calls_run F B b_eqb round3 text_w space_w fref float_of fuel pfuel n).

Variable start : pages_state.
Hypothesis can : can_add start.

(** Pages; texts; tables of texts, tables and boxes of texts in one column, whose
    cells take one row and have margins that are not negative; and contents of
    texts and groups of texts in one column, with boxes inside one another. *)
Definition call_plain (c : call) : Prop :=
  match c with
  | CPage => True
  | CAdd e => texts_and_tables b_eqb round3 text_w space_w fref fuel (S n) e
  | CContent l cols gap => one_column (text_only b_eqb round3 text_w space_w fref fuel n) (Whole.mkBox l cols gap)
  end.

(** Where the top margin ends. *)
Definition top_line : Q := (doc_height start - margin_of start (lit "top"))%Q.
Section Kit.
Variable k : @Whole.kit F B.
Variable okE : Whole.kE k -> Prop.
Variable okO : Whole.kO k -> Prop.
Variable okS : Whole.kO k -> Whole.kS k -> Prop.
Hypothesis G : covers k okE okO okS.
Definition sh_ht (sh : shown (kobj k)) : Q := let '(ht, _, _, _) := snd (sh_obj sh) in ht.
Definition sh_covers (sh : shown (kobj k)) : Prop := (0 <= sh_ht sh)%Q /\ Forall (over (sh_y sh - sh_ht sh)) (obj_parts k (sh_obj sh)).
Lemma run_covers o sh : okO (fst o) -> runs_in (obj_run k) o sh -> sh_covers sh /\ okO (fst (sh_obj sh)).
Proof.
  intros Ho H. unfold runs_in, obj_run in H. destruct (Whole.k_run k (fst o) _ _ _ _) as [[[[[o1 ht] fin] ps] ls]|] eqn:Er; [|discriminate]. cbn [bind] in H. injection H as H.
  destruct (cv_run _ _ _ _ G _ _ _ _ _ _ _ _ _ _ Ho Er) as (K1 & K2 & K3 & _). unfold sh_covers, sh_ht, obj_fin, obj_parts. rewrite <- H. cbn. auto.
Qed.
Lemma chain_covers : forall l o, chain (obj_run k) (obj_fin k) o l -> okO (fst o) -> Forall sh_covers l.
Proof.
  induction 1 as [o Hf|o sh l Hf Hr _ IH]; intros Ho; [constructor|]. destruct (run_covers o sh Ho Hr) as [A C]. constructor; auto.
Qed.
Lemma after_low box p sh : sh_covers sh -> (p_yb (obj_after k box p (sh_obj sh)) <= p_yb p - sh_ht sh)%Q.
Proof.
  intros [H1 H2]. unfold sh_ht, obj_after, obj_parts in *. destruct (snd (sh_obj sh)) as [[[ht fin] ps] ls]. destruct box.
  - unfold after_box. assert (A : forall q, (p_yb (fold_left add_part (map bpart_of ps) q) <= p_yb q)%Q).
    { clear H1. induction H2 as [|it ps [_ Hw] _ IH]; intros q; cbn [map fold_left]; [lra|]. refine (Qle_trans _ _ _ (IH _) _). destruct it as [c x y d|]; [|destruct Hw].
      cbn [bpart_of add_part weight] in *. unfold move_down, set_y, set_cursor, get_y. cbn. lra. }
    specialize (A p). unfold move_down, set_y, set_cursor, get_y. cbn. lra.
  - unfold after_text, move_down, set_y, set_cursor, get_y. cbn. lra.
Qed.

(** The cursor is below a height and below all that is shown. *)
Definition cursor_below (top : Q) (l : list Whole.drawn) (p : page) : Prop :=
  (p_yb p <= top)%Q /\ forall a, In a l -> WholeRoom.visible a -> (p_yb p <= it_bottom a)%Q.
Definition settled (top : Q) (ds : list (@dev F B)) (s : pages_state) : Prop :=
  forall p, nth_error (ps_pages s) (ps_index s) = Some p -> cursor_below top (fold_left now_step ds []) p.

Lemma put_all_settled top box o d s ds s' : (top_line <= top)%Q -> okO o -> between_calls start s -> settled top d s -> put_all float_of pfuel k box o s = Done (ds, s') -> settled top (d ++ ds) s'.
Proof.
  unfold top_line. intros Htop Ho [B1 B2 B3] Hd E. unfold put_all in E. destruct (flow _ _ _ _ _ _ _) as [[shs s1]| |] eqn:Ef; try discriminate. cbn [abind] in E. injection E as <- <-.
  assert (Hp : exists p, nth_error (ps_pages s) (ps_index s) = Some p).
  { unfold flow, put in Ef. destruct (nth_error (ps_pages s) (ps_index s)) as [p|]; [now exists p|discriminate]. }
  destruct Hp as [p Hp]. assert (Hc : can_add s) by (exact (can_add_same _ _ B1 can)).
  destruct (flow_ok float_of (obj_run k) (obj_fin k) (obj_after k box) (after_same k box) _ _ _ _ _ _ Hc Hp Ef)
    as (first & rest & -> & F1 & F2 & F3 & F4 & F5 & F6 & F7 & F8 & q & q2 & F9 & F10 & F11 & F12 & F13 & F14 & F15).
  destruct (run_covers (o, (0%Q, false, [], [])) first Ho F1) as [C1 C2]. pose proof (chain_covers _ _ F2 C2) as C3.
  assert (Cl : sh_covers (last rest first)).
  { destruct (list_nil_last rest) as [->|(sh & l & ->)]; [exact C1|]. rewrite last_last. apply Forall_app in C3 as [_ C3]. now inversion C3. }
  intros r Hr. rewrite F10 in Hr. injection Hr as <-. pose proof (after_low box q2 _ Cl) as A. rewrite <- F14, F13 in A. destruct Cl as [Cl1 Cl2].
  destruct (Hd p Hp) as [D1 D2]. rewrite fold_left_app. destruct (list_nil_last rest) as [->|(sh & l & ->)].
  - cbn [last] in *. destruct F4 as (_ & X & _). rewrite X in A. split; [lra|]. cbn [flat_map fold_left now_step draw_of]. intros a Ha Hv. apply in_app_or in Ha as [Ha|Ha].
    + specialize (D2 a Ha Hv). lra.
    + destruct (proj1 (Forall_forall _ _) Cl2 a Ha) as [V _]. specialize (V Hv). rewrite X in V. lra.
  - rewrite last_last in *. destruct (F8 (List.length l) sh) as (_ & r' & _ & K3 & _ & K4 & _); [now rewrite nth_error_app2, Nat.sub_diag by lia|].
    apply (default_same _ _ _ (same_sym _ _ B1)) in K3. destruct (default_facts start r' K3) as (_ & _ & _ & K5 & _). split; [lra|].
    cbn [fold_left]. rewrite flat_map_app, fold_left_app. cbn [flat_map app fold_left now_step draw_of]. intros a Ha Hv.
    destruct (proj1 (Forall_forall _ _) Cl2 a Ha) as [V _]. specialize (V Hv). lra.
Qed.
End Kit.

Lemma call_settled top c d s ds s' : (top_line <= top)%Q -> call_plain c -> between_calls start s -> settled top d s -> call_run c s = Done (ds, s') -> settled top (d ++ ds) s'.
Proof.
  intros Htop Hc Hb Hd E. destruct c as [|e|l cols gap]; cbn [Calls.call_run call_plain] in *.
  - destruct (add_page_ok float_of s (can_add_same _ _ (bc_same _ _ Hb) can)) as (s1 & p & nm & K1 & K2 & K3 & _ & K4). rewrite K1 in E. injection E as <- <-.
    intros q Hq. rewrite K2 in Hq. cbn in Hq. rewrite nth_error_app2, Nat.sub_diag in Hq by lia. injection Hq as <-. rewrite fold_left_app. cbn [fold_left now_step]. split; [|intros a []].
    apply (default_same _ _ _ (same_sym _ _ (bc_same _ _ Hb))) in K3. destruct (default_facts start p K3) as (_ & _ & _ & K5 & _). unfold get_y in K4. unfold top_line in Htop. lra.
  - destruct (leaf_covers (F := F) b_eqb round3 text_w space_w fref fuel (S n)) as (okO & okS & G). destruct (Whole.k_start (kit (S n)) e) as [o|] eqn:Es; [|discriminate]. cbn [lift abind] in E.
    exact (put_all_settled _ _ _ _ G _ _ _ _ _ _ _ Htop (cv_start _ _ _ _ G _ _ Hc Es) Hb Hd E).
  - destruct (text_only_covers (F := F) b_eqb round3 text_w space_w fref fuel n) as (okO & G0). pose proof (content_covers fuel _ _ _ G0) as G.
    exact (put_all_settled _ _ _ _ G _ _ _ _ _ _ _ Htop (cv_start _ _ _ _ G _ _ Hc eq_refl) Hb Hd E).
Qed.
Lemma calls_settled top : (top_line <= top)%Q -> forall cs d s ds s', Forall call_plain cs -> between_calls start s -> settled top d s -> calls_run cs s = Done (ds, s') -> settled top (d ++ ds) s' /\ between_calls start s'.
Proof.
  intros Htop. induction cs as [|c cs IH]; intros d s ds s' Hl Hb Hd E; cbn [Calls.calls_run] in E; [injection E as <- <-; rewrite app_nil_r; auto|].
  apply Forall_cons_iff in Hl as [L1 L2]. destruct (call_run c s) as [[d1 s1]| |] eqn:E1; try discriminate. cbn [abind] in E.
  destruct (calls_run cs s1) as [[d2 s2]| |] eqn:E2; try discriminate. cbn [abind] in E. injection E as <- <-. rewrite app_assoc.
  exact (IH _ _ _ _ L2 (call_next b_eqb round3 text_w space_w fref float_of fuel pfuel n start can _ _ _ _ Hb E1) (call_settled _ _ _ _ _ _ Htop L1 Hb Hd E1) E2).
Qed.

(** C91: in a new document made by pages, texts, tables and contents of texts in
    one column, all that the next call
    shows on the page where it begins is wholly below all that the page already
    shows, and below the top margin. *)
Theorem C91_apart_partial : ps_pages start = [] -> ps_sections start = [] -> forall bottom before c after ds finish,
  Forall call_plain before -> call_lies b_eqb round3 text_w space_w fref fuel n start bottom c -> draws b_eqb round3 text_w space_w fref fuel n c ->
  calls_run (before ++ c :: after) start = Done (ds, finish) ->
  exists d1 s1 dc d2, calls_run before start = Done (d1, s1) /\ ds = d1 ++ dc ++ d2 /\ on_each_page d1 <> [] /\
    forall b, In b (fst (by_page dev_items dc)) -> WholeRoom.visible b ->
      (WholeRoom.it_top b <= doc_height start - margin_of start (lit "top"))%Q /\
      forall a, In a (last (on_each_page d1) []) -> WholeRoom.visible a -> (WholeRoom.it_top b <= WholeRoom.it_top a - WholeRoom.it_height a)%Q.
Proof.
  intros new sec bottom before c after ds finish Hpl Hl Hd E.
  destruct (C90_tops_partial b_eqb round3 text_w space_w fref float_of fuel pfuel n start can bottom new sec before c after ds finish Hl Hd E) as (d1 & s1 & dc & d2 & p & E1 & E2 & P & T & _).
  exists d1, s1, dc, d2. split; [exact E1|]. split; [exact E2|].
  destruct (calls_settled top_line (Qle_refl _) before [] start d1 s1 Hpl (starts start new)) as [S _]; [intros q Hq; rewrite new in Hq; destruct (ps_index start); discriminate|exact E1|]. cbn [app] in S.
  destruct (S p P) as [S1 S2]. unfold top_line in S1. rewrite now_last in S2. cbn [app] in S2.
  assert (Hne : on_each_page d1 <> []).
  { intros K. unfold on_each_page in K. assert (N : forall cs s ds s', calls_run cs s = Done (ds, s') -> between_calls start s -> List.length (ps_pages s') = List.length (ps_pages s) + List.length (snd (by_page dev_items ds))).
    { clear - can. induction cs as [|c cs IH]; intros s ds s' E Hb; cbn [Calls.calls_run] in E; [injection E as <- <-; cbn; lia|].
      destruct (call_run c s) as [[d1 s1]| |] eqn:E1; try discriminate. cbn [abind] in E. destruct (calls_run cs s1) as [[d2 s2]| |] eqn:E2; try discriminate. cbn [abind] in E. injection E as <- <-.
      pose proof (call_next b_eqb round3 text_w space_w fref float_of fuel pfuel n start can _ _ _ _ Hb E1) as Hb1. specialize (IH _ _ _ E2 Hb1). rewrite by_page_length in *. rewrite filter_app, app_length, IH.
      assert (Wd : forall p, default_page start p -> (doc_width start - margin_of start (lit "right") - margin_of start (lit "left") <= p_cw p)%Q).
      { intros p Hp. destruct (default_facts start p Hp) as (A & _ & C & _). rewrite A in C. lra. }
      assert (X : List.length (ps_pages s1) = List.length (ps_pages s) + List.length (filter is_new d1)); [|lia].
      destruct c as [|e|l cols gap].
      - exact (proj1 (proj2 (call_run_ok b_eqb round3 text_w space_w fref float_of fuel pfuel n start can _ Wd CPage s d1 s1 Hb I E1))).
      - cbn [Calls.call_run] in E1. destruct (Whole.k_start _ e) as [o|]; [|discriminate]. cbn [lift abind] in E1. rewrite <- (by_page_length dev_items). exact (proj1 (proj2 (put_all_ok _ _ _ start can _ _ _ _ _ _ Hb Wd E1))).
      - cbn [Calls.call_run] in E1. rewrite <- (by_page_length dev_items). exact (proj1 (proj2 (put_all_ok _ _ _ start can _ _ _ _ _ _ Hb Wd E1))). }
    specialize (N _ _ _ _ E1 (starts start new)). rewrite K, new in N. cbn in N. destruct (ps_pages s1); [|discriminate]. destruct (ps_index s1); discriminate. }
  split; [exact Hne|]. intros b Hb Hv. pose proof (proj1 (Forall_forall _ _) T b Hb Hv) as Tb. split; [lra|]. intros a Ha Va.
  assert (Ha' : In a (last (fst (by_page dev_items d1) :: snd (by_page dev_items d1)) [])).
  { unfold on_each_page in Ha, Hne. destruct (snd (by_page dev_items d1)); [congruence|exact Ha]. }
  specialize (S2 a Ha' Va). unfold it_bottom in S2. lra.
Qed.
(** What calls show is below the top margin, when the ones before the last are
    plain. *)
Lemma call_top bottom c d s ds s' : call_lies b_eqb round3 text_w space_w fref fuel n start bottom c -> between_calls start s -> settled top_line d s -> call_run c s = Done (ds, s') ->
  Forall (below (doc_height start - margin_of start (lit "top"))) (flat_map dev_items ds).
Proof.
  intros Hl Hb Hd E. assert (Hpg : c = CPage \/ draws b_eqb round3 text_w space_w fref fuel n c) by (destruct c; [now left|right; exact I|right; exact I]). destruct Hpg as [->|Hdr].
  - cbn [Calls.call_run] in E. destruct (add_page _ _ _ _ _) as [[u|] t]; [|discriminate]. injection E as <- <-. constructor.
  - destruct (call_within b_eqb round3 text_w space_w fref float_of fuel pfuel n start can bottom c s ds s' Hb Hl Hdr E) as (_ & p & P & T1 & T2).
    rewrite <- (by_page_all dev_items ds (fun _ _ => eq_refl)). destruct (Hd p P) as [D _]. unfold top_line in D. apply Forall_app. split.
    + refine (Forall_impl _ _ T1). intros it H V. specialize (H V). lra.
    + apply Forall_concat. exact T2.
Qed.
Lemma calls_top bottom : forall cs d s ds s', Forall call_plain cs -> Forall (call_lies b_eqb round3 text_w space_w fref fuel n start bottom) cs -> between_calls start s -> settled top_line d s ->
  calls_run cs s = Done (ds, s') -> Forall (below (doc_height start - margin_of start (lit "top"))) (flat_map dev_items ds).
Proof.
  induction cs as [|c cs IH]; intros d s ds s' Hp Hl Hb Hd E; cbn [Calls.calls_run] in E; [injection E as <- <-; constructor|].
  apply Forall_cons_iff in Hp as [P1 P2]. apply Forall_cons_iff in Hl as [L1 L2]. destruct (call_run c s) as [[d1 s1]| |] eqn:E1; try discriminate. cbn [abind] in E.
  destruct (calls_run cs s1) as [[d2 s2]| |] eqn:E2; try discriminate. cbn [abind] in E. injection E as <- <-. rewrite flat_map_app. apply Forall_app. split; [exact (call_top bottom c d s d1 s1 L1 Hb Hd E1)|].
  exact (IH _ _ _ _ P2 L2 (call_next b_eqb round3 text_w space_w fref float_of fuel pfuel n start can _ _ _ _ Hb E1) (call_settled _ _ _ _ _ _ (Qle_refl _) P1 Hb Hd E1) E2).
Qed.
(** All that such a document shows is between all four margins of its pages. *)
Theorem C91_area_partial : ps_pages start = [] -> ps_sections start = [] -> forall before c ds finish,
  Forall call_plain before -> Forall (call_lies b_eqb round3 text_w space_w fref fuel n start True) (before ++ [c]) ->
  calls_run (before ++ [c]) start = Done (ds, finish) ->
  forall i its it, nth_error (on_each_page ds) i = Some its -> In it its -> WholeRoom.visible it ->
    (margin_of start (lit "left") <= WholeRoom.it_left it /\ WholeRoom.it_left it + WholeRoom.it_width it <= doc_width start - margin_of start (lit "right") /\
     margin_of start (lit "bottom") <= WholeRoom.it_top it - WholeRoom.it_height it /\ WholeRoom.it_top it <= doc_height start - margin_of start (lit "top"))%Q.
Proof.
  intros new sec before c ds finish Hp Hl E i its it Hi Hin Hv.
  destruct (C90_margins_partial b_eqb round3 text_w space_w fref float_of fuel pfuel n start can True new sec (before ++ [c]) ds finish Hl E i its it Hi Hin Hv) as ((M1 & M2) & M3).
  assert (G : Forall (below (doc_height start - margin_of start (lit "top"))) (flat_map dev_items ds)).
  { apply Forall_app in Hl as [L1 L2]. apply Forall_inv in L2.
    destruct (calls_app b_eqb round3 text_w space_w fref float_of fuel pfuel n _ _ _ _ _ E) as (d1 & s1 & d2 & E1 & E2 & ->).
    assert (S0 : settled top_line [] start) by (intros q Hq; rewrite new in Hq; destruct (ps_index start); discriminate).
    destruct (calls_settled top_line (Qle_refl _) before [] start d1 s1 Hp (starts start new) S0 E1) as [S1 B1].
    cbn [Calls.calls_run] in E2. destruct (call_run c s1) as [[dc s2]| |] eqn:Ec; try discriminate. cbn [abind] in E2. injection E2 as <- <-. rewrite app_nil_r, flat_map_app. apply Forall_app.
    split; [exact (calls_top True before [] start d1 s1 Hp L1 (starts start new) S0 E1)|exact (call_top True c _ _ _ _ L2 B1 S1 Ec)]. }
  rewrite Forall_forall in G. specialize (G it). rewrite <- (by_page_all dev_items ds (fun _ _ => eq_refl)) in G.
  assert (Hit : In it (fst (by_page dev_items ds) ++ concat (snd (by_page dev_items ds)))) by (apply in_or_app; right; apply in_concat; exists its; split; [exact (nth_error_In _ _ Hi)|exact Hin]).
  specialize (G Hit Hv). specialize (M3 I). auto.
Qed.
Lemma calls_between : forall cs s ds s', between_calls start s -> calls_run cs s = Done (ds, s') -> between_calls start s'.
Proof.
  induction cs as [|c cs IH]; intros s ds s' Hb E; cbn [Calls.calls_run] in E; [injection E as <- <-; exact Hb|].
  destruct (call_run c s) as [[d1 s1]| |] eqn:E1; try discriminate. cbn [abind] in E. destruct (calls_run cs s1) as [[d2 s2]| |] eqn:E2; try discriminate. cbn [abind] in E. injection E as <- <-.
  exact (IH _ _ _ (call_next b_eqb round3 text_w space_w fref float_of fuel pfuel n start can _ _ _ _ Hb E1) E2).
Qed.
(** Whatever calls come first, also contents: when pages, texts and tables follow
    them, all that the next call shows on the page where it begins is wholly below
    all that those have shown there. *)
Theorem C91_after_partial : ps_pages start = [] -> ps_sections start = [] -> forall bottom earlier before c after ds finish,
  Forall call_plain before -> call_lies b_eqb round3 text_w space_w fref fuel n start bottom c -> draws b_eqb round3 text_w space_w fref fuel n c ->
  calls_run (earlier ++ before ++ c :: after) start = Done (ds, finish) ->
  exists d0 s0 d1 s1 dc d2, calls_run earlier start = Done (d0, s0) /\ calls_run before s0 = Done (d1, s1) /\ ds = d0 ++ d1 ++ dc ++ d2 /\
    forall b, In b (fst (by_page dev_items dc)) -> WholeRoom.visible b ->
      forall a, In a (last (fst (by_page dev_items d1) :: snd (by_page dev_items d1)) []) -> WholeRoom.visible a ->
        (WholeRoom.it_top b <= WholeRoom.it_top a - WholeRoom.it_height a)%Q.
Proof.
  intros new sec bottom earlier before c after ds finish Hpl Hl Hd E. rewrite app_assoc in E.
  destruct (C90_tops_partial b_eqb round3 text_w space_w fref float_of fuel pfuel n start can bottom new sec (earlier ++ before) c after ds finish Hl Hd E) as (d01 & s1 & dc & d2 & p & E1 & E2 & P & T & _).
  destruct (calls_app b_eqb round3 text_w space_w fref float_of fuel pfuel n _ _ _ _ _ E1) as (d0 & s0 & d1 & E3 & E4 & ->).
  exists d0, s0, d1, s1, dc, d2. split; [exact E3|]. split; [exact E4|]. split; [now rewrite E2, <- app_assoc|].
  pose proof (calls_between _ _ _ _ (starts start new) E3) as Hb.
  assert (Hs : exists top, (top_line <= top)%Q /\ settled top [] s0).
  { destruct (nth_error (ps_pages s0) (ps_index s0)) as [q|] eqn:Eq.
    - destruct (Qlt_le_dec top_line (p_yb q)) as [K|K]; [exists (p_yb q)|exists top_line]; (split; [lra|]); intros r Hr; rewrite Eq in Hr; injection Hr as <-; (split; [lra|intros a []]).
    - exists top_line. split; [lra|]. intros r Hr. rewrite Eq in Hr. discriminate. }
  destruct Hs as (top & Htop & Hs). destruct (calls_settled top Htop before [] s0 d1 s1 Hpl Hb Hs E4) as [S _]. cbn [app] in S.
  destruct (S p P) as [_ S2]. rewrite now_last in S2. cbn [app] in S2. intros b Hin Hv a Ha Va.
  pose proof (proj1 (Forall_forall _ _) T b Hin Hv) as Tb. specialize (S2 a Ha Va). unfold it_bottom in S2. lra.
Qed.
End Apart.
Print Assumptions C91_after_partial.
Print Assumptions C91_apart_partial.
Print Assumptions C91_area_partial.

(** ** An example
    The pages of the example of C90: a page, a paragraph, a table with a table in
    a cell, a paragraph, and then contents. *)
Import PWhole.
Definition ex_inner91 : Whole.kE (ex_leaf 2) :=
  inr (ex_table [[ex_cell 1 (inl (inl (ex_par (lit "i1 i2")))); ex_cell 1 (inl (inl (ex_par (lit "j"))))]] 2 (inl (inl (ex_par [])))).
Definition ex_table91 : Whole.kE (ex_leaf 3) :=
  inr (ex_table [[ex_cell 2 (inl (inl (ex_par (lit "a b c d e f g")))); ex_cell 1 (inl (inl (ex_par (lit "not shown"))))];
    [ex_cell 1 (inl ex_inner91); ex_cell 1 (inl (inl (ex_par (lit "u v w x y z"))))]] 2 (inl (inl (ex_par [])))).
Definition ex_before91 : list ex_call90 := [CPage; CAdd (inl (ex_par (lit "first"))); CAdd ex_table91; CAdd (inl (ex_par (lit "second")))].
Definition ex_last91 : ex_call90 := CContent ex_doc 1 None.
Definition ex_run91 := calls_run (fun _ _ => true) (fun q => q) PText.ex_text_w PText.ex_space_w PText.ex_ref (fun _ => Ok 0%Q) 60 20 2 (ex_before91 ++ [ex_last91]) ex_start90.
Definition ex_places91 : list (list (Z * Z)) :=
  match ex_run91 with
  | Done (ds, _) => map (fun ps => map (fun it => (Qround.Qfloor (WholeRoom.it_top it), Qround.Qfloor (it_bottom it))) ps) (on_each_page ds)
  | _ => [] end.
Example C91_applies :
  ps_pages ex_start90 = [] /\ ps_sections ex_start90 = [] /\ can_add ex_start90 /\
  Forall (call_plain (fun _ _ => true) (fun q => q) PText.ex_text_w PText.ex_space_w PText.ex_ref 60 2) ex_before91 /\
  call_lies (fun _ _ => true) (fun q => q) PText.ex_text_w PText.ex_space_w PText.ex_ref 60 2 ex_start90 True ex_last91 /\
  Forall (call_lies (fun _ _ => true) (fun q => q) PText.ex_text_w PText.ex_space_w PText.ex_ref 60 2 ex_start90 True) ex_before91 /\
  draws (fun _ _ => true) (fun q => q) PText.ex_text_w PText.ex_space_w PText.ex_ref 60 2 ex_last91 /\
  (exists ds s, ex_run91 = Done (ds, s)) /\ ex_places91 =
    [[(50, 44); (43, 33); (29, 19); (29, 24); (30, 17); (-23, -23)];
     [(50, 44); (44, 35); (28, 19); (16, 16); (16, 16)];
     [(48, 34); (28, 14); (28, 24); (11, 11); (11, 11); (48, 34)];
     [(47, 37); (47, 41); (31, 25); (48, 43); (22, 17); (22, 13)]; [(50, 20); (15, 15)]; [(50, 44)]]%Z.
Proof.
  destruct C90_applies as (A1 & A2 & A3 & A4 & _). split; [exact A1|]. split; [exact A2|]. split; [exact A3|].
  assert (Ht : forall E (okE : E -> Prop) rows cols (blank : E), (forall row c, In row rows -> In c row -> cv_cell okE c) -> okE blank -> cv_table (ex_table rows cols blank) okE).
  { intros E okE rows cols blank H3 H4. constructor; cbn [ex_table Table.t_rows Table.t_blank Table.t_bh].
    - apply Forall_forall. intros row Hr. apply Forall_forall. intros c Hc. exact (H3 row c Hr Hc).
    - split; [unfold TableRoom.ok_margins; cbn; lra|split; [exact H4|apply le_n]].
    - intros. cbn. lra. }
  assert (Hc : forall E (okE : E -> Prop) n e, okE e -> cv_cell okE (ex_cell n e)).
  { intros E okE n e H. split; [unfold TableRoom.ok_margins; cbn; lra|split; [exact H|apply le_n]]. }
  assert (Hi : texts_and_tables (fun _ _ : unit => true) (fun q => q) PText.ex_text_w PText.ex_space_w PText.ex_ref 60 2 ex_inner91).
  { apply Ht; [|vm_compute; discriminate]. intros row c Hr Hin.
    repeat (destruct Hr as [<-|Hr]; [repeat (destruct Hin as [<-|Hin]; [apply Hc; vm_compute; discriminate|]); try contradiction|]); try contradiction. }
  assert (Hrm : forall E (okE : E -> Prop) rows (blank : E), (forall row c, In row rows -> In c row -> TableRoom.ok_cell okE c) -> okE blank -> TableRoom.ok_table (ex_table rows 2 blank) okE).
  { intros E okE rows blank H3 H4. constructor; cbn [ex_table Table.t_rows Table.t_blank Table.t_bv Table.t_bh Table.t_widths].
    - apply Forall_forall. intros row Hr. apply Forall_forall. intros c Hin. exact (H3 row c Hr Hin).
    - split; [unfold TableRoom.ok_margins; cbn; lra|exact H4].
    - intros. cbn. lra.
    - intros. cbn. lra.
    - repeat constructor; vm_compute; discriminate.
    - vm_compute; discriminate. }
  assert (Hd : forall E (okE : E -> Prop) n e, okE e -> TableRoom.ok_cell okE (ex_cell n e)).
  { intros E okE n e H. split; [unfold TableRoom.ok_margins; cbn; lra|exact H]. }
  assert (Hj : @WholeRoom.leaf_okay True unit unit (fun _ _ => true) (fun q => q) PText.ex_text_w PText.ex_space_w PText.ex_ref 60 2 ex_inner91).
  { apply Hrm; [|exact I]. intros row c Hrow Hin.
    repeat (destruct Hrow as [<-|Hrow]; [repeat (destruct Hin as [<-|Hin]; [apply Hd; exact I|]); try contradiction|]); try contradiction. }
  split; [|split; [|split; [|split; [exact I|split]]]].
  - constructor; [exact I|]. constructor; [vm_compute; discriminate|]. constructor; [|constructor; [vm_compute; discriminate|constructor]].
    apply Ht; [|vm_compute; discriminate]. intros row c Hr Hin.
    repeat (destruct Hr as [<-|Hr]; [repeat (destruct Hin as [<-|Hin]; [apply Hc; first [exact Hi|vm_compute; discriminate]|]); try contradiction|]); try contradiction.
  - inversion A4 as [|? ? _ A5]; subst. inversion A5 as [|? ? _ A6]; subst. inversion A6; subst. assumption.
  - constructor; [exact I|]. constructor; [exact I|]. constructor; [|constructor; [exact I|constructor]]. apply Hrm; [|exact I]. intros row c Hrow Hin.
    repeat (destruct Hrow as [<-|Hrow]; [repeat (destruct Hin as [<-|Hin]; [apply Hd; first [exact Hj|exact I]|]); try contradiction|]); try contradiction.
  - assert (C : match ex_run91 with Done _ => true | _ => false end = true) by (vm_compute; reflexivity).
    revert C. generalize ex_run91. intros [[ds s]| |] C; try discriminate. now exists ds, s.
  - vm_compute; reflexivity.
Qed.

(** The contents first, then a paragraph and the table, then the contents again. *)
Definition ex_after91 : list ex_call90 := [CAdd (inl (ex_par (lit "first"))); CAdd ex_table91].
Definition ex_run91b := calls_run (fun _ _ => true) (fun q => q) PText.ex_text_w PText.ex_space_w PText.ex_ref (fun _ => Ok 0%Q) 60 20 2 ([CPage; ex_last91] ++ ex_after91 ++ [ex_last91]) ex_start90.
Example C91_after_applies :
  Forall (call_plain (fun _ _ => true) (fun q => q) PText.ex_text_w PText.ex_space_w PText.ex_ref 60 2) ex_after91 /\
  call_lies (fun _ _ => true) (fun q => q) PText.ex_text_w PText.ex_space_w PText.ex_ref 60 2 ex_start90 True ex_last91 /\
  (exists ds s, ex_run91b = Done (ds, s)) /\
  match ex_run91b with Done (ds, _) => map (fun ps => map (fun it => (Qround.Qfloor (WholeRoom.it_top it), Qround.Qfloor (it_bottom it))) ps) (on_each_page ds) | _ => [] end =
    [[(50, 40); (34, 24); (21, 12); (21, 12)]; [(48, 43); (36, 23); (36, 33); (20, 14); (20, 14); (48, 43)];
     [(47, 41); (47, 41); (35, 30); (48, 43); (27, 22); (27, 17)]; [(50, 20); (15, 15)];
     [(50, 44); (39, 34); (33, 23); (19, 14); (19, 14); (20, 15)]; [(47, 41); (47, 41); (48, 39); (17, 12)];
     [(50, 44); (38, 28); (25, 12); (25, 12)]; [(47, 33); (47, 43); (30, 20); (30, 25); (14, 14); (48, 43)];
     [(48, 43); (48, 43); (40, 35); (40, 30)]; [(50, 20); (15, 15)]; [(50, 44)]]%Z.
Proof.
  destruct C91_applies as (_ & _ & _ & H & L & _). inversion H as [|? ? _ H1]; subst. inversion H1 as [|? ? X1 H2]; subst. inversion H2 as [|? ? X2 _]; subst.
  split; [constructor; [exact X1|constructor; [exact X2|constructor]]|]. split; [exact L|]. split.
  - assert (C : match ex_run91b with Done _ => true | _ => false end = true) by (vm_compute; reflexivity).
    revert C. generalize ex_run91b. intros [[ds s]| |] C; try discriminate. now exists ds, s.
  - vm_compute. reflexivity.
Qed.

(** Contents of texts in one column, with a box and a group in the box, between paragraphs. *)
Definition ex_texts91 : list (@Content.elem (Whole.kE (ex_leaf 2))) :=
  [Content.Leaf ex_st (inl (ex_par (lit "one two three four five six"))); Content.Child ex_st 1 None [Content.Leaf ex_st (inl (ex_par (lit "seven eight nine ten"))); Content.Leaf ex_st (inl (ex_par (lit "eleven")))];
   Content.Group ex_st 0 [Content.GLeaf ex_st (inl (ex_par (lit "a b"))); Content.GLeaf ex_st (inl (ex_par (lit "c d")))];
   Content.Leaf ex_st (inl (ex_par (lit "twelve")))].
Definition ex_mixed91 : list ex_call90 := [CPage; CAdd (inl (ex_par (lit "first"))); CContent ex_texts91 1 None; CAdd (inl (ex_par (lit "second")))].
Definition ex_run91c := calls_run (fun _ _ => true) (fun q => q) PText.ex_text_w PText.ex_space_w PText.ex_ref (fun _ => Ok 0%Q) 60 20 2 (ex_mixed91 ++ [ex_last91]) ex_start90.
Example C91_contents_apply :
  Forall (call_plain (fun _ _ => true) (fun q => q) PText.ex_text_w PText.ex_space_w PText.ex_ref 60 2) ex_mixed91 /\
  call_lies (fun _ _ => true) (fun q => q) PText.ex_text_w PText.ex_space_w PText.ex_ref 60 2 ex_start90 True ex_last91 /\
  (exists ds s, ex_run91c = Done (ds, s)) /\
  match ex_run91c with Done (ds, _) => map (fun ps => map (fun it => (Qround.Qfloor (WholeRoom.it_top it), Qround.Qfloor (it_bottom it))) ps) (on_each_page ds) | _ => [] end =
    [[(50, 44); (44, 26); (21, 12)]; [(50, 44); (39, 34); (29, 24); (19, 14); (9, 9)]; [(50, 44); (39, 34); (34, 25); (18, 13)];
     [(48, 43); (40, 26); (20, 14); (20, 16); (40, 26)]; [(47, 37); (47, 41); (34, 25); (34, 29); (18, 13); (48, 43); (10, 10); (10, 10)];
     [(48, 43); (48, 39)]; [(50, 20); (15, 15)]; [(50, 44)]]%Z.
Proof.
  destruct C91_applies as (_ & _ & _ & _ & L & _). split; [|split; [exact L|split]].
  - constructor; [exact I|]. constructor; [vm_compute; discriminate|]. constructor; [|constructor; [vm_compute; discriminate|constructor]].
    split; [reflexivity|]. cbn [Whole.bx_elems ex_texts91 ContentCover.cvels fold_right ContentCover.cvel]. unfold ContentCover.okst. cbn. repeat first [split | apply Forall_cons | apply Forall_nil]; try lra; vm_compute; repeat split; discriminate.
  - assert (C : match ex_run91c with Done _ => true | _ => false end = true) by (vm_compute; reflexivity).
    revert C. generalize ex_run91c. intros [[ds s]| |] C; try discriminate. now exists ds, s.
  - vm_compute. reflexivity.
Qed.
