(** Specification of C88, and proofs about documents made by calls. *)
From Coq Require Import String QArith Lia List Permutation.
From Verif Require Import Py PageGeom Content Flow Calls.
From Verif Require Gfx TextLayout Alone Whole WholeProofs PWhole WholeMade WholeFile PPageText PdfObj PdfObjSpec Links LinkFile PWholeFile.
Import ListNotations.
Open Scope list_scope.
Open Scope nat_scope.

(** ** Specification: what is on each page *)
Section ByPage.
Context {F B A : Type}.
Notation dev := (@dev F B).
Variable f : dev -> list A.
(** What is drawn before the first new page, and on each page. *)
Fixpoint by_page (ds : list dev) : list A * list (list A) :=
  match ds with
  | [] => ([], [])
  | NewPage _ _ :: r => let '(a, b) := by_page r in ([], a :: b)
  | d :: r => let '(a, b) := by_page r in (f d ++ a, b)
  end.
End ByPage.
Definition dev_items {F B} (d : @dev F B) : list Whole.drawn := match d with NewPage _ _ => [] | Draw _ _ ps => ps end.
Definition on_each_page {F B} (ds : list (@dev F B)) : list (list Whole.drawn) := snd (by_page dev_items ds).
Definition dev_pieces {F B} (graphic_of : @Whole.rule F B -> Gfx.graphic) (pic : Q -> Q -> str * Store.dict) (d : @dev F B) : list Alone.piece :=
  match d with
  | NewPage _ _ => []
  | Draw box rs ps =>
      (if box then [Alone.Graphics (graphics_of graphic_of rs)] else []) ++
      map (fun it => match it with Whole.DPar _ x y d => Alone.Paragraph x y d | Whole.DPic x y w h iw ih => Alone.Picture (fst (pic iw ih)) w h x y end) ps
  end.

Definition is_new {F B} (d : @dev F B) : bool := match d with NewPage _ _ => true | Draw _ _ _ => false end.
Lemma by_page_length {F B A} (f : @dev F B -> list A) ds : List.length (snd (by_page f ds)) = List.length (filter is_new ds).
Proof.
  induction ds as [|[w h|box rs ps] ds IH]; [reflexivity| |]; cbn [by_page filter is_new]; destruct (by_page f ds) as [a b]; cbn [snd List.length] in *; congruence.
Qed.
Lemma by_page_all {F B A} (f : @dev F B -> list A) ds : (forall w h, f (NewPage w h) = []) -> fst (by_page f ds) ++ concat (snd (by_page f ds)) = flat_map f ds.
Proof.
  intros H. induction ds as [|[w h|box rs ps] ds IH]; [reflexivity| |]; cbn [by_page flat_map]; destruct (by_page f ds) as [a b]; cbn [fst snd concat app] in *; rewrite <- IH; [now rewrite H|].
  now rewrite <- app_assoc.
Qed.

(** The pages of two lists of devices one after the other: the last page of the
    first goes on with the second. *)
Lemma by_page_app {F B A} (f : @dev F B -> list A) a b i :
  nth i (fst (by_page f (a ++ b)) :: snd (by_page f (a ++ b))) [] =
  (if i <=? List.length (snd (by_page f a)) then nth i (fst (by_page f a) :: snd (by_page f a)) [] else []) ++
  (if List.length (snd (by_page f a)) <=? i then nth (i - List.length (snd (by_page f a))) (fst (by_page f b) :: snd (by_page f b)) [] else []).
Proof.
  revert i. induction a as [|[w h|box rs ps] a IH]; intros i.
  - cbn [app by_page fst snd List.length Nat.leb]. rewrite Nat.sub_0_r. destruct i; cbn [Nat.leb nth app]; reflexivity.
  - cbn [app by_page]. destruct (by_page f (a ++ b)) as [u v], (by_page f a) as [x y]. cbn [fst snd List.length] in *. destruct i as [|i]; [reflexivity|]. exact (IH i).
  - cbn [app by_page]. destruct (by_page f (a ++ b)) as [u v], (by_page f a) as [x y]. cbn [fst snd] in *. specialize (IH i). destruct i as [|i]; [|exact IH].
    cbn [nth Nat.leb] in *. rewrite IH. now rewrite app_assoc.
Qed.

(** ** One call *)
Section Put.
Context {F B : Type}.
Variable float_of : str -> res Q.
Variable pfuel : nat.
Variable k : @Whole.kit F B.
Notation parts sh := (obj_parts k (sh_obj sh)).
Definition rect_of (sh : shown (kobj k)) : Whole.rect := Whole.mkRect (sh_x sh) (sh_y sh) (sh_w sh) (sh_h sh).
Lemma run_inv o x y w h o' : obj_run k o x y w h = Ok o' ->
  exists ht ls, Whole.k_run k (fst o) x y w h = Ok (fst o', ht, obj_fin k o', obj_parts k o', ls).
Proof.
  unfold obj_run. destruct (Whole.k_run k (fst o) x y w h) as [[[[[o1 ht] fin] ps] ls]|]; [|discriminate]. cbn [bind]. intros H. injection H as <-. now exists ht, ls.
Qed.
Lemma chain_pages : forall rest o, chain (obj_run k) (obj_fin k) o rest ->
  (obj_fin k o = true /\ rest = []) \/ (obj_fin k o = false /\ Whole.pages k (fst o) (map rect_of rest) = Ok (true, map (fun sh => parts sh) rest)).
Proof.
  induction 1 as [o Hf|o sh l Hf Hr _ IH]; [now left|right]. split; [exact Hf|]. unfold runs_in in Hr. destruct (run_inv _ _ _ _ _ _ Hr) as (ht & ls & E).
  cbn [map Whole.pages]. unfold rect_of at 1 2 3 4. cbn [Whole.rc_x Whole.rc_y Whole.rc_w Whole.rc_h]. rewrite E. cbn [bind]. destruct IH as [[I1 ->]|[I1 I2]]; rewrite I1; [reflexivity|]. rewrite I2. reflexivity.
Qed.
Lemma first_pages o first rest : runs_in (obj_run k) o first -> chain (obj_run k) (obj_fin k) (sh_obj first) rest ->
  Whole.pages k (fst o) (map rect_of (first :: rest)) = Ok (true, map (fun sh => parts sh) (first :: rest)).
Proof.
  intros Hr Hc. unfold runs_in in Hr. destruct (run_inv _ _ _ _ _ _ Hr) as (ht & ls & E).
  cbn [map Whole.pages]. unfold rect_of at 1 2 3 4. cbn [Whole.rc_x Whole.rc_y Whole.rc_w Whole.rc_h]. rewrite E. cbn [bind]. destruct (chain_pages _ _ Hc) as [[I1 ->]|[I1 I2]]; rewrite I1; [reflexivity|]. rewrite I2. reflexivity.
Qed.

(** The document between calls: the last page is the current one and has the
    settings of the document. *)
Variable s0 : pages_state.
Record between_calls (s : pages_state) : Prop := {
  bc_same : same_settings s s0;
  bc_page : forall p, nth_error (ps_pages s) (ps_index s) = Some p -> default_page s0 p;
  bc_last : ps_pages s = [] \/ S (ps_index s) = List.length (ps_pages s) }.
Hypothesis can : can_add s0.

Lemma after_same box p o : geometry (obj_after k box p o) p.
Proof. unfold obj_after. destruct (snd o) as [[[ht fin] ps] ls]. destruct box; [apply after_box_geometry|]. unfold after_text, move_down, set_y, set_cursor. repeat split. Qed.
Lemma same_sym s t : same_settings s t -> same_settings t s.
Proof. unfold same_settings. intuition congruence. Qed.
Lemma list_nil_last {A} (l : list A) : l = [] \/ exists a m, l = m ++ [a].
Proof. destruct l as [|a l] using rev_ind; [now left|right; now exists a, l]. Qed.

Lemma put_all_ok box o s ds s' W0 : between_calls s -> (forall p, default_page s0 p -> (W0 <= p_cw p)%Q) -> put_all float_of pfuel k box o s = Done (ds, s') ->
  between_calls s' /\ List.length (ps_pages s') = List.length (ps_pages s) + List.length (snd (by_page dev_items ds)) /\ ps_pages s <> [] /\
  exists rs pgs, Forall (fun r => (W0 <= Whole.rc_w r)%Q) rs /\ Whole.pages k o rs = Ok (true, pgs) /\ flat_map dev_items ds = concat pgs.
Proof.
  intros [B1 B2 B3] HW E. unfold put_all in E. destruct (flow _ _ _ _ _ _ _) as [[shs s1]| |] eqn:Ef; try discriminate. cbn [abind] in E. injection E as <- <-.
  assert (Hp : exists p, nth_error (ps_pages s) (ps_index s) = Some p).
  { unfold flow, put in Ef. destruct (nth_error (ps_pages s) (ps_index s)) as [p|]; [now exists p|discriminate]. }
  destruct Hp as [p Hp]. assert (Hc : can_add s) by (exact (can_add_same _ _ B1 can)).
  destruct (flow_ok float_of (obj_run k) (obj_fin k) (obj_after k box) (after_same box) _ _ _ _ _ _ Hc Hp Ef)
    as (first & rest & -> & F1 & F2 & F3 & F4 & F5 & F6 & F7 & F8 & q & q2 & F9 & F10 & F11 & F12 & F13 & F14 & F15).
  assert (Hne : ps_pages s <> []) by (intros K; rewrite K in Hp; destruct (ps_index s); discriminate).
  destruct B3 as [B3|B3]; [contradiction|].
  assert (Hd : forall q, default_page s q -> default_page s0 q) by (intros r; apply default_same, same_sym, B1).
  pose proof (B2 p Hp) as Dp.
  split; [|split; [|split; [exact Hne|]]].
  - split.
    + exact (same_trans _ _ _ F5 B1).
    + intros r Hr. rewrite F10 in Hr. injection Hr as <-. destruct (list_nil_last rest) as [->|(sh & l & ->)].
      * exact (default_geometry _ _ _ (F15 eq_refl) Dp).
      * rewrite last_last in F9. destruct (F8 (List.length l) sh) as (_ & r' & K2 & K3 & _); [now rewrite nth_error_app2, Nat.sub_diag|].
        rewrite F9, K2 in F10. injection F10 as <-. exact (Hd _ K3).
    + right. rewrite F9. destruct (list_nil_last rest) as [->|(sh & l & ->)]; [cbn [last]; cbn [List.length] in F6; rewrite F3; lia|]. rewrite last_last.
      destruct (F8 (List.length l) sh) as (K1 & _); [now rewrite nth_error_app2, Nat.sub_diag|]. rewrite app_length in F6. cbn in F6. lia.
  - rewrite by_page_length, F6. f_equal. cbn [filter is_new draw_of]. clear. induction rest as [|sh rest IH]; [reflexivity|]. cbn [flat_map app filter is_new draw_of List.length]. now rewrite <- IH.
  - exists (map rect_of (first :: rest)), (map (fun sh => parts sh) (first :: rest)). split; [|split].
    + apply Forall_forall. intros r Hr. apply in_map_iff in Hr as (sh & <- & Hr). cbn [rect_of Whole.rc_w]. destruct Hr as [<-|Hr].
      * destruct F4 as (_ & _ & -> & _). exact (HW _ Dp).
      * apply In_nth_error in Hr as [i Hi]. destruct (F8 _ _ Hi) as (_ & r & _ & K2 & _ & _ & -> & _). exact (HW _ (Hd _ K2)).
    + exact (first_pages (o, (0%Q, false, [], [])) first rest F1 F2).
    + cbn [flat_map dev_items draw_of map concat]. f_equal. clear. induction rest as [|sh rest IH]; [reflexivity|]. cbn [flat_map app dev_items draw_of map concat]. now rewrite <- IH.
Qed.
(** A call goes on from the cursor of the current page to its bottom, and then
    over whole pages of the document, one after another. *)
Definition rest_of (p : page) (r : Whole.rect) : Prop :=
  Whole.rc_x r = p_ml p /\ Whole.rc_y r = p_yb p /\ Whole.rc_w r = p_cw p /\ (Whole.rc_y r - Whole.rc_h r == p_mb p)%Q.
Definition whole_of (p : page) (r : Whole.rect) : Prop :=
  Whole.rc_x r = p_ml p /\ (Whole.rc_y r == p_height p - p_mt p)%Q /\ Whole.rc_w r = p_cw p /\ Whole.rc_h r = p_ch p.
Lemma put_all_breaks box o s ds s' p : same_settings s s0 -> nth_error (ps_pages s) (ps_index s) = Some p -> put_all float_of pfuel k box o s = Done (ds, s') ->
  exists r rs, rest_of p r /\ Forall (fun r => exists q, default_page s0 q /\ whole_of q r) rs /\
    Whole.pages k o (r :: rs) = Ok (true, fst (by_page dev_items ds) :: snd (by_page dev_items ds)).
Proof.
  intros B1 Hp E. unfold put_all in E. destruct (flow _ _ _ _ _ _ _) as [[shs s1]| |] eqn:Ef; try discriminate. cbn [abind] in E. injection E as <- <-.
  assert (Hc : can_add s) by (exact (can_add_same _ _ B1 can)).
  destruct (flow_ok float_of (obj_run k) (obj_fin k) (obj_after k box) (after_same box) _ _ _ _ _ _ Hc Hp Ef) as (first & rest & -> & F1 & F2 & _ & F4 & _ & _ & _ & F8 & _).
  exists (rect_of first), (map rect_of rest). split; [exact F4|]. split.
  - apply Forall_forall. intros r Hr. apply in_map_iff in Hr as (sh & <- & Hr). apply In_nth_error in Hr as [i Hi]. destruct (F8 _ _ Hi) as (_ & q & _ & D & X).
    exists q. split; [exact (default_same _ _ _ (same_sym _ _ B1) D)|exact X].
  - change (rect_of first :: map rect_of rest) with (map rect_of (first :: rest)). etransitivity; [exact (first_pages (o, (0%Q, false, [], [])) first rest F1 F2)|].
    assert (G : forall l, by_page dev_items (flat_map (fun sh => [NewPage (fst (page_size s1 (sh_page sh))) (snd (page_size s1 (sh_page sh))); draw_of k box sh]) l) = ([], map (fun sh => parts sh) l)).
    { clear. induction l as [|sh l IH]; [reflexivity|]. cbn [flat_map app by_page map draw_of dev_items]. rewrite IH. now rewrite app_nil_r. }
    cbn [by_page draw_of dev_items map]. rewrite G. cbn [fst snd]. now rewrite app_nil_r.
Qed.
(** New pages have the size of the document. *)
Definition fresh_size (d : @dev F B) : Prop :=
  match d with NewPage w h => (w, h) = (if ps_rot s0 then (ps_h s0, ps_w s0) else (ps_w s0, ps_h s0)) | Draw _ _ _ => True end.
Lemma put_all_sizes box o s ds s' : same_settings s s0 -> put_all float_of pfuel k box o s = Done (ds, s') -> Forall fresh_size ds.
Proof.
  intros B1 E. unfold put_all in E. destruct (flow _ _ _ _ _ _ _) as [[shs s1]| |] eqn:Ef; try discriminate. cbn [abind] in E. injection E as <- <-.
  assert (Hp : exists p, nth_error (ps_pages s) (ps_index s) = Some p).
  { unfold flow, put in Ef. destruct (nth_error (ps_pages s) (ps_index s)) as [p|]; [now exists p|discriminate]. }
  destruct Hp as [p Hp]. assert (Hc : can_add s) by (exact (can_add_same _ _ B1 can)).
  destruct (flow_ok float_of (obj_run k) (obj_fin k) (obj_after k box) (after_same box) _ _ _ _ _ _ Hc Hp Ef) as (first & rest & -> & _ & _ & _ & _ & _ & _ & _ & F8 & _).
  constructor; [exact I|]. apply Forall_forall. intros d Hd. apply in_flat_map in Hd as (sh & Hs & [<-|[<-|[]]]); [|exact I].
  apply In_nth_error in Hs as [i Hi]. destruct (F8 _ _ Hi) as (_ & q & Hq & Dq & _). cbn [fresh_size]. unfold page_size. rewrite Hq. cbn [fst snd].
  apply (default_same _ _ _ (same_sym _ _ B1)) in Dq. exact (proj1 Dq).
Qed.
End Put.

(** ** Sequences of calls *)
Section Calls.
Context {F B : Type}.
Variable b_eqb : B -> B -> bool.
Variable round3 : Q -> Q.
Variable text_w : TextLayout.fkey -> str -> Q.
Variable space_w : TextLayout.fkey -> Q.
Variable fref : TextLayout.fkey -> str.
Variable float_of : str -> res Q.
Variables fuel pfuel n : nat.
Notation kit := (@Whole.leaf_kit F B b_eqb round3 text_w space_w fref fuel).
Notation spec := (@WholeProofs.leaf_spec F B b_eqb round3 text_w space_w fref fuel).
Notation call := (@call F B b_eqb round3 text_w space_w fref fuel n).
Notation call_run := (@call_run F B b_eqb round3 text_w space_w fref float_of fuel pfuel n).
Notation calls_run := (@calls_run F B b_eqb round3 text_w space_w fref float_of fuel pfuel n).
Notation made := (WholeMade.made round3 text_w space_w fref).

(** The words that a call has, and the conditions of C75. *)
Definition call_words (c : call) : list WholeProofs.word :=
  match c with
  | CPage => []
  | CAdd e => WholeProofs.sp_words (kit (S n)) (spec (S n)) e
  | CContent l _ _ => flat_map (WholeProofs.el_words (kit n) (spec n)) l
  end.
Definition call_ok (W0 : Q) (c : call) : Prop :=
  match c with
  | CPage => True
  | CAdd e => WholeProofs.sp_ok (kit (S n)) (spec (S n)) e
  | CContent l cols _ => cols = 1 /\ WholeProofs.els_ok (kit n) (spec n) (Some W0) l
  end.
(** Paragraphs by themselves. *)
Definition is_text (c : call) : Prop := match c with CAdd (inl _) => True | _ => False end.

Lemma alone_made m o : forall rs fin pgs, (exists inv, WholeMade.makes round3 text_w space_w fref (kit m) (WholeProofs.sp_ok (kit m) (spec m)) inv /\ inv o) ->
  Whole.pages (kit m) o rs = Ok (fin, pgs) -> Forall (Forall made) pgs.
Proof.
  intros rs fin pgs (inv & G & Hi). revert o fin pgs Hi. induction rs as [|r rs IH]; intros o fin pgs Hi; cbn [Whole.pages].
  - intros H. injection H as <- <-. constructor.
  - destruct (Whole.k_run (kit m) o (Whole.rc_x r) (Whole.rc_y r) (Whole.rc_w r) (Whole.rc_h r)) as [[[[[o' ht] f] ps] ls]|] eqn:Er; [|discriminate]. cbn [bind].
    destruct (WholeMade.mk_run _ _ _ _ _ _ _ G _ _ _ _ _ _ _ _ _ _ Hi Er) as [G1 G2]. destruct f.
    + intros H. injection H as <- <-. constructor; [exact G1|constructor].
    + destruct (Whole.pages (kit m) o' rs) as [[b l']|] eqn:Ep; [|discriminate]. cbn [bind]. intros H. injection H as <- <-. constructor; [exact G1|]. exact (IH _ _ _ (G2 eq_refl) Ep).
Qed.
Lemma pages_inl (a b : @Whole.kit F B) : forall rs o, Whole.pages (Whole.sum_kit a b) (inl o) rs = Whole.pages a o rs.
Proof.
  induction rs as [|r rs IH]; intros o; cbn [Whole.pages]; [reflexivity|]. cbn [Whole.sum_kit Whole.k_run].
  destruct (Whole.k_run a o _ _ _ _) as [[[[[o' ht] f] ps] ls]|]; cbn [bind]; [|reflexivity]. destruct f; [reflexivity|]. now rewrite IH.
Qed.
Lemma shown_concat pgs : PWhole.shown_on pgs = flat_map WholeProofs.shown_words (concat pgs).
Proof. unfold PWhole.shown_on. induction pgs as [|p pgs IH]; [reflexivity|]. cbn [flat_map concat]. now rewrite flat_map_app, IH. Qed.
Lemma concat_made pgs : Forall (Forall made) pgs -> Forall made (concat pgs).
Proof. induction 1; [constructor|]. cbn [concat]. apply Forall_app. auto. Qed.

Variable s0 : pages_state.
Hypothesis can : can_add s0.
Variable W0 : Q.
Hypothesis wide : forall p, default_page s0 p -> (W0 <= p_cw p)%Q.
Definition before_first {A} (f : @dev F B -> list A) (ds : list dev) : list A := fst (by_page f ds).

Lemma text_order c rs pgs : WholeProofs.sp_ok (kit 0) (spec 0) c -> Whole.pages (kit 0) (c, TextLayout.fresh c) rs = Ok (true, pgs) ->
  WholeProofs.sp_words (kit 0) (spec 0) c = PWhole.shown_on pgs.
Proof.
  intros He Hp. destruct (WholeProofs.text_good eq WholeProofs.eq_congruent (F:=F) (B:=B) round3 text_w space_w fref) as (inv & left & G1 & G2 & G3).
  destruct (G1 c (c, TextLayout.fresh c) He eq_refl) as [K1 K2]. cbn [Whole.leaf_kit WholeProofs.leaf_spec]. rewrite <- K2.
  destruct (PWhole.pages_words eq WholeProofs.eq_congruent (kit 0) (fun _ => True) inv left) with (rs := rs) (o := (c, TextLayout.fresh c)) (fin := true) (pgs := pgs) as (rest & R1 & R2);
    [|exact K1|apply Forall_forall; auto|exact Hp|rewrite (R2 eq_refl), app_nil_r in R1; exact R1].
  intros o1 r o' ht f ps ls Hi _ Hr. destruct (G2 _ _ _ _ _ _ _ _ _ _ Hi Hr) as (R1 & R2 & _). auto.
Qed.
Lemma call_run_ok c s ds s' : between_calls s0 s -> call_ok W0 c -> call_run c s = Done (ds, s') ->
  between_calls s0 s' /\ List.length (ps_pages s') = List.length (ps_pages s) + List.length (filter is_new ds) /\
  (ps_pages s = [] -> exists w h r, ds = NewPage w h :: r) /\ Forall made (flat_map dev_items ds) /\
  Permutation (call_words c) (flat_map WholeProofs.shown_words (flat_map dev_items ds)) /\ (is_text c -> call_words c = flat_map WholeProofs.shown_words (flat_map dev_items ds)).
Proof.
  intros Hb Hok E. destruct c as [|e|l cols gap]; cbn [Calls.call_run] in E.
  - destruct (add_page_ok float_of s (can_add_same _ _ (bc_same _ _ Hb) can)) as (s1 & p & nm & K1 & K2 & K3 & _). rewrite K1 in E. injection E as <- <-. rewrite K2. cbn.
    split; [|split; [rewrite app_length; reflexivity|split; [intros _; now eexists _, _, _|split; [constructor|split; [constructor|intros []]]]]].
    split; cbn.
    + destruct (bc_same _ _ Hb) as (A1 & A2 & A3 & A4 & A5 & A6 & A7). repeat split; assumption.
    + intros q Hq. rewrite nth_error_app2, Nat.sub_diag in Hq by lia. injection Hq as <-. exact (default_same _ _ _ (same_sym _ _ (bc_same _ _ Hb)) K3).
    + right. rewrite app_length. cbn. lia.
  - destruct (Whole.k_start (kit (S n)) e) as [o|] eqn:Es; [|discriminate]. cbn [lift abind] in E.
    destruct (put_all_ok _ _ _ s0 can _ _ _ _ _ W0 Hb wide E) as (P1 & P2 & P3 & rs & pgs & _ & P4 & P5). rewrite by_page_length in P2.
    split; [exact P1|]. split; [exact P2|]. split; [intros K; contradiction|]. rewrite P5, <- shown_concat.
    destruct (WholeMade.leaf_makes (F:=F) b_eqb round3 text_w space_w fref fuel (S n)) as [inv G].
    split; [apply concat_made; apply (alone_made (S n) o rs true pgs); [exists inv; split; [exact G|exact (WholeMade.mk_start _ _ _ _ _ _ _ G _ _ Hok Es)]|exact P4]|].
    split.
    + destruct (PWhole.C75_alone_partial b_eqb round3 text_w space_w fref fuel (S n) e o rs true pgs Hok Es P4) as (rest & R1 & R2). rewrite (R2 eq_refl), app_nil_r in R1. exact R1.
    + destruct e as [c|t]; [|intros []]. intros _. cbn in Es. injection Es as <-. cbn [Whole.leaf_kit] in P4. rewrite pages_inl in P4. exact (text_order c rs pgs Hok P4).
  - destruct Hok as [-> Hok]. destruct (put_all_ok _ _ _ s0 can _ _ _ _ _ W0 Hb wide E) as (P1 & P2 & P3 & rs & pgs & P6 & P4 & P5). rewrite by_page_length in P2.
    split; [exact P1|]. split; [exact P2|]. split; [intros K; contradiction|]. rewrite P5, <- shown_concat.
    split; [apply concat_made; exact (WholeMade.pages_made b_eqb round3 text_w space_w fref fuel n l gap W0 rs true pgs Hok P6 P4)|]. split; [|intros []].
    destruct (PWhole.C75_words_partial b_eqb round3 text_w space_w fref fuel n l gap W0 rs true pgs Hok P6 P4) as (rest & R1 & R2). rewrite (R2 eq_refl), app_nil_r in R1. exact R1.
Qed.
Lemma calls_run_ok : forall cs s ds s', between_calls s0 s -> Forall (call_ok W0) cs -> calls_run cs s = Done (ds, s') ->
  between_calls s0 s' /\ List.length (ps_pages s') = List.length (ps_pages s) + List.length (filter is_new ds) /\
  (ps_pages s = [] -> ds = [] \/ exists w h r, ds = NewPage w h :: r) /\ Forall made (flat_map dev_items ds) /\
  exists shown, Forall2 (fun c ws => Permutation (call_words c) ws /\ (is_text c -> call_words c = ws)) cs shown /\ flat_map WholeProofs.shown_words (flat_map dev_items ds) = concat shown.
Proof.
  induction cs as [|c cs IH]; intros s ds s' Hb Hok E; cbn [Calls.calls_run] in E.
  - injection E as <- <-. split; [exact Hb|]. split; [cbn; lia|]. split; [now left|]. split; [constructor|]. exists []. split; [constructor|reflexivity].
  - apply Forall_cons_iff in Hok as [Ho1 Ho2]. destruct (call_run c s) as [[d1 s1]| |] eqn:E1; try discriminate. cbn [abind] in E.
    destruct (calls_run cs s1) as [[d2 s2]| |] eqn:E2; try discriminate. cbn [abind] in E. injection E as <- <-.
    destruct (call_run_ok _ _ _ _ Hb Ho1 E1) as (A1 & A2 & A3 & A4 & A5 & A6). destruct (IH _ _ _ A1 Ho2 E2) as (C1 & C2 & C3 & C4 & shown & C5 & C6).
    split; [exact C1|]. split; [rewrite filter_app, app_length; lia|]. split; [intros K; right; destruct (A3 K) as (w & h & r & ->); now exists w, h, (r ++ d2)|].
    rewrite !flat_map_app. split; [apply Forall_app; auto|]. exists (flat_map WholeProofs.shown_words (flat_map dev_items d1) :: shown). split; [constructor; auto|]. cbn [concat]. now rewrite C6.
Qed.
Lemma calls_app : forall a b s ds s', calls_run (a ++ b) s = Done (ds, s') ->
  exists d1 s1 d2, calls_run a s = Done (d1, s1) /\ calls_run b s1 = Done (d2, s') /\ ds = d1 ++ d2.
Proof.
  induction a as [|c a IH]; intros b s ds s' E; [exists [], s, ds; split; [reflexivity|]; split; [exact E|reflexivity]|].
  cbn [app Calls.calls_run] in *. destruct (call_run c s) as [[d1 s1]| |] eqn:E1; try discriminate. cbn [abind] in *.
  destruct (calls_run (a ++ b) s1) as [[d2 s2]| |] eqn:E2; try discriminate. cbn [abind] in E. injection E as <- <-. destruct (IH _ _ _ _ E2) as (x & t & y & X1 & X2 & ->).
  rewrite X1. cbn [abind]. exists (d1 ++ x), t, y. split; [reflexivity|]. split; [exact X2|apply app_assoc].
Qed.
(** What a call shows in given rectangles. *)
Definition call_pages (c : call) (rs : list Whole.rect) : res (bool * list (list Whole.drawn)) :=
  match c with
  | CPage => Ok (true, [])
  | CAdd e => do o <- Whole.k_start (kit (S n)) e; Whole.pages (kit (S n)) o rs
  | CContent l cols gap => Whole.pages (Whole.content_kit fuel (kit n)) (Content.fresh_content l cols gap) rs
  end.
Definition draws (c : call) : Prop := match c with CPage => False | _ => True end.
Lemma call_breaks c s ds s' : same_settings s s0 -> draws c -> call_run c s = Done (ds, s') ->
  exists p r rs, nth_error (ps_pages s) (ps_index s) = Some p /\ rest_of p r /\ Forall (fun r => exists q, default_page s0 q /\ whole_of q r) rs /\
    call_pages c (r :: rs) = Ok (true, fst (by_page dev_items ds) :: snd (by_page dev_items ds)).
Proof.
  intros Hs Hd E.
  assert (Hp : forall k box o, put_all float_of pfuel k box o s = Done (ds, s') -> exists p, nth_error (ps_pages s) (ps_index s) = Some p).
  { intros k box o K. unfold put_all, flow, put in K. destruct (nth_error (ps_pages s) (ps_index s)) as [p|]; [now exists p|discriminate]. }
  destruct c as [|e|l cols gap]; [destruct Hd| |]; cbn [Calls.call_run] in E.
  - cbn [call_pages]. destruct (Whole.k_start (kit (S n)) e) as [o|]; [|discriminate]. cbn [lift abind bind] in *. destruct (Hp _ _ _ E) as [p P]. exists p.
    destruct (put_all_breaks _ _ _ _ can _ _ _ _ _ _ Hs P E) as (r & rs & X). exists r, rs. auto.
  - destruct (Hp _ _ _ E) as [p P]. exists p. destruct (put_all_breaks _ _ _ _ can _ _ _ _ _ _ Hs P E) as (r & rs & X). exists r, rs. auto.
Qed.
Lemma call_sizes c s ds s' : same_settings s s0 -> call_run c s = Done (ds, s') -> Forall (fresh_size s0) ds.
Proof.
  intros Hs E. destruct c as [|e|l cols gap]; cbn [Calls.call_run] in E.
  - destruct (add_page_ok float_of s (can_add_same _ _ Hs can)) as (s1 & p & nm & K1 & K2 & K3 & _). rewrite K1 in E. injection E as <- <-. constructor; [|constructor].
    cbn [fresh_size]. unfold page_size. rewrite K2. cbn. rewrite nth_error_app2, Nat.sub_diag by lia. cbn [nth_error fst snd]. apply (default_same _ _ _ (same_sym _ _ Hs)) in K3. exact (proj1 K3).
  - destruct (Whole.k_start (kit (S n)) e) as [o|]; [|discriminate]. exact (put_all_sizes _ _ _ _ can _ _ _ _ _ Hs E).
  - exact (put_all_sizes _ _ _ _ can _ _ _ _ _ Hs E).
Qed.
Lemma calls_sizes : forall cs s ds s', between_calls s0 s -> Forall (call_ok W0) cs -> calls_run cs s = Done (ds, s') -> Forall (fresh_size s0) ds.
Proof.
  induction cs as [|c cs IH]; intros s ds s' Hb Hok E; cbn [Calls.calls_run] in E; [injection E as <- <-; constructor|].
  apply Forall_cons_iff in Hok as [Ho1 Ho2]. destruct (call_run c s) as [[d1 s1]| |] eqn:E1; try discriminate. cbn [abind] in E.
  destruct (calls_run cs s1) as [[d2 s2]| |] eqn:E2; try discriminate. cbn [abind] in E. injection E as <- <-. apply Forall_app. split; [exact (call_sizes _ _ _ _ (bc_same _ _ Hb) E1)|].
  exact (IH _ _ _ (proj1 (call_run_ok _ _ _ _ Hb Ho1 E1)) Ho2 E2).
Qed.
End Calls.

(** ** What is handed to the pages *)
Section Deliver.
Context {F B : Type}.
Variable round3 : Q -> Q.
Variable loads : str -> res (Z * str * str).
Variable print : list Gfx.gop -> str.
Variable style_of : TextLayout.fkey -> PdfObj.style.
Variable pic : Q -> Q -> str * Store.dict.
Variable graphic_of : @Whole.rule F B -> Gfx.graphic.
Notation deliver := (deliver round3 loads print style_of pic graphic_of).
Notation pieces := (dev_pieces graphic_of pic).
Notation adds := (LinkFile.adds round3 loads).
(** The operators of [p] are printed as they are read, and its fonts have a
    style. *)
Definition well_printed (p : Alone.piece) : Prop :=
  match p with Alone.Picture _ _ _ _ _ => True | _ => forall ops, Alone.piece_ops round3 p = Ok ops -> PageText.writes_all (fun _ => False) ops (print ops) end /\
  match p with Alone.Paragraph _ _ d => forall k, In k (TextLayout.d_used d) -> PdfObjSpec.style_key (style_of k) = k | _ => True end.

Definition marks (o : PdfObj.op) : Prop := match o with PdfObj.OpText _ | PdfObj.OpImage _ _ _ _ _ _ => True | _ => False end.
Lemma adds_marks p o : adds p o -> marks o.
Proof. destruct p, o; cbn; auto; contradiction. Qed.
Lemma ops_from_marks i l : Forall marks l -> forall cur n r,
  LinkFile.ops_from cur n i (l ++ r) = (match cur with Some j => if j =? i then l else [] | None => [] end) ++ LinkFile.ops_from cur n i r.
Proof.
  induction 1 as [|o l Ho _ IH]; intros cur n r; [destruct cur as [j|]; [destruct (j =? i)|]; reflexivity|].
  destruct o; try contradiction; cbn [app LinkFile.ops_from]; rewrite IH; destruct cur as [j|]; try destruct (j =? i); reflexivity.
Qed.
Lemma add_drawn_adds it o : add_drawn round3 loads print style_of pic it = Ok o -> Forall well_printed (pieces (Draw false [] [it])) -> Forall2 adds (pieces (Draw false [] [it])) [o].
Proof.
  cbn [dev_pieces app map]. intros E H. apply Forall_cons_iff in H as [[H1 H2] _]. constructor; [|constructor]. destruct it as [c x y d|x y w h iw ih]; cbn [add_drawn] in E.
  - destruct (Alone.piece_ops round3 (Alone.Paragraph x y d)) as [ops|] eqn:Eo; [|discriminate]. cbn [bind] in E.
    destruct (Links.paragraph_ids loads d) as [ids|] eqn:Ei; [|discriminate]. cbn [bind] in E. injection E as <-. cbn [LinkFile.adds PdfObj.tx_x PdfObj.tx_y PdfObj.tx_ids PdfObj.tx_stream PdfObj.tx_styles].
    split; [reflexivity|]. split; [reflexivity|]. split; [exact Ei|]. split; [exists ops; split; [exact Eo|now apply H1]|]. intros k Hk. exists (style_of k). split; [now apply in_map|now apply H2].
  - injection E as <-. cbn. auto.
Qed.
Lemma add_all_adds : forall ps os, add_all round3 loads print style_of pic ps = Ok os -> Forall well_printed (pieces (Draw false [] ps)) -> Forall2 adds (pieces (Draw false [] ps)) os.
Proof.
  induction ps as [|it ps IH]; intros os E H; cbn [add_all] in E; [injection E as <-; constructor|].
  destruct (add_drawn round3 loads print style_of pic it) as [o|] eqn:Eo; [|discriminate]. cbn [bind] in E. destruct (add_all _ _ _ _ _ ps) as [os'|] eqn:Es; [|discriminate]. cbn [bind] in E. injection E as <-.
  cbn [dev_pieces app map] in *. apply Forall_cons_iff in H as [H1 H2]. pose proof (add_drawn_adds it o Eo (Forall_cons _ H1 (Forall_nil _))) as A. cbn [dev_pieces app map] in A. inversion A; subst.
  constructor; [assumption|]. now apply IH.
Qed.
Lemma draw_adds box rs ps g os : (if box : bool then do o <- add_graphics round3 print graphic_of rs; Ok [o] else Ok []) = Ok g -> add_all round3 loads print style_of pic ps = Ok os ->
  Forall well_printed (pieces (Draw box rs ps)) -> Forall2 adds (pieces (Draw box rs ps)) (g ++ os).
Proof.
  intros E1 E2 H. cbn [dev_pieces] in *. apply Forall_app in H as [H1 H2]. apply Forall2_app; [|exact (add_all_adds ps os E2 H2)]. destruct box; [|injection E1 as <-; constructor].
  apply Forall_cons_iff in H1 as [[H1 _] _]. unfold add_graphics in E1. destruct (Alone.piece_ops round3 (Alone.Graphics (graphics_of graphic_of rs))) as [ops|] eqn:Eo; [|discriminate].
  cbn [bind] in E1. injection E1 as <-. constructor; [|constructor]. cbn [LinkFile.adds PdfObj.tx_ids PdfObj.tx_stream]. split; [reflexivity|]. exists ops. auto.
Qed.
Lemma Forall2_marks a b : Forall2 adds a b -> Forall marks b.
Proof. induction 1; constructor; [now apply adds_marks in H|assumption]. Qed.
Lemma deliver_adds : forall ds ops, deliver ds = Ok ops -> Forall well_printed (flat_map pieces ds) -> forall cur n i, match cur with Some j => j < n | None => True end ->
  Forall2 adds (match cur with Some j => if j =? i then fst (by_page pieces ds) else [] | None => [] end ++
    (if n <=? i then nth (i - n) (snd (by_page pieces ds)) [] else [])) (LinkFile.ops_from cur n i ops).
Proof.
  induction ds as [|[w h|box rs ps] ds IH]; intros ops E Hw cur n i Hc; cbn [Calls.deliver] in E.
  - injection E as <-. cbn [by_page fst snd]. assert (X : (if n <=? i then nth (i - n) (@nil (list Alone.piece)) [] else []) = []) by (destruct (n <=? i); [destruct (i - n)|]; reflexivity).
    rewrite X. destruct cur as [j|]; [destruct (j =? i)|]; constructor.
  - destruct (deliver ds) as [os|] eqn:Ed; [|discriminate]. cbn [bind] in E. injection E as <-. cbn [flat_map dev_pieces app] in Hw.
    specialize (IH os eq_refl Hw (Some n) (S n) i (Nat.lt_succ_diag_r n)). cbn [by_page LinkFile.ops_from]. destruct (by_page pieces ds) as [a b]. cbn [fst snd] in *.
    assert (X : match cur with Some j => if j =? i then @nil Alone.piece else [] | None => [] end = []) by (destruct cur as [j|]; [destruct (j =? i)|]; reflexivity). rewrite X. cbn [app].
    destruct (Nat.eqb_spec n i) as [->|Hne].
    + rewrite Nat.leb_refl, Nat.sub_diag. cbn [nth]. rewrite (proj2 (Nat.leb_gt (S i) i)) in IH by lia. rewrite app_nil_r in IH. exact IH.
    + cbn [app] in IH. destruct (Nat.leb_spec n i) as [Hl|Hl].
      * rewrite (proj2 (Nat.leb_le (S n) i)) in IH by lia. replace (i - n) with (S (i - S n)) by lia. exact IH.
      * rewrite (proj2 (Nat.leb_gt (S n) i)) in IH by lia. exact IH.
  - destruct (if box then _ else _) as [g|] eqn:Eg; [|discriminate]. cbn [bind] in E. destruct (add_all _ _ _ _ _ ps) as [os|] eqn:Es; [|discriminate]. cbn [bind] in E.
    destruct (deliver ds) as [more|] eqn:Ed; [|discriminate]. cbn [bind] in E. injection E as <-. cbn [flat_map] in Hw. apply Forall_app in Hw as [Hw1 Hw2].
    pose proof (draw_adds box rs ps g os Eg Es Hw1) as A. specialize (IH more eq_refl Hw2 cur n i Hc). rewrite app_assoc, (ops_from_marks i (g ++ os) (Forall2_marks _ _ A)).
    cbn [by_page]. destruct (by_page pieces ds) as [a b]. cbn [fst snd] in *. destruct cur as [j|]; [|exact IH]. destruct (j =? i); [|exact IH]. rewrite <- app_assoc. now apply Forall2_app.
Qed.
Lemma mark_sizes l : Forall marks l -> forall cur n r,
  PdfObjSpec.page_sizes (PdfObjSpec.events cur n (l ++ r)) = PdfObjSpec.page_sizes (PdfObjSpec.events cur n r).
Proof.
  assert (N : forall cur es, Forall (fun e => match e with PdfObjSpec.EPage _ _ => False | _ => True end) es -> PdfObjSpec.page_sizes (match cur with Some i => map (pair (i : nat)) es | None => [] end) = []).
  { intros [i|] es H; [|reflexivity]. unfold PdfObjSpec.page_sizes. induction H as [|e es He _ IH]; [reflexivity|]. cbn [map flat_map snd]. rewrite IH. destruct e; tauto || reflexivity. }
  assert (A : forall a b, PdfObjSpec.page_sizes (a ++ b) = PdfObjSpec.page_sizes a ++ PdfObjSpec.page_sizes b) by (intros a b; unfold PdfObjSpec.page_sizes; apply flat_map_app).
  induction 1 as [|o l Ho _ IH]; intros cur n r; [reflexivity|]. destruct o as [| |t|nm ob w h x y|]; try contradiction; cbn [app PdfObjSpec.events]; rewrite A, IH, N; try reflexivity.
  - constructor; [exact I|]. apply Forall_forall. intros e He. apply LinkFile.text_event in He. destruct e; tauto.
  - constructor; [exact I|]. constructor; [exact I|constructor].
Qed.
Lemma deliver_sizes : forall ds ops, deliver ds = Ok ops -> Forall well_printed (flat_map pieces ds) -> forall cur n,
  List.length (PdfObjSpec.page_sizes (PdfObjSpec.events cur n ops)) = List.length (filter is_new ds).
Proof.
  induction ds as [|[w h|box rs ps] ds IH]; intros ops E Hw cur n; cbn [Calls.deliver] in E.
  - injection E as <-. reflexivity.
  - destruct (deliver ds) as [os|] eqn:Ed; [|discriminate]. cbn [bind] in E. injection E as <-. cbn [flat_map dev_pieces app] in Hw.
    cbn [PdfObjSpec.events filter is_new List.length]. unfold PdfObjSpec.page_sizes. cbn [flat_map snd app List.length]. f_equal. exact (IH os eq_refl Hw (Some n) (S n)).
  - destruct (if box then _ else _) as [g|] eqn:Eg; [|discriminate]. cbn [bind] in E. destruct (add_all _ _ _ _ _ ps) as [os|] eqn:Es; [|discriminate]. cbn [bind] in E.
    destruct (deliver ds) as [more|] eqn:Ed; [|discriminate]. cbn [bind] in E. injection E as <-. cbn [flat_map] in Hw. apply Forall_app in Hw as [Hw1 Hw2].
    pose proof (draw_adds box rs ps g os Eg Es Hw1) as A. rewrite app_assoc, (mark_sizes (g ++ os) (Forall2_marks _ _ A)). exact (IH more eq_refl Hw2 cur n).
Qed.
(** The pieces on the pages are the things drawn there. *)
Lemma pieces_hold box rs ps : WholeFile.holds_items (pieces (Draw box rs ps)) ps.
Proof.
  unfold WholeFile.holds_items. cbn [dev_pieces]. rewrite filter_app. replace (filter _ (if box then _ else _)) with (@nil Alone.piece) by (destruct box; reflexivity). cbn [app].
  induction ps as [|it ps IH]; [constructor|]. destruct it; cbn [map filter WholeFile.is_graphics negb]; constructor; try exact IH; cbn; auto.
Qed.
Lemma holds_app a b a' b' : WholeFile.holds_items a a' -> WholeFile.holds_items b b' -> WholeFile.holds_items (a ++ b) (a' ++ b').
Proof. unfold WholeFile.holds_items. rewrite filter_app. apply Forall2_app. Qed.
Lemma by_page_hold ds : WholeFile.holds_items (fst (by_page pieces ds)) (fst (by_page dev_items ds)) /\
  Forall2 WholeFile.holds_items (snd (by_page pieces ds)) (snd (by_page dev_items ds)).
Proof.
  induction ds as [|[w h|box rs ps] ds [I1 I2]]; cbn [by_page]; [split; constructor| |]; destruct (by_page pieces ds) as [a b], (by_page dev_items ds) as [a' b']; cbn [fst snd] in *.
  - split; [constructor|constructor; assumption].
  - split; [|exact I2]. exact (holds_app _ _ _ _ (pieces_hold box rs ps) I1).
Qed.
End Deliver.
