(** Footnotes in boxes of paragraphs: all the marks of a box, page by page. *)
From Coq Require Import String QArith ZArith Lia Lqa.
From Verif Require Import Py PyStr Parser StreamProofs Ranges Base Table Content Footnotes FootnotesProofs FootnotesFlat.
Open Scope list_scope.
Open Scope nat_scope.

Section Text.
Context {E O S P L K : Type}.
Variable start : E -> res O.
Variable crun : O -> Q -> Q -> Q -> Q -> res (O * Q * bool * list P * list L).
Variable save : O -> S.
Variable restore : O -> S -> O.
Variable ids_of : P -> list (str * nat).
(** What of an object stays the same, the marks of a paragraph, and those that
    it has left. *)
Variable kind : O -> K.
Variable lmarks : E -> list str.
Variable left_of : O -> list str.
Hypothesis kind_run : forall o x y w h o' ht fin ps ls, crun o x y w h = Ok (o', ht, fin, ps, ls) -> kind o' = kind o.
Hypothesis kind_restore : forall o sv, kind (restore o sv) = kind o.
Hypothesis same_restore : forall o o' sv, kind o = kind o' -> restore o sv = restore o' sv.
Hypothesis save_ok : forall o, restore o (save o) = o.
Hypothesis left_start : forall e o, start e = Ok o -> left_of o = lmarks e.
Hypothesis left_run : forall o x y w h o' ht fin ps ls, crun o x y w h = Ok (o', ht, fin, ps, ls) ->
  left_of o = part_marks ids_of ps ++ left_of o' /\ (fin = true -> left_of o' = []).
Notation elem := (@elem E).
Notation delem := (@delem E S).
Notation part := (@part E S).
Notation glob := (@glob O P L).
Notation placed_marks := (placed_marks (O := O) ids_of).

Definition kinds (h h' : list O) : Prop := forall r o, nth_error h r = Some o -> exists o', nth_error h' r = Some o' /\ kind o' = kind o.
Lemma kinds_refl h : kinds h h.
Proof. intros r o H. eauto. Qed.
Lemma kinds_trans a b c : kinds a b -> kinds b c -> kinds a c.
Proof. intros H1 H2 r o H. apply H1 in H as (o1 & H & K1). apply H2 in H as (o2 & H & K2). exists o2. split; [exact H|congruence]. Qed.
Lemma nth_hset (o : O) : forall h n r, n < length h -> nth_error (hset n o h) r = if r =? n then Some o else nth_error h r.
Proof.
  induction h as [|a h IH]; intros n r Hn; [cbn in Hn; lia|]. destruct n as [|n], r as [|r]; try reflexivity.
  change (hset (Datatypes.S n) o (a :: h)) with (a :: hset n o h). cbn [nth_error Nat.eqb]. apply IH. cbn in Hn. lia.
Qed.

(** The marks that are left: of the delayed paragraph, and of those to come. *)
Definition dleft (h : list O) (d : list delem) : list str :=
  match d with [DLeaf _ r v] => match nth_error h r with Some o => left_of (restore o v) | None => [] end | _ => [] end.
Definition emarks (e : elem) : list str := match e with Leaf _ e => lmarks e | _ => [] end.
Definition todo (h : list O) (l : list elem) (i : nat) (d : list delem) : list str := dleft h d ++ flat_map emarks (skipn i l).
Definition keep (f f' : part) : Prop :=
  f_elems f' = f_elems f /\ f_gapspec f' = f_gapspec f /\ f_last f' = f_last f /\ f_partial f' = f_partial f.
Definition valid (h : list O) (d : list delem) : Prop := forall s r v, d = [DLeaf s r v] -> exists o, nth_error h r = Some o.
Lemma dleft_kinds h h' d : valid h d -> kinds h h' -> dleft h' d = dleft h d.
Proof.
  intros Hv Hk. destruct d as [|[s r v| |] [|]]; try reflexivity. cbn. destruct (Hv _ _ _ eq_refl) as [o Ho]. destruct (Hk _ _ Ho) as (o' & Ho' & K0).
  rewrite Ho, Ho'. f_equal. apply same_restore. exact K0.
Qed.

Lemma leaf_acc f g s src r f' g' : process_leaf start crun save restore f g s src true true = Done (r, f', g') ->
  exists p o, got start restore (g_heap g) src o /\ g_parts g' = g_parts g ++ [p] /\ kinds (g_heap g) (g_heap g') /\ keep f f' /\
    f_index f' = f_index f /\ f_delayed f' = f_delayed f /\ f_sindex f' = f_sindex f /\ f_sdelayed f' = f_sdelayed f /\ (tp f -> tp f') /\
    (r = mkRet None false false /\ left_of o = placed_marks [p] \/
     exists ref v, r = mkRet (Some (DLeaf s ref v)) true false /\ valid (g_heap g') [DLeaf s ref v] /\ left_of o = placed_marks [p] ++ dleft (g_heap g') [DLeaf s ref v]).
Proof.
  intros H. apply process_leaf_inv in H as (x & y & w & h & o & o' & ht & fin & ps & ls & ref & _ & Hg & Hc & Hsrc & Hp & Hh & Hf & Hr).
  exists (PlLeaf s x y w h o o' ht fin ps), o. split; [exact Hg|]. split; [exact Hp|].
  destruct (left_run _ _ _ _ _ _ _ _ _ _ Hc) as [L1 L2].
  assert (Hnew : nth_error (g_heap g') ref = Some o' /\ kinds (g_heap g) (g_heap g')).
  { rewrite Hh. destruct (Nat.eqb_spec ref (length (g_heap g))) as [->|Hne].
    - split; [rewrite nth_error_app2, Nat.sub_diag by lia; reflexivity|]. intros r0 o0 H0. exists o0. split; [|reflexivity].
      rewrite nth_error_app1; [exact H0|]. apply nth_error_Some. congruence.
    - destruct src as [e|[r0 sv]]; [contradiction|]. subst r0. destruct Hg as (o0 & Hg & ->).
      assert (Hlt : ref < length (g_heap g)) by (apply nth_error_Some; congruence).
      split; [rewrite nth_hset, Nat.eqb_refl by exact Hlt; reflexivity|]. intros r1 o1 H1. rewrite nth_hset by exact Hlt.
      destruct (Nat.eqb_spec r1 ref) as [->|]; [|eauto]. exists o'. split; [reflexivity|]. rewrite (kind_run _ _ _ _ _ _ _ _ _ _ Hc), kind_restore. congruence. }
  destruct Hnew as [Hnew Hk]. split; [exact Hk|].
  split; [rewrite Hf; destruct (qlt 0 ht); (repeat split)|]. split; [rewrite Hf; destruct (qlt 0 ht); reflexivity|]. split; [rewrite Hf; destruct (qlt 0 ht); reflexivity|].
  split; [rewrite Hf; destruct (qlt 0 ht); reflexivity|]. split; [rewrite Hf; destruct (qlt 0 ht); reflexivity|]. split; [rewrite Hf; destruct (qlt 0 ht); apply tp_y|].
  rewrite placed_marks_one. destruct fin; [left|right].
  - split; [exact Hr|]. rewrite L1, (L2 eq_refl), app_nil_r. reflexivity.
  - exists ref, (save o'). split; [exact Hr|]. split; [intros s0 r0 v0 X; injection X as <- <- <-; eauto|]. cbn [dleft]. rewrite Hnew, save_ok. exact L1.
Qed.

Lemma add_delayed_acc fuel f g a f' g' : tp f -> add_delayed start crun save restore fuel 0 f g = Done (a, f', g') ->
  tp f' /\ keep f f' /\ f_sindex f' = f_sindex f /\ f_sdelayed f' = f_sdelayed f /\ kinds (g_heap g) (g_heap g') /\ valid (g_heap g) (f_delayed f) /\ valid (g_heap g') (f_delayed f') /\
  exists new, g_parts g' = g_parts g ++ new /\
    todo (g_heap g) (f_elems f) (f_index f) (f_delayed f) = placed_marks new ++ todo (g_heap g') (f_elems f') (f_index f') (f_delayed f') /\
    (a = Goon /\ f_delayed f' = [] \/ a = Next).
Proof.
  intros Hf H. destruct fuel as [|fuel]; [discriminate|]. cbn [add_delayed] in H. destruct (tp_del f Hf) as [Hd|(s & r & v & Hd)].
  - rewrite Hd in H. cbn [nth_error] in H. injection H as <- <- <-. split; [exact Hf|]. split; [repeat split|]. do 2 (split; [reflexivity|]). split; [apply kinds_refl|].
    rewrite Hd. split; [intros ? ? ? X; discriminate|]. split; [intros ? ? ? X; discriminate|]. exists []. rewrite app_nil_r. split; [reflexivity|]. split; [reflexivity|auto].
  - rewrite Hd in H. cbn [nth_error process_delayed] in H.
    destruct (process_leaf start crun save restore f g s (inr (r, v)) true true) as [[[rr f1] g1]| |] eqn:El; try discriminate. cbn [abind] in H.
    apply leaf_acc in El as (p & o & (o0 & Hg & ->) & A1 & A2 & A3 & A4 & A5 & A6 & A7 & A8 & A9).
    rewrite A5, Hd in H. specialize (A8 Hf).
    assert (Hv : valid (g_heap g) (f_delayed f)) by (rewrite Hd; intros ? ? ? X; injection X as <- <- <-; eauto).
    assert (Hdl : dleft (g_heap g) (f_delayed f) = left_of (restore o0 v)) by (rewrite Hd; cbn; rewrite Hg; reflexivity).
    destruct A9 as [[-> A9]|(ref & v' & -> & A9 & A10)]; cbn [r_next r_delayed r_flow replace_nth firstn skipn app] in H.
    + destruct fuel as [|fuel]; [discriminate|]. cbn in H. injection H as <- <- <-.
      split; [apply tp_todo; [exact A8|left; reflexivity]|]. split; [exact A3|]. split; [exact A6|]. split; [exact A7|]. split; [exact A2|]. split; [exact Hv|].
      split; [intros ? ? ? X; discriminate|]. exists [p]. split; [exact A1|]. split; [|left; split; reflexivity].
      unfold todo. rewrite Hdl, A9. cbn [with_todo f_elems f_index f_delayed dleft app]. destruct A3 as (-> & _). rewrite A4. reflexivity.
    + injection H as <- <- <-. split; [apply tp_todo; [exact A8|right; eauto]|]. split; [exact A3|]. split; [exact A6|]. split; [exact A7|]. split; [exact A2|]. split; [exact Hv|].
      split; [exact A9|]. exists [p]. split; [exact A1|]. split; [|right; reflexivity].
      unfold todo. rewrite Hdl, A10. cbn [with_todo f_elems f_index f_delayed]. destruct A3 as (-> & _). rewrite A4, app_assoc. reflexivity.
Qed.
Lemma keep_trans a b c : keep a b -> keep b c -> keep a c.
Proof. intros (? & ? & ? & ?) (? & ? & ? & ?). repeat split; congruence. Qed.
Lemma skipn_nth {A} (l : list A) : forall i x, nth_error l i = Some x -> skipn i l = x :: skipn (Datatypes.S i) l.
Proof. induction l as [|a l IH]; intros [|i] x H; try discriminate; [injection H as ->; reflexivity|]. cbn [skipn]. apply IH. exact H. Qed.

Lemma add_elements_acc rec fuel : forall f anc g a f' anc' g', tp f -> f_delayed f = [] -> add_elements start crun save restore rec fuel f anc g = Done (a, (f', anc', g')) ->
  anc' = anc /\ tp f' /\ keep f f' /\ f_sindex f' = f_sindex f /\ f_sdelayed f' = f_sdelayed f /\ kinds (g_heap g) (g_heap g') /\ valid (g_heap g') (f_delayed f') /\
  exists new, g_parts g' = g_parts g ++ new /\
    todo (g_heap g) (f_elems f) (f_index f) [] = placed_marks new ++ todo (g_heap g') (f_elems f') (f_index f') (f_delayed f') /\
    (a = Goon /\ f_delayed f' = [] /\ skipn (f_index f') (f_elems f') = [] \/ a = Next).
Proof.
  induction fuel as [|fuel IH]; intros f anc g a f' anc' g' Hf Hd H; [discriminate|]. cbn [add_elements] in H.
  destruct (nth_error (f_elems f) (f_index f)) as [el|] eqn:En.
  2:{ injection H as <- <- <- <-. split; [reflexivity|]. split; [exact Hf|]. split; [repeat split|]. do 2 (split; [reflexivity|]). split; [apply kinds_refl|].
      rewrite Hd. split; [intros ? ? ? X; discriminate|]. exists []. rewrite app_nil_r. split; [reflexivity|]. split; [reflexivity|]. left. split; [reflexivity|]. split; [reflexivity|].
      apply skipn_all2. apply nth_error_None. exact En. }
  assert (Hl : leafy el) by (pose proof (tp_els f Hf) as X; rewrite Forall_forall in X; apply X; eapply nth_error_In; eauto).
  destruct el as [s e| | |]; try contradiction. cbn [process] in H.
  destruct (process_leaf start crun save restore f g s (inl e) true true) as [[[rr f1] g1]| |] eqn:El; try discriminate. cbn [abind] in H.
  apply leaf_acc in El as (p & o & Hg & A1 & A2 & A3 & A4 & A5 & A6 & A7 & A8 & A9). cbn [got] in Hg. apply left_start in Hg.
  rewrite A5, Hd in H. specialize (A8 Hf). pose proof A3 as (He & _).
  assert (Htd : todo (g_heap g) (f_elems f) (f_index f) [] = left_of o ++ flat_map emarks (skipn (Datatypes.S (f_index f)) (f_elems f))).
  { unfold todo. rewrite (skipn_nth _ _ _ En). cbn [flat_map emarks dleft app]. rewrite Hg. reflexivity. }
  destruct A9 as [[-> A9]|(ref & v' & -> & A9 & A10)]; cbn [r_next r_delayed r_flow app] in H.
  - apply IH in H as (-> & H1 & H2 & H3 & H4 & H5 & H6 & new & H7 & H8 & H9); [|apply tp_todo; [exact A8|left; reflexivity]|reflexivity].
    cbn [with_todo f_elems f_index f_sindex f_sdelayed] in *.
    split; [reflexivity|]. split; [exact H1|]. split; [exact (keep_trans _ _ _ A3 H2)|]. split; [congruence|]. split; [congruence|]. split; [exact (kinds_trans _ _ _ A2 H5)|]. split; [exact H6|].
    exists ([p] ++ new). split; [rewrite H7, A1, <- app_assoc; reflexivity|]. split; [|exact H9].
    rewrite Htd, A9, (placed_marks_app ids_of [p]), <- app_assoc. f_equal. rewrite <- H8. unfold todo. cbn [dleft app]. rewrite A4, He. reflexivity.
  - injection H as <- <- <- <-. split; [reflexivity|]. split; [apply tp_todo; [exact A8|right; eauto]|]. split; [exact A3|]. split; [exact A6|]. split; [exact A7|]. split; [exact A2|].
    split; [exact A9|]. exists [p]. split; [exact A1|]. split; [|right; reflexivity].
    rewrite Htd, A10. unfold todo. cbn [with_todo f_elems f_index f_delayed]. rewrite A4, He, app_assoc. reflexivity.
Qed.
Lemma after_next' f (g : glob) : tp f -> exists f1, after Next f [] g = Done (Return Interrupt, (f1, [], g)) /\ keep f f1 /\ f_cols f1 = 1 /\
  f_sdelayed f1 = f_delayed f /\ f_sindex f1 = f_index f.
Proof.
  intros Hf. unfold after. cbn [next_section]. rewrite (tp_col f Hf), (tp_cols f Hf), (tp_res f Hf). cbn [Nat.eqb].
  eexists. split; [reflexivity|]. split; [repeat split|]. split; [apply (tp_cols f Hf)|]. split; reflexivity.
Qed.

(** One run of a box. *)
Theorem loop_acc rec fuel f g act f' anc' g' : tp f -> loop start crun save restore rec fuel f [] g = Done (act, (f', anc', g')) ->
  keep f f' /\ f_cols f' = 1 /\ few (f_sdelayed f') /\ kinds (g_heap g) (g_heap g') /\ valid (g_heap g) (f_delayed f) /\ (f_sdelayed f = f_delayed f -> valid (g_heap g') (f_sdelayed f')) /\
  exists new, g_parts g' = g_parts g ++ new /\
    match act with
    | None => todo (g_heap g) (f_elems f) (f_index f) (f_delayed f) = placed_marks new
    | Some _ => todo (g_heap g) (f_elems f) (f_index f) (f_delayed f) = placed_marks new ++ todo (g_heap g') (f_elems f') (f_sindex f') (f_sdelayed f')
    end.
Proof.
  intros Hf H. destruct fuel as [|fuel]; [discriminate|]. cbn [loop] in H.
  destruct (add_delayed start crun save restore fuel 0 f g) as [[[a1 f1] g1]| |] eqn:E1; try discriminate. cbn [abind] in H.
  apply add_delayed_acc in E1 as (A1 & A2 & A3 & A4 & A5 & A6 & A6' & new1 & A7 & A8 & A9); [|exact Hf].
  destruct A9 as [[-> A9]| ->].
  2:{ destruct (after_next' f1 g1 A1) as (f2 & B1 & B2 & B3 & B4 & B5). rewrite B1 in H. cbn [abind] in H. injection H as <- <- <- <-.
      split; [exact (keep_trans _ _ _ A2 B2)|]. split; [exact B3|]. split; [rewrite B4; apply (tp_del f1 A1)|]. split; [exact A5|]. split; [exact A6|]. split; [rewrite B4; intros _; exact A6'|].
      exists new1. split; [exact A7|]. rewrite A8, B4, B5. destruct B2 as (-> & _). reflexivity. }
  cbn [after abind] in H.
  destruct (add_elements start crun save restore rec fuel f1 [] g1) as [[a2 [[f2 anc2] g2]]| |] eqn:E2; try discriminate. cbn [abind] in H.
  apply add_elements_acc in E2 as (-> & C1 & C2 & C3 & C4 & C5 & C6 & new2 & C7 & C8 & C9); [|exact A1|exact A9].
  rewrite A9, C8 in A8.
  destruct C9 as [(-> & C9 & C10)| ->].
  - cbn [after abind] in H. rewrite C9, (tp_res f2 C1), (tp_cols f2 C1) in H. cbn in H. injection H as <- <- <- <-.
    split; [exact (keep_trans _ _ _ A2 C2)|]. split; [apply (tp_cols f2 C1)|]. split; [rewrite C4, A4; apply (tp_sdel f Hf)|]. split; [exact (kinds_trans _ _ _ A5 C5)|]. split; [exact A6|].
    split. { intros Hs s r v X. rewrite C4, A4, Hs in X. destruct (A6 _ _ _ X) as [o Ho]. destruct (kinds_trans _ _ _ A5 C5 _ _ Ho) as (o' & Ho' & _). eauto. }
    exists (new1 ++ new2). split; [rewrite C7, A7, app_assoc; reflexivity|]. rewrite A8, placed_marks_app. unfold todo. rewrite C9, C10. cbn [dleft flat_map app]. rewrite !app_nil_r. reflexivity.
  - destruct (after_next' f2 g2 C1) as (f3 & B1 & B2 & B3 & B4 & B5). rewrite B1 in H. cbn [abind] in H. injection H as <- <- <- <-.
    split; [exact (keep_trans _ _ _ (keep_trans _ _ _ A2 C2) B2)|]. split; [exact B3|]. split; [rewrite B4; apply (tp_del f2 C1)|]. split; [exact (kinds_trans _ _ _ A5 C5)|]. split; [exact A6|].
    split; [rewrite B4; intros _; exact C6|].
    exists (new1 ++ new2). split; [rewrite C7, A7, app_assoc; reflexivity|]. rewrite A8, B4, B5, placed_marks_app, app_assoc. destruct B2 as (-> & _). reflexivity.
Qed.

(** A box of paragraphs between pages, with the marks [t] left. *)
Definition text_box (elems : list elem) (c : @content E O S) (t : list str) : Prop :=
  c_elems c = elems /\ c_cols c = 1 /\ Forall leafy elems /\
  match c_part c with
  | None => t = flat_map emarks elems
  | Some f => f_elems f = elems /\ f_cols f = 1 /\ few (f_sdelayed f) /\ valid (c_heap c) (f_sdelayed f) /\ t = todo (c_heap c) elems (f_sindex f) (f_sdelayed f)
  end.

Theorem run_acc elems fuel x y w h c t c' out : text_box elems c t -> run start crun save restore fuel x y w h c = Done (c', out) ->
  exists t', t = placed_marks (o_parts out) ++ t' /\ (c_finished c = false -> if c_finished c' then t' = [] else text_box elems c' t').
Proof.
  intros (T1 & T2 & T3 & T4) H. unfold run in H.
  match type of H with abind ?e _ = _ => destruct e as [f0| |] eqn:E0; try discriminate end. cbn [abind] in H.
  match type of H with abind ?e _ = _ => destruct e as [[act [[f1 anc1] g1]]| |] eqn:E1; try discriminate end. cbn [abind] in H. injection H as <- <-.
  destruct fuel as [|fuel]; [discriminate|]. cbn [run_part] in E1.
  assert (Hf0 : tp f0 /\ f_elems f0 = elems /\ f_sdelayed f0 = f_delayed f0 /\ t = todo (c_heap c) (f_elems f0) (f_index f0) (f_delayed f0)).
  { destruct (c_part c) as [p|].
    - destruct T4 as (P1 & P2 & P3 & P4 & P5). unfold setup in E0. rewrite P2 in E0. injection E0 as <-.
      split; [constructor; cbn; auto; congruence|]. split; [exact P1|]. split; [reflexivity|]. cbn. rewrite P5, P1. reflexivity.
    - unfold new_part, setup in E0. cbn [f_cols] in E0. rewrite T2 in E0. injection E0 as <-.
      split; [constructor; cbn; auto; try (left; reflexivity); congruence|]. cbn. split; [exact T1|]. split; [reflexivity|]. rewrite T4, T1. reflexivity. }
  destruct Hf0 as (Ht & He & Hs & Htd).
  apply loop_acc in E1 as (K1 & K2 & K3 & K4 & K5 & K6 & new & K7 & K8); [|exact Ht]. cbn [g_parts g_heap app o_parts c_finished c_part c_heap c_elems] in *.
  exists (match act with None => [] | Some _ => todo (g_heap g1) (f_elems f1) (f_sindex f1) (f_sdelayed f1) end).
  split. { rewrite Htd, K7. destruct act; rewrite K8; [reflexivity|rewrite app_nil_r; reflexivity]. }
  intros Hfin. destruct act as [a|]; [|reflexivity]. rewrite Hfin. split; [exact T1|]. split; [exact T2|]. split; [exact T3|]. cbn [c_part c_heap].
  destruct K1 as (K1 & _). split; [congruence|]. split; [exact K2|]. split; [exact K3|]. split; [apply K6; exact Hs|]. rewrite K1, He. reflexivity.
Qed.
End Text.
