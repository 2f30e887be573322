(** How the words of a paragraph are kept apart in what it shows, and the
    fonts it says it used. *)
From Coq Require Import String QArith Lia.
From Verif Require Import Py PyStr Gfx TextLayout TextProofs TextWords TextOrder.
Open Scope list_scope.

(** ** Specification *)

(** The pieces of a text between its spaces. *)
Fixpoint pieces_from (cur : str) (s : str) : list str :=
  match s with
  | [] => match cur with [] => [] | _ => [rev cur] end
  | c :: r => if (c =? 32)%N then match cur with [] => pieces_from [] r | _ => rev cur :: pieces_from [] r end
              else pieces_from (c :: cur) r
  end.
Definition pieces (s : str) : list str := pieces_from [] s.

(** ** Words with spaces between them *)

Definition apart (ws : list str) : Prop := forall a u v b, ws = a ++ u :: v :: b -> isspace u = true \/ isspace v = true.
Definition clean (w : str) : Prop := w = sp \/ (no_spaces w /\ w <> [] /\ isspace w = false).
Lemma apart_nil : apart [].
Proof. intros a u v b H. destruct a; discriminate. Qed.
Lemma apart_one w : apart [w].
Proof. intros [|x [|y a]] u v b H; discriminate. Qed.
Lemma apart_tail x ws : apart (x :: ws) -> apart ws.
Proof. intros H a u v b E. apply (H (x :: a) u v b). rewrite E. reflexivity. Qed.
Lemma apart_head ws vs : apart (ws ++ vs) -> apart ws.
Proof. intros H a u v b E. apply (H a u v (b ++ vs)). rewrite E, <- app_assoc. reflexivity. Qed.
Lemma apart_cons x ws : apart ws -> (isspace x = true \/ ws = [] \/ exists r, ws = sp :: r) -> apart (x :: ws).
Proof.
  intros H K [|y a] u v b E; cbn [app] in E; injection E as <- E.
  - subst ws. destruct K as [K|[K|(r & K)]]; [now left|discriminate|]. injection K as -> _. now right.
  - exact (H a u v b E).
Qed.
Lemma apart_app ws vs : apart ws -> apart vs -> (ws = [] \/ vs = [] \/ (exists r, ws = r ++ [sp]) \/ (exists r, vs = sp :: r)) -> apart (ws ++ vs).
Proof.
  induction ws as [|x ws IH]; intros H1 H2 K; [exact H2|]. cbn [app].
  destruct ws as [|y ws].
  - cbn [app]. apply apart_cons; [exact H2|]. destruct K as [K|[K|[(r & K)|K]]]; [discriminate|auto| |auto].
    destruct r as [|? [|? r]]; try discriminate. injection K as ->. now left.
  - assert (Hi : apart ((y :: ws) ++ vs)).
    { apply IH; [exact (apart_tail _ _ H1)|exact H2|]. destruct K as [K|[K|[(r & K)|K]]]; [discriminate|auto| |auto].
      destruct r as [|z r]; [discriminate|]. right. right. left. exists r. injection K as _ K. exact K. }
    intros [|z a] u v b E; cbn [app] in E.
    + injection E as <- <- _. exact (H1 [] x y ws eq_refl).
    + injection E as _ E. exact (Hi a u v b E).
Qed.

Lemma pieces_word w : forall cur r, no_spaces w -> cur ++ w <> [] -> pieces_from cur (w ++ r) = pieces_from (rev w ++ cur) r.
Proof.
  induction w as [|c w IH]; intros cur r H Hn; [reflexivity|]. inversion H as [|? ? Hc Hw]; subst. cbn [app pieces_from].
  destruct (N.eqb_spec c 32) as [E|_]; [contradiction|]. rewrite IH; [|exact Hw|discriminate]. cbn [rev]. now rewrite <- app_assoc.
Qed.
(** The pieces of a text made of such words are the words. *)
Lemma pieces_concat ws : Forall clean ws -> apart ws -> pieces (concat ws) = filter (fun w => negb (isspace w)) ws.
Proof.
  unfold pieces. induction ws as [|w ws IH]; intros H1 H2; [reflexivity|]. inversion H1 as [|? ? Hw Hws]; subst.
  specialize (IH Hws (apart_tail _ _ H2)). cbn [concat filter]. destruct Hw as [->|(Hw & Hne & Hs)].
  - cbn [app sp pieces_from]. change (isspace sp) with true. exact IH.
  - rewrite pieces_word; [|exact Hw|exact Hne]. rewrite Hs, app_nil_r. cbn [negb]. destruct ws as [|v ws].
    + cbn [concat filter pieces_from]. destruct (rev w) eqn:Er; [|rewrite <- Er, rev_involutive; reflexivity].
      exfalso. apply Hne. rewrite <- (rev_involutive w), Er. reflexivity.
    + destruct (H2 [] w v ws eq_refl) as [K|K]; [congruence|]. inversion Hws as [|? ? Hv _]; subst.
      assert (v = sp) as -> by (destruct Hv as [Hv|(_ & _ & Hv)]; [exact Hv|congruence]).
      rewrite <- IH. cbn [concat app sp pieces_from]. change ((32 =? 32)%N) with true. cbn iota.
      destruct (rev w) eqn:Er; [|rewrite <- Er, rev_involutive; reflexivity].
      exfalso. apply Hne. rewrite <- (rev_involutive w), Er. reflexivity.
Qed.

(** ** Tokens *)
Lemma spaces_isspace w : w <> [] -> spaces w -> isspace w = true.
Proof.
  intros Hn H. unfold isspace. destruct w as [|c w]; [congruence|]. apply forallb_forall. intros x Hx.
  unfold spaces in H. rewrite Forall_forall in H. rewrite (H x Hx). reflexivity.
Qed.
Lemma tokenize_clean s : Forall clean (tokenize s).
Proof.
  apply Forall_forall. intros w Hw. destruct (isspace w) eqn:E; [left; exact (tokenize_word _ _ Hw E)|].
  right. unfold tokenize in Hw. apply in_map_iff in Hw as (x & Hx & Hin). destruct (isspace x) eqn:Ex.
  - subst w. discriminate.
  - subst x. destruct (raw_tokens_spec s) as (_ & H & _). destruct (H _ Hin) as [H1 [H2|H2]]; [|auto].
    rewrite (spaces_isspace _ H1 H2) in E. discriminate.
Qed.
Lemma tokenize_apart s : apart (tokenize s).
Proof.
  intros a u v b E. destruct (isspace u) eqn:Eu; [now left|]. destruct (isspace v) eqn:Ev; [now right|]. exfalso.
  unfold tokenize in E. apply map_eq_app in E as (a' & r & Er & Ea & E). apply map_eq_cons in E as (u' & r' & -> & Eu' & E).
  apply map_eq_cons in E as (v' & b' & -> & Ev' & _).
  destruct (isspace u') eqn:E1; [subst u; discriminate|]. destruct (isspace v') eqn:E2; [subst v; discriminate|].
  destruct (raw_tokens_spec s) as (_ & H & H1 & H2).
  destruct (H u') as [Hn [K|K]]; [rewrite Er; apply in_app_iff; right; now left| |].
  - rewrite (spaces_isspace _ Hn K) in E1. discriminate.
  - destruct (H v') as [Hn2 _]; [rewrite Er; apply in_app_iff; right; right; now left|].
    rewrite (spaces_isspace _ Hn2 (H2 _ _ _ _ Er K)) in E2. discriminate.
Qed.

(** ** Lines *)
Section Layout.
Variable round3 : Q -> Q.
Variable text_w : fkey -> str -> Q.
Variable space_w : fkey -> Q.
Variable fref : fkey -> str.
Notation add_word := (add_word text_w space_w).
Notation add_accumulated := (add_accumulated text_w space_w).
Notation next_add := (next_add text_w space_w).
Notation part_add := (part_add text_w space_w).
Notation part_pop := (part_pop text_w space_w).
Notation lwf := (lwf text_w space_w).
Notation run := (run round3 text_w space_w fref).

Definition tidy (p : lpart) : Prop := Forall clean (lp_words p) /\ apart (lp_words p).
Definition single (p : lpart) : Prop := Forall clean (lp_words p) /\ (List.length (lp_words p) <= 1)%nat.
Record split (l : line) : Prop := mkSplit { sl_parts : Forall tidy (l_parts l); sl_next : Forall single (nparts l) }.
(** The part to which words go has none yet. *)
Definition room (l : line) : Prop := exists i x, nparts l = i ++ [x] /\ lp_words x = [].

Lemma single_tidy p : single p -> tidy p.
Proof.
  intros [H1 H2]. split; [exact H1|]. destruct (lp_words p) as [|a [|b r]]; [apply apart_nil|apply apart_one|cbn in H2; lia].
Qed.
Lemma clean_sp : clean sp. Proof. now left. Qed.
Lemma part_add_words p w : lp_words (part_add p w) = lp_words p ++ [w].
Proof. apply (part_add_style text_w space_w). Qed.
Lemma fold_add_words ws : forall p, lp_words (fold_left part_add ws p) = lp_words p ++ ws.
Proof.
  induction ws as [|w ws IH]; intros p; cbn [fold_left]; [now rewrite app_nil_r|]. rewrite IH, part_add_words, <- app_assoc. reflexivity.
Qed.
Lemma upd_last_inv {A} (f : A -> A) l l' : upd_last f l = Ok l' -> exists i x, l = i ++ [x] /\ l' = i ++ [f x].
Proof.
  unfold upd_last. destruct (rev l) as [|x r] eqn:E; [discriminate|]. intros H. injection H as <-. exists (rev r), x.
  split; [|reflexivity]. rewrite <- (rev_involutive l), E. reflexivity.
Qed.
Lemma tidy_add_sp p : tidy p -> tidy (part_add p sp).
Proof.
  intros [H1 H2]. split; rewrite part_add_words.
  - apply Forall_app. split; [exact H1|]. repeat constructor.
  - apply apart_app; [exact H2|apply apart_one|]. right. right. right. now exists [].
Qed.

Lemma accumulate_split l l' : add_accumulated l = Ok l' -> split l ->
  (forall i x, l_parts l = i ++ [x] -> exists ws, lp_words x = ws ++ [sp]) -> split l' /\ room l'.
Proof.
  intros E [H1 H2] Hl. unfold TextLayout.add_accumulated in E. unfold nparts in H2. destruct (l_next l) as [n|]; [|discriminate].
  assert (K : forall ps rest, Forall tidy (ps ++ rest) ->
    (do ps2 <- upd_last (fun p => part_add p sp) (ps ++ rest);
       match rev ps2 with
       | [] => Err IndexError
       | x :: _ => Ok (with_next (with_parts l ps2) (Some (with_parts n [new_part (lp_style x) (lp_ids x)])))
       end) = Ok l' -> split l' /\ room l').
  { intros ps rest Hps. destruct (upd_last _ _) as [ps2|] eqn:Eu; [|discriminate]. cbn [bind].
    destruct (upd_last_inv _ _ _ Eu) as (i & x & E1 & ->). rewrite E1 in Hps. apply Forall_app in Hps as [Hi Hx]. apply Forall_cons_iff in Hx as [Hx _].
    rewrite rev_unit. intros H. injection H as <-. split.
    - constructor; cbn [with_next with_parts l_parts]; [apply Forall_app; split; [exact Hi|constructor; [now apply tidy_add_sp|constructor]]|].
      unfold nparts. cbn [with_next with_parts l_next l_parts]. repeat constructor.
    - unfold room, nparts. cbn [with_next with_parts l_next l_parts]. exists [], (new_part (lp_style (part_add x sp)) (lp_ids (part_add x sp))). split; reflexivity. }
  destruct (l_parts l) as [|p0 r0] eqn:El.
  - cbn [bind] in E. apply (K [] (l_parts n)); [|exact E]. cbn [app]. revert H2. apply Forall_impl. exact single_tidy.
  - destruct (l_parts n) as [|f r]; [discriminate|]. destruct (upd_last _ (p0 :: r0)) as [ps|] eqn:Eu; [|discriminate]. cbn [bind] in E.
    apply (K ps r); [|exact E]. destruct (upd_last_inv _ _ _ Eu) as (i & x & E1 & ->). rewrite E1 in H1.
    destruct (Hl i x E1) as (ws & Hws). apply Forall_app in H1 as [Hi Hx]. apply Forall_cons_iff in Hx as [[Hx1 Hx2] _].
    apply Forall_cons_iff in H2 as [Hf Hr]. apply single_tidy in Hf as [Hf1 Hf2]. apply Forall_app. split; [|revert Hr; apply Forall_impl; exact single_tidy].
    apply Forall_app. split; [exact Hi|]. constructor; [|constructor]. split; rewrite fold_add_words.
    + apply Forall_app. split; assumption.
    + apply apart_app; [exact Hx2|exact Hf2|]. right. right. left. now exists ws.
Qed.
Lemma next_add_split l l' w : next_add l w = Ok l' -> split l -> clean w -> room l ->
  split l' /\ l_parts l' = l_parts l.
Proof.
  intros E [H1 H2] Hw (i & x & Hi & Hx). unfold TextLayout.next_add in E. unfold nparts in H2, Hi. destruct (l_next l) as [n|]; [|discriminate].
  rewrite Hi, upd_last_snoc in E. cbn [bind] in E. injection E as <-. split; [|reflexivity].
  constructor; [exact H1|]. unfold nparts. cbn [with_next with_parts l_next l_parts]. rewrite Hi in H2. apply Forall_app in H2 as [H2 _].
  apply Forall_app. split; [exact H2|]. constructor; [|constructor]. unfold single. rewrite part_add_words, Hx. cbn [app List.length]. split; [constructor; [exact Hw|constructor]|lia].
Qed.
Lemma no_words ps : ltoks ps = [] -> Forall (fun p => lp_words p = []) ps.
Proof.
  induction ps as [|p ps IH]; [constructor|]. rewrite ltoks_cons. intros H. apply app_eq_nil in H as [H1 H2]. constructor; [|auto].
  unfold ptoks in H1. now apply map_eq_nil in H1.
Qed.
Lemma apart_drop_last p : tidy p -> tidy (part_pop p).
Proof.
  unfold TextLayout.part_pop. destruct (rev (lp_words p)) as [|w r] eqn:E; [auto|]. intros [H1 H2].
  assert (Ew : lp_words p = rev r ++ [w]) by (rewrite <- (rev_involutive (lp_words p)), E; reflexivity). rewrite Ew in H1, H2.
  apply Forall_app in H1 as [H1 _]. apply apart_head in H2. destruct (is_sp w); split; assumption.
Qed.

Lemma add_word_split a l w st l' y ids : add_word a l w = Ok (st, l') -> lwf l -> curpart l y ids -> split l -> clean w ->
  (isspace w = false -> room l) ->
  match st with
  | Finished nl => isspace w = false /\ Forall tidy (l_parts l') /\ split nl /\ l_next l' = Some nl /\ l_parts nl = []
  | _ => split l' /\ (isspace w = true -> room l')
  end.
Proof.
  intros E Hwf Hcp Hs Hw Hr.
  assert (Hlast : forall i x, l_parts l = i ++ [x] -> exists ws, lp_words x = ws ++ [sp]).
  { intros i x Hix. destruct (l_started l) eqn:Es.
    - destruct (wf_started _ _ _ Hwf Es) as (i' & x' & ws & f & r & E1 & E2 & _). rewrite E1 in Hix. apply app_inj_tail in Hix as [_ <-]. eauto.
    - rewrite (wf_stopped _ _ _ Hwf Es) in Hix. destruct i; discriminate. }
  assert (Hroom : otoks l = [] -> room l).
  { intros Ho. unfold otoks in Ho. apply no_words in Ho. destruct Hcp as (i & x & Hn & _). exists i, x. split; [exact Hn|].
    rewrite Hn in Ho. apply Forall_app in Ho as [_ Ho]. now apply Forall_cons_iff in Ho as [Ho _]. }
  unfold TextLayout.add_word in E. destruct (l_started l) eqn:Es; cbn [negb] in E.
  - destruct (isspace w) eqn:Ew.
    + destruct (l_lws l) eqn:El.
      * injection E as <- <-. split; [exact Hs|]. intros _. apply Hroom. exact (wf_lws _ _ _ Hwf Es El).
      * destruct (add_accumulated l) as [l1|] eqn:Ea; [|discriminate]. cbn [bind] in E. injection E as <- <-.
        destruct (accumulate_split _ _ Ea Hs Hlast) as [A B]. split; [exact A|auto].
    + destruct (next_add _ w) as [l1|] eqn:Ea; [|discriminate]. cbn [bind] in E.
      destruct (next_add_split (with_flags l false (l_first l) true) l1 w Ea) as [A B]; [constructor; apply Hs|exact Hw|exact (Hr eq_refl)|].
      destruct (l_next l1) as [n|] eqn:En; [|discriminate].
      destruct (qgtb _ _); [injection E as <- <-; split; [exact A|discriminate]|].
      destruct (rev (l_parts l1)) as [|lst init] eqn:Er; [discriminate|]. injection E as <- <-.
      set (l2 := match rev (lp_words lst) with x :: _ => if is_sp x then _ else l1 | [] => l1 end).
      assert (E2 : l_parts l1 = rev init ++ [lst]) by (rewrite <- (rev_involutive (l_parts l1)), Er; reflexivity).
      assert (T : Forall tidy (l_parts l2)).
      { pose proof (sl_parts _ A) as T. subst l2. destruct (rev (lp_words lst)) as [|x ?]; [exact T|]. destruct (is_sp x); [|exact T].
        cbn [with_parts l_parts]. rewrite E2 in T. apply Forall_app in T as [T1 T2]. apply Forall_cons_iff in T2 as [T2 _].
        apply Forall_app. split; [exact T1|]. constructor; [now apply apart_drop_last|constructor]. }
      split; [reflexivity|]. split; [exact T|]. split; [|split; reflexivity].
      constructor; [constructor|]. unfold nparts. cbn [l_next l_parts]. pose proof (sl_next _ A) as T3. unfold nparts in T3. rewrite En in T3. exact T3.
  - destruct (isspace w) eqn:Ew.
    + destruct (l_first l) eqn:Ef.
      * destruct (add_accumulated _) as [l1|] eqn:Ea; [|discriminate]. cbn [bind] in E. injection E as <- <-.
        destruct (accumulate_split _ _ Ea) as [A B]; [constructor; apply Hs|exact Hlast|]. split; [exact A|auto].
      * injection E as <- <-. split; [exact Hs|]. intros _. apply Hroom. exact (wf_first _ _ _ Hwf Es Ef).
    + destruct (next_add _ w) as [l1|] eqn:Ea; [|discriminate]. cbn [bind] in E. injection E as <- <-.
      destruct (next_add_split (with_flags l (l_lws l) true false) l1 w Ea) as [A B]; [constructor; apply Hs|exact Hw|exact (Hr eq_refl)|].
      split; [exact A|discriminate].
Qed.

(** ** Runs *)

Definition fonts_in (ks : list fkey) (ps : list lpart) : Prop := Forall (fun p => In (t_font (y_state (lp_style p))) ks) ps.
Lemma fonts_in_sty ks ps qs : incl (sty ps) qs -> Forall (fun y => In (t_font (y_state y)) ks) qs -> fonts_in ks ps.
Proof.
  intros H1 H2. apply Forall_forall. intros p Hp. rewrite Forall_forall in H2. apply H2, H1. unfold sty. now apply in_map.
Qed.
Lemma fonts_sty ks ps : fonts_in ks ps -> Forall (fun y => In (t_font (y_state y)) ks) (sty ps).
Proof. unfold sty, fonts_in. rewrite Forall_map. auto. Qed.
Lemma fonts_more ks ks' ps : incl ks ks' -> fonts_in ks ps -> fonts_in ks' ps.
Proof. intros H. apply Forall_impl. auto. Qed.
Lemma sty_app ps qs : sty (ps ++ qs) = sty ps ++ sty qs.
Proof. apply map_app. Qed.

(** The lines that were put out: their words are kept apart, and their fonts
    are among those of the run. *)
Definition lines_tidy (d : dyn) : Prop := Forall (fun l => Forall tidy (l_parts l) /\ fonts_in (d_used d) (l_parts l)) (d_lines d).
Record run_inv (d : dyn) (cur : line) : Prop := mkRunInv {
  rv_wf : lwf cur; rv_split : split cur; rv_lines : lines_tidy d;
  rv_fonts : fonts_in (d_used d ++ d_cused d) (l_parts cur ++ nparts cur) }.
Section Run.
Variable c : config.
Definition split_W (p i : nat) (d : dyn) (cur : line) : Prop :=
  run_inv d cur /\ exists t y ids, nth_error (c_content c) p = Some (CText t y ids) /\ curpart cur y ids /\
    (forall w, nth_error (tokenize t) i = Some w -> isspace w = false -> room cur).
Lemma lines_more d d' : d_lines d' = d_lines d -> d_used d' = d_used d -> lines_tidy d -> lines_tidy d'.
Proof. unfold lines_tidy. now intros -> ->. Qed.
Lemma inv_same d d' cur : d_lines d' = d_lines d -> d_used d' = d_used d -> d_cused d' = d_cused d -> run_inv d cur -> run_inv d' cur.
Proof. intros H1 H2 H3 [A B C D]. constructor; try assumption; [exact (lines_more _ _ H1 H2 C)|now rewrite H2, H3]. Qed.
Lemma line_out d cur b go d1 : add_current_line round3 space_w fref c d cur b = Ok (go, d1) -> lines_tidy d ->
  Forall tidy (l_parts cur) -> Forall tidy (nparts cur) -> fonts_in (d_used d ++ d_cused d) (l_parts cur ++ nparts cur) ->
  lines_tidy d1 /\ incl (d_used d ++ d_cused d) (d_used d1 ++ d_cused d1) /\ (go = true -> d_used d1 = d_used d ++ d_cused d).
Proof.
  intros E Hl H1 H2 Hf. apply add_current_line_spec in E. destruct go.
  - destruct E as (e & x & q & f & k & _ & _ & ->). cbn [accept d_used d_cused]. split; [|split; [rewrite app_nil_r; apply incl_refl|reflexivity]].
    unfold lines_tidy. cbn [accept d_lines d_used]. apply Forall_app. split.
    + revert Hl. apply Forall_impl. intros l [K1 K2]. split; [exact K1|]. revert K2. apply fonts_more. intros z Hz. apply in_app_iff. now left.
    + constructor; [|constructor]. rewrite flush_parts. apply Forall_app in Hf as [Hf1 Hf2].
      destruct b; [|split; assumption]. split; apply Forall_app; split; assumption.
  - destruct E as [_ ->]. split; [exact Hl|]. split; [apply incl_refl|discriminate].
Qed.
Lemma begin_part_used y ids d cur d1 cur1 : begin_part text_w c y ids d cur = Ok (d1, cur1) ->
  d_used d1 = d_used d /\ incl (d_cused d ++ [t_font (y_state y)]) (d_cused d1).
Proof.
  unfold begin_part. destruct (c_list c) as [li|]; [destruct (d_listdone d)|]; cbn [bind].
  - intros H. injection H as <- <-. split; [reflexivity|]. apply incl_refl.
  - unfold setup_list. destruct (l_next _) as [n|]; [|discriminate]. destruct (l_parts n) as [|p0 r0]; [discriminate|]. cbn [bind].
    intros H. injection H as <- <-. cbn [add_used d_used d_cused]. split; [reflexivity|]. intros z Hz. rewrite !in_app_iff in *. tauto.
  - intros H. injection H as <- <-. split; [reflexivity|]. apply incl_refl.
Qed.

Theorem split_ind : run_ind round3 text_w space_w fref c (fun _ => run_inv) split_W lines_tidy.
Proof.
  constructor.
  - auto.
  - intros p d cur go d1 Hp [A B C D] E. destruct (line_out _ _ _ _ _ E) as (K1 & K2 & K3).
    + exact C.
    + apply B.
    + generalize (sl_next _ B). apply Forall_impl. exact single_tidy.
    + exact D.
    + destruct go; [|exact K1]. constructor; [apply new_line_lwf|constructor; constructor|exact K1|constructor].
  - intros p d cur t y ids d1 cur1 Hp [A B C D] E.
    destruct (begin_part_spec _ _ _ _ _ _ _ _ E) as (Hs & _ & H1 & H2 & _).
    destruct (begin_part_lwf _ _ _ _ _ _ _ _ _ E A) as (Hwf & Hcp & _).
    destruct (begin_part_used _ _ _ _ _ _ E) as [U1 U2].
    split.
    + constructor; [exact Hwf| | |].
      * constructor; [rewrite H1; apply B|]. rewrite H2. apply Forall_app. split; [apply B|]. repeat constructor.
      * apply (lines_more d); [apply (sp_lines _ _ Hs)|exact U1|exact C].
      * rewrite H1, H2, app_assoc, U1. apply Forall_app. split.
        -- revert D. apply fonts_more. intros z Hz. rewrite !in_app_iff in *. destruct Hz as [Hz|Hz]; [now left|right]. apply U2. apply in_app_iff. now left.
        -- constructor; [|constructor]. apply in_app_iff. right. apply U2. apply in_app_iff. right. now left.
    + exists t, y, ids. split; [exact Hp|]. split; [exact Hcp|]. intros w _ _. exists (nparts cur), (new_part y ids). split; [exact H2|reflexivity].
  - intros p i d cur t y ids w st cur1 Hp Hi [[A B C D] (t' & y' & ids' & Hp' & Hcp & Hroom)] E.
    rewrite Hp in Hp'. injection Hp' as <- <- <-.
    assert (Hg : good_word w) by (apply (good_token t), (nth_error_In _ i), Hi).
    assert (Hc : clean w) by (pose proof (tokenize_clean t) as K; rewrite Forall_forall in K; apply K, (nth_error_In _ i), Hi).
    destruct (add_word_spec text_w space_w (c_align c) cur w y ids A Hcp Hg) as (st' & cur1' & E' & _ & Hst1 & H).
    rewrite E in E'. injection E' as <- <-.
    pose proof (add_word_split _ _ _ _ _ _ _ E A Hcp B Hc (Hroom w Hi)) as K.
    assert (Hnext : isspace w = false -> forall v, nth_error (tokenize t) (S i) = Some v -> isspace v = false -> False).
    { intros Hw v Hv Hvs. apply nth_error_split in Hi as (la & lb & Et & Hla).
      rewrite Et, nth_error_app2 in Hv by lia. replace (S i - List.length la)%nat with 1%nat in Hv by lia. destruct lb as [|v' lb]; [discriminate|].
      injection Hv as ->. destruct (tokenize_apart t _ _ _ _ Et) as [Hx|Hx]; congruence. }
    assert (Hnr : forall cur2, (isspace w = true -> room cur2) -> forall v, nth_error (tokenize t) (S i) = Some v -> isspace v = false -> room cur2).
    { intros cur2 H2 v Hv Hvs. destruct (isspace w) eqn:Ew; [auto|]. destruct (Hnext eq_refl v Hv Hvs). }
    pose proof (fonts_sty _ _ D) as Hf. rewrite sty_app in Hf.
    destruct st as [| | |nl].
    + destruct H as (Hwf & Hcp1 & Hn1 & _). destruct K as [K1 K2]. split.
      * apply (inv_same d); try reflexivity. constructor; try assumption. apply (fonts_in_sty _ _ _ (incl_refl _)).
        rewrite sty_app. apply Forall_app. split; rewrite Forall_forall in *; auto.
      * exists t, y, ids. split; [exact Hp|]. split; [exact Hcp1|]. exact (Hnr _ K2).
    + destruct H as (Ew & -> & _). destruct K as [K1 K2]. split; [constructor; assumption|].
      exists t, y, ids. split; [exact Hp|]. split; [exact Hcp|]. exact (Hnr _ K2).
    + destruct H as (Hwf & Hcp1 & Hn1 & _ & _ & _ & Hpp & _). destruct K as [K1 K2]. split.
      * constructor; try assumption. apply (fonts_in_sty _ _ _ (incl_refl _)).
        rewrite sty_app. apply Forall_app in Hf as [Hf1 Hf2]. apply Forall_app. split; [now rewrite Hpp|]. rewrite Forall_forall in *; auto.
      * exists t, y, ids. split; [exact Hp|]. split; [exact Hcp1|]. exact (Hnr _ K2).
    + intros go d1 mx El Em. destruct H as (_ & _ & Hwfn & Hcpn & Hpn & _ & _ & Hnx & _ & Hn1 & _). destruct K as (Ew & K1 & K2 & K3 & K4).
      assert (Hn0 : nparts cur1 = []) by (unfold nparts; rewrite Hnx; exact Hpn).
      destruct (line_out _ _ _ _ _ El) as (L1 & L2 & L3).
      * exact C.
      * exact K1.
      * rewrite Hn0. constructor.
      * rewrite Hn0, app_nil_r. apply (fonts_in_sty _ _ _ Hst1 Hf).
      * destruct go; [|exact L1]. destruct (relimit_same mx nl) as [R1 R2]. split.
        -- constructor; [apply relimit_lwf; exact Hwfn| |exact L1|].
           ++ constructor; [exact (sl_parts _ K2)|rewrite R2; exact (sl_next _ K2)].
           ++ apply (fonts_more _ _ _ L2). change (l_parts (relimit mx nl)) with (l_parts nl). rewrite K4, R2. cbn [app].
              apply (fonts_in_sty _ _ _ Hn1). apply Forall_app in Hf as [_ Hf]. exact Hf.
        -- exists t, y, ids. split; [exact Hp|]. split; [unfold curpart; rewrite R2; exact Hcpn|].
           intros v Hv Hvs. destruct (Hnext Ew v Hv Hvs).
  - intros p i d cur t y ids Hp Hi [H _]. apply (inv_same d); try reflexivity. exact H.
  - intros p d cur go d1 Hp [A B C D] E. destruct (line_out _ _ _ _ _ E) as (K1 & _ & _).
    + exact C.
    + apply B.
    + generalize (sl_next _ B). apply Forall_impl. exact single_tidy.
    + exact D.
    + destruct go; exact K1.
Qed.
Theorem run_tidy d w h d' : run c d w h = Ok d' -> lines_tidy d'.
Proof.
  apply (run_induction round3 text_w space_w fref c _ _ _ split_ind). constructor.
  - apply new_line_lwf.
  - constructor; constructor.
  - constructor.
  - constructor.
Qed.
End Run.
End Layout.
