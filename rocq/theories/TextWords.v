(** What a line is made of while words are added to it. *)
From Coq Require Import String QArith Lqa.
From Verif Require Import Py PyStr Gfx TextLayout TextProofs.
Open Scope list_scope.

Section Layout.
Variable text_w : fkey -> str -> Q.
Variable space_w : fkey -> Q.
Notation add_word := (add_word text_w space_w).
Notation add_accumulated := (add_accumulated text_w space_w).
Notation next_add := (next_add text_w space_w).
Notation part_add := (part_add text_w space_w).
Notation part_pop := (part_pop text_w space_w).

(** ** Width of tokens *)

(** Specification: the width of a text when a space is [f] times as wide as
    in its font. *)
Definition tok_width (f : Q) (t : tok) : Q :=
  match t with
  | TWord y _ w => word_w text_w y w
  | TSpace y => (spw space_w y * f)%Q
  | TBr => 0%Q
  end.
Definition width_of (f : Q) (ts : list tok) : Q := fold_right (fun t q => (tok_width f t + q)%Q) 0%Q ts.
Lemma width_of_app f a b : (width_of f (a ++ b) == width_of f a + width_of f b)%Q.
Proof.
  induction a as [|t a IH]; cbn [app width_of fold_right]; [now rewrite Qplus_0_l|].
  fold (width_of f (a ++ b)) (width_of f a). rewrite IH. ring.
Qed.

Definition ptoks (p : lpart) : list tok := map (tok_of (lp_style p) (lp_ids p)) (lp_words p).
Lemma ltoks_app a b : ltoks (a ++ b) = ltoks a ++ ltoks b.
Proof. apply flat_map_app. Qed.
Lemma ltoks_one p : ltoks [p] = ptoks p.
Proof. unfold ltoks. cbn. apply app_nil_r. Qed.
Lemma ltoks_cons p r : ltoks (p :: r) = ptoks p ++ ltoks r.
Proof. reflexivity. Qed.

Definition good_word (w : str) : Prop := is_sp w = isspace w.
Lemma good_sp : good_word sp. Proof. reflexivity. Qed.
Lemma good_token s w : In w (tokenize s) -> good_word w.
Proof.
  intros H. unfold good_word. destruct (isspace w) eqn:E.
  - rewrite (tokenize_word _ _ H E). reflexivity.
  - unfold is_sp. destruct (str_eqb w sp) eqn:E2; [|reflexivity]. apply str_eqb_eq in E2. subst w. discriminate.
Qed.

(** The cached widths are the widths of the words. *)
Definition part_ok (p : lpart) : Prop :=
  Forall good_word (lp_words p) /\ forall f, (part_width p f == width_of f (ptoks p))%Q.
Definition parts_ok := Forall part_ok.
Lemma new_part_ok y ids : part_ok (new_part y ids).
Proof. split; [constructor|]. intros f. unfold part_width. cbn. ring. Qed.

Lemma part_add_style p w : lp_style (part_add p w) = lp_style p /\ lp_ids (part_add p w) = lp_ids p
  /\ lp_words (part_add p w) = lp_words p ++ [w].
Proof. unfold TextLayout.part_add. destruct (is_sp w); repeat split. Qed.
Lemma part_add_toks p w : ptoks (part_add p w) = ptoks p ++ [tok_of (lp_style p) (lp_ids p) w].
Proof.
  destruct (part_add_style p w) as (H1 & H2 & H3). unfold ptoks. rewrite H1, H2, H3. apply map_app.
Qed.
Lemma part_add_ok p w : good_word w -> part_ok p -> part_ok (part_add p w).
Proof.
  intros Hw [Hg Hf]. split.
  - destruct (part_add_style p w) as (_ & _ & ->). apply Forall_app. split; [exact Hg|]. repeat constructor. exact Hw.
  - intros f. rewrite part_add_toks, width_of_app, <- Hf. unfold TextLayout.part_add, part_width, tok_of.
    unfold good_word in Hw. rewrite <- Hw. destruct (is_sp w); cbn; ring.
Qed.
Lemma fold_part_add ws : forall p, Forall good_word ws -> part_ok p ->
  let q := fold_left part_add ws p in
  part_ok q /\ lp_style q = lp_style p /\ lp_ids q = lp_ids p /\
  ptoks q = ptoks p ++ map (tok_of (lp_style p) (lp_ids p)) ws.
Proof.
  induction ws as [|w ws IH]; intros p Hw Hp q; subst q; cbn [fold_left map].
  - rewrite app_nil_r. repeat split; apply Hp.
  - apply Forall_cons_iff in Hw as [Hw1 Hw2].
    destruct (part_add_style p w) as (H1 & H2 & _).
    destruct (IH (part_add p w) Hw2 (part_add_ok _ _ Hw1 Hp)) as (A & B & C & D).
    rewrite H1 in B, D. rewrite H2 in C, D. rewrite D, part_add_toks, <- app_assoc.
    repeat split; try assumption; apply A.
Qed.

Lemma upd_last_snoc {A} (f : A -> A) l x : upd_last f (l ++ [x]) = Ok (l ++ [f x]).
Proof. unfold upd_last. rewrite rev_unit, rev_involutive. reflexivity. Qed.
Lemma snoc_cases {A} (l : list A) : l = [] \/ exists i x, l = i ++ [x].
Proof. destruct l using rev_ind; [left; reflexivity|right; eauto]. Qed.

(** The sums kept for a line are the sums over its parts. *)
Lemma words_w_from ps : forall q, (fold_left (fun q p => q + lp_width p) ps q == q + words_w ps)%Q.
Proof.
  unfold words_w. induction ps as [|p ps IH]; intros q; cbn [fold_left]; [ring|].
  rewrite IH, (IH (0 + lp_width p)%Q). ring.
Qed.
Lemma spaces_w_from ps : forall q, (fold_left (fun q p => q + lp_spaces p) ps q == q + spaces_w ps)%Q.
Proof.
  unfold spaces_w. induction ps as [|p ps IH]; intros q; cbn [fold_left]; [ring|].
  rewrite IH, (IH (0 + lp_spaces p)%Q). ring.
Qed.
Lemma words_w_cons p ps : (words_w (p :: ps) == lp_width p + words_w ps)%Q.
Proof. unfold words_w at 1. cbn [fold_left]. rewrite words_w_from. ring. Qed.
Lemma spaces_w_cons p ps : (spaces_w (p :: ps) == lp_spaces p + spaces_w ps)%Q.
Proof. unfold spaces_w at 1. cbn [fold_left]. rewrite spaces_w_from. ring. Qed.
Lemma line_width ps f : parts_ok ps -> (words_w ps + spaces_w ps * f == width_of f (ltoks ps))%Q.
Proof.
  induction 1 as [|p ps [_ Hp] _ IH]; [cbn; ring|].
  rewrite ltoks_cons, width_of_app, <- IH, <- Hp, words_w_cons, spaces_w_cons.
  unfold part_width. ring.
Qed.

(** ** The shape of a line *)

Definition same_style (p q : lpart) : Prop := lp_style p = lp_style q /\ lp_ids p = lp_ids q.
Definition ctoks (l : line) : list tok := ltoks (l_parts l).
Definition nparts (l : line) : list lpart := match l_next l with Some n => l_parts n | None => [] end.
Definition otoks (l : line) : list tok := ltoks (nparts l).
Record lwf (l : line) : Prop := {
  wf_parts : parts_ok (l_parts l);
  wf_nparts : parts_ok (nparts l);
  wf_words : forallb is_word (otoks l) = true;
  wf_stopped : l_started l = false -> l_parts l = [];
  wf_started : l_started l = true -> exists init lst ws f r,
    l_parts l = init ++ [lst] /\ lp_words lst = ws ++ [sp] /\ nparts l = f :: r /\ same_style lst f;
  wf_first : l_started l = false -> l_first l = false -> otoks l = [];
  wf_lws : l_started l = true -> l_lws l = true -> otoks l = [];
  wf_next : forall n, l_next l = Some n -> l_started n = false /\ l_lws n = true }.
Definition ready (l : line) : Prop := nparts l <> [].
(** The part to which words go has style [y] and ids [ids]. *)
Definition curpart (l : line) (y : style) (ids : list str) : Prop :=
  exists i x, nparts l = i ++ [x] /\ lp_style x = y /\ lp_ids x = ids.
Lemma curpart_ready l y ids : curpart l y ids -> ready l.
Proof. intros (i & x & H & _). unfold ready. rewrite H. destruct i; discriminate. Qed.
Definition sty (ps : list lpart) : list style := map lp_style ps.

Lemma nparts_some l : ready l -> exists n, l_next l = Some n /\ nparts l = l_parts n.
Proof. unfold ready, nparts. destruct (l_next l) as [n|]; [eauto|congruence]. Qed.

(** What [add_accumulated] does. *)
Lemma accumulate l n : l_next l = Some n -> l_parts n <> [] -> parts_ok (l_parts l) -> parts_ok (l_parts n) ->
  (forall init lst, l_parts l = init ++ [lst] -> exists f r, l_parts n = f :: r /\ same_style lst f) ->
  exists init lst ws y, add_accumulated l =
      Ok (with_next (with_parts l (init ++ [lst])) (Some (with_parts n [new_part (lp_style lst) (lp_ids lst)]))) /\
    lp_words lst = ws ++ [sp] /\ parts_ok (init ++ [lst]) /\
    ltoks (init ++ [lst]) = ltoks (l_parts l) ++ ltoks (l_parts n) ++ [TSpace y] /\
    incl (sty (init ++ [lst])) (sty (l_parts l) ++ sty (l_parts n)) /\
    (forall i x, l_parts n = i ++ [x] -> same_style lst x /\ y = lp_style x).
Proof.
  intros Hn Hne Hp Hnp Hlink. unfold TextLayout.add_accumulated. rewrite Hn.
  assert (Hfin : forall ps rest, ps ++ rest <> [] -> parts_ok (ps ++ rest) ->
    exists init lst ws y,
      (do ps2 <- upd_last (fun p => part_add p sp) (ps ++ rest);
       match rev ps2 with
       | [] => Err IndexError
       | x :: _ => Ok (with_next (with_parts l ps2) (Some (with_parts n [new_part (lp_style x) (lp_ids x)])))
       end) = Ok (with_next (with_parts l (init ++ [lst])) (Some (with_parts n [new_part (lp_style lst) (lp_ids lst)]))) /\
      lp_words lst = ws ++ [sp] /\ parts_ok (init ++ [lst]) /\ ltoks (init ++ [lst]) = ltoks (ps ++ rest) ++ [TSpace y] /\
      sty (init ++ [lst]) = sty (ps ++ rest) /\
      (forall i x, ps ++ rest = i ++ [x] -> same_style lst x /\ y = lp_style x)).
  { intros ps rest Hnn Hok. destruct (snoc_cases (ps ++ rest)) as [H|(i & x & H)]; [contradiction|].
    rewrite H in *. rewrite upd_last_snoc. cbn [bind]. rewrite rev_unit.
    destruct (part_add_style x sp) as (H1 & H2 & H3).
    exists i, (part_add x sp), (lp_words x), (lp_style x). split; [reflexivity|]. split; [exact H3|].
    apply Forall_app in Hok as [Hok1 Hok2]. apply Forall_cons_iff in Hok2 as [Hok2 _].
    split; [apply Forall_app; split; [exact Hok1|]; repeat constructor; apply (part_add_ok _ _ good_sp Hok2)|].
    split.
    - rewrite !ltoks_app, !ltoks_one, part_add_toks, app_assoc. reflexivity.
    - split; [unfold sty; rewrite !map_app; cbn [map]; rewrite H1; reflexivity|].
      intros i' x' Hix. apply app_inj_tail in Hix as [_ <-]. repeat split; assumption. }
  destruct (l_parts l) as [|p0 r0] eqn:El.
  - cbn [bind]. destruct (Hfin [] (l_parts n)) as (i & x & ws & y & A & B & C & D & S & T); [exact Hne|exact Hnp|].
    exists i, x, ws, y. split; [exact A|]. split; [exact B|]. split; [exact C|]. split; [exact D|].
    rewrite S. split; [apply incl_refl|exact T].
  - destruct (snoc_cases (l_parts l)) as [H|(i & x & H)]; [congruence|].
    rewrite El in H. destruct (Hlink i x H) as (f & r & Hnf & Hs1 & Hs2).
    rewrite Hnf in *. rewrite H in *. clear El H p0 r0. apply Forall_app in Hp as [Hp1 Hp2].
    apply Forall_cons_iff in Hp2 as [Hp2 _]. apply Forall_cons_iff in Hnp as [[Hf1 Hf2] Hnp2].
    destruct (fold_part_add (lp_words f) x Hf1 Hp2) as (A & B & C & D).
    replace (match i ++ [x] with [] => Ok ([], f :: r) | _ :: _ => do ps <- upd_last (fun p => fold_left part_add (lp_words f) p) (i ++ [x]); Ok (ps, r) end)
      with (do ps <- upd_last (fun p => fold_left part_add (lp_words f) p) (i ++ [x]); Ok (ps, r))
      by (destruct i; reflexivity).
    rewrite upd_last_snoc. cbn [bind].
    destruct (Hfin (i ++ [fold_left part_add (lp_words f) x]) r) as (i2 & x2 & ws & y & A2 & B2 & C2 & D2 & S2 & T2).
    + destruct i; discriminate.
    + apply Forall_app. split; [|exact Hnp2]. apply Forall_app. split; [exact Hp1|]. repeat constructor; apply A.
    + exists i2, x2, ws, y. split; [exact A2|]. split; [exact B2|]. split; [exact C2|]. split.
      * rewrite D2, !ltoks_app, !ltoks_one, D, ltoks_cons. unfold ptoks at 3. rewrite <- Hs1, <- Hs2.
        now rewrite <- !app_assoc.
      * split.
        -- rewrite S2. unfold sty. rewrite !map_app. cbn [map]. rewrite B. rewrite <- !app_assoc.
           intros z Hz. rewrite !in_app_iff in *. cbn in *. tauto.
        -- intros i' x' Hix. destruct (snoc_cases r) as [->|(r1 & x1 & ->)].
           ++ destruct i' as [|? [|? ?]]; try discriminate. injection Hix as <-.
              destruct (T2 i _ (app_nil_r _)) as [[T3 T4] T5]. unfold same_style. rewrite T3, T4, T5, B, C. auto.
           ++ rewrite app_comm_cons in Hix. apply app_inj_tail in Hix as [_ <-].
              apply (T2 (i ++ fold_left part_add (lp_words f) x :: r1)). rewrite <- !app_assoc. reflexivity.
Qed.

(** What [next_add] does. *)
Lemma next_adds l n w : l_next l = Some n -> l_parts n <> [] -> good_word w -> isspace w = false -> parts_ok (l_parts n) ->
  exists ps, next_add l w = Ok (with_next l (Some (with_parts n ps))) /\ parts_ok ps /\
    sty ps = sty (l_parts n) /\ ps <> [] /\
    (forall f r, l_parts n = f :: r -> exists f' r', ps = f' :: r' /\ same_style f f') /\
    (forall i x, l_parts n = i ++ [x] -> ltoks ps = ltoks (l_parts n) ++ [TWord (lp_style x) (lp_ids x) w] /\
       exists i' x', ps = i' ++ [x'] /\ same_style x x').
Proof.
  intros Hn Hne Hg Hw Hok. unfold TextLayout.next_add. rewrite Hn.
  destruct (snoc_cases (l_parts n)) as [H|(i & x & H)]; [contradiction|].
  rewrite H in *. rewrite upd_last_snoc. cbn [bind].
  destruct (part_add_style x w) as (H1 & H2 & H3).
  apply Forall_app in Hok as [Hok1 Hok2]. apply Forall_cons_iff in Hok2 as [Hok2 _].
  exists (i ++ [part_add x w]). split; [reflexivity|].
  split; [apply Forall_app; split; [exact Hok1|]; repeat constructor; apply (part_add_ok _ _ Hg Hok2)|].
  split; [unfold sty; rewrite !map_app; cbn [map]; rewrite H1; reflexivity|].
  split; [destruct i; discriminate|]. split.
  2:{ intros i' x' Hix. apply app_inj_tail in Hix as [_ <-].
      split; [rewrite !ltoks_app, !ltoks_one, part_add_toks, app_assoc; unfold tok_of; rewrite Hw; reflexivity|].
      exists i, (part_add x w). repeat split; symmetry; assumption. }
  intros f r Hf. destruct i as [|i0 i]; cbn in Hf; injection Hf as <- <-; cbn [app].
  - exists (part_add x w), []. repeat split; symmetry; assumption.
  - exists i0, (i ++ [part_add x w]). repeat split.
Qed.

Lemma part_pop_sp p ws : lp_words p = ws ++ [sp] -> part_ok p ->
  lp_words (part_pop p) = ws /\ lp_style (part_pop p) = lp_style p /\ lp_ids (part_pop p) = lp_ids p /\
  part_ok (part_pop p) /\ ptoks p = ptoks (part_pop p) ++ [TSpace (lp_style p)].
Proof.
  intros H [Hg Hf]. unfold TextLayout.part_pop. rewrite H, rev_unit. cbn [is_sp]. change (is_sp sp) with true.
  cbn iota. cbn [lp_words lp_style lp_ids]. rewrite rev_involutive. rewrite H in Hg.
  apply Forall_app in Hg as [Hg _].
  assert (Ht : ptoks p = map (tok_of (lp_style p) (lp_ids p)) ws ++ [TSpace (lp_style p)]).
  { unfold ptoks. rewrite H, map_app. reflexivity. }
  split; [reflexivity|]. split; [reflexivity|]. split; [reflexivity|]. split; [|exact Ht].
  split; [exact Hg|]. intros f. specialize (Hf f). rewrite Ht, width_of_app in Hf. cbn in Hf.
  unfold part_width in *. unfold ptoks. cbn [lp_width lp_spaces lp_style lp_ids lp_words].
  set (A := width_of f _) in *. set (B := spw space_w _) in *. clearbody A B.
  assert (E : (A == lp_width p + lp_spaces p * f - B * f)%Q) by (rewrite Hf; ring). rewrite E. ring.
Qed.

(** What [add_word] does to a line. *)
Definition unchanged (l l' : line) : Prop := l_max l' = l_max l /\ l_top l' = l_top l.
Definition min_of (a : align) (ts : list tok) : Q := width_of (factor_of a) ts.
Lemma add_word_spec a l w y ids : lwf l -> curpart l y ids -> good_word w ->
  exists st l', add_word a l w = Ok (st, l') /\ unchanged l l' /\
  incl (sty (l_parts l')) (sty (l_parts l) ++ sty (nparts l)) /\
  match st with
  | Added =>
      lwf l' /\ curpart l' y ids /\ incl (sty (nparts l')) (sty (l_parts l) ++ sty (nparts l)) /\
      if isspace w then
        (if l_started l then l_lws l = false else l_first l = true) /\ l_started l' = true /\ otoks l' = [] /\
        ctoks l' = ctoks l ++ otoks l ++ [TSpace y]
      else l_started l = false /\ l_started l' = false /\ ctoks l' = [] /\ otoks l' = otoks l ++ [TWord y ids w]
  | Ignored => isspace w = true /\ l' = l /\ otoks l = []
  | Preadded =>
      lwf l' /\ curpart l' y ids /\ incl (sty (nparts l')) (sty (nparts l)) /\
      isspace w = false /\ l_started l = true /\ l_started l' = true /\ l_parts l' = l_parts l /\
      otoks l' = otoks l ++ [TWord y ids w] /\
      (min_of a (ctoks l ++ otoks l') < l_max l)%Q
  | Finished nl =>
      isspace w = false /\ l_started l = true /\ lwf nl /\ curpart nl y ids /\ l_parts nl = [] /\ l_started nl = false /\
      l_first nl = true /\ l_next l' = Some nl /\
      l_top nl = line_bottom l' /\
      incl (sty (nparts nl)) (sty (nparts l)) /\
      otoks nl = otoks l ++ [TWord y ids w] /\
      (exists y, ctoks l = ctoks l' ++ [TSpace y]) /\ parts_ok (l_parts l') /\
      (l_max l <= min_of a (ctoks l ++ otoks nl))%Q
  end.
Proof.
  intros Hwf Hcp Hg. pose proof (curpart_ready _ _ _ Hcp) as Hr. destruct (nparts_some l Hr) as (n & Hn & Hnp).
  assert (Hne : l_parts n <> []) by (rewrite <- Hnp; exact Hr).
  assert (Hnok : parts_ok (l_parts n)) by (rewrite <- Hnp; apply Hwf).
  assert (Hotoks : otoks l = ltoks (l_parts n)) by (unfold otoks; now rewrite Hnp).
  destruct Hcp as (ci & cx & Hci & Hcy & Hcids). rewrite Hnp in Hci.
  (* accumulation, with the flags *)
  assert (Hacc : forall l0, l_next l0 = Some n -> l_parts l0 = l_parts l -> l_max l0 = l_max l -> l_top l0 = l_top l ->
    l_started l0 = true -> (isspace w = true) ->
    exists l', add_accumulated l0 = Ok l' /\ unchanged l l' /\
      incl (sty (l_parts l')) (sty (l_parts l) ++ sty (nparts l)) /\ lwf l' /\ curpart l' y ids /\
      incl (sty (nparts l')) (sty (l_parts l) ++ sty (nparts l)) /\ l_started l' = true /\ otoks l' = [] /\
      ctoks l' = ctoks l ++ otoks l ++ [TSpace y]).
  { intros l0 H1 H2 H3 H4 H5 H6.
    destruct (accumulate l0 n H1 Hne) as (i & x & ws & y' & A & B & C & D & S & T).
    - rewrite H2. apply Hwf.
    - exact Hnok.
    - intros i x Hix. rewrite H2 in Hix. destruct (l_started l) eqn:Es.
      + destruct (wf_started _ Hwf Es) as (i' & x' & ws & f & r & E1 & E2 & E3 & E4).
        rewrite E1 in Hix. apply app_inj_tail in Hix as [_ <-]. rewrite Hnp in E3. eauto.
      + rewrite (wf_stopped _ Hwf Es) in Hix. destruct i; discriminate.
    - rewrite H2, <- Hnp in S. destruct (T _ _ Hci) as [[T1 T2] T3].
      exists (with_next (with_parts l0 (i ++ [x])) (Some (with_parts n [new_part (lp_style x) (lp_ids x)]))).
      split; [exact A|]. split; [split; assumption|]. split; [exact S|].
      assert (Ho : otoks (with_next (with_parts l0 (i ++ [x])) (Some (with_parts n [new_part (lp_style x) (lp_ids x)]))) = [])
        by reflexivity.
      split; [|split; [|split; [|split; [exact H5|split; [exact Ho|]]]]].
      + constructor; try (intros; exact Ho).
        * exact C.
        * constructor; [apply new_part_ok|constructor].
        * reflexivity.
        * intros Hs. cbn in Hs. congruence.
        * intros _. exists i, x, ws, (new_part (lp_style x) (lp_ids x)), []. repeat split; assumption.
        * intros n' Hn'. cbn in Hn'. injection Hn' as <-. exact (wf_next _ Hwf n Hn).
      + exists [], (new_part (lp_style x) (lp_ids x)). repeat split; cbn [lp_style lp_ids new_part]; congruence.
      + unfold nparts at 1. cbn. intros z [<-|[]]. apply S. unfold sty. rewrite map_app. apply in_app_iff. right. left. reflexivity.
      + unfold ctoks at 1. cbn [l_parts with_next with_parts]. rewrite D, H2, Hotoks, T3, Hcy. reflexivity. }
  unfold TextLayout.add_word. destruct (l_started l) eqn:Es; cbn [negb].
  - destruct (isspace w) eqn:Ew.
    + destruct (l_lws l) eqn:El.
      * exists Ignored, l. split; [reflexivity|]. split; [split; reflexivity|].
        split; [intros z Hz; apply in_app_iff; now left|]. split; [reflexivity|]. split; [reflexivity|].
        exact (wf_lws _ Hwf Es El).
      * destruct (Hacc l Hn eq_refl eq_refl eq_refl Es eq_refl) as (l' & A & B & C & D & E & F & G & H & I).
        exists Added, l'. rewrite A. cbn [bind]. split; [reflexivity|]. split; [exact B|]. split; [exact C|].
        split; [exact D|]. split; [exact E|]. split; [exact F|]. split; [reflexivity|]. split; [exact G|]. split; [exact H|exact I].
    + destruct (next_adds (with_flags l false (l_first l) true) n w Hn Hne Hg Ew Hnok)
        as (ps & A & B & D & E & F & F2).
      destruct (F2 _ _ Hci) as (C & xi & xx & Hxi & Hxy & Hxids). rewrite Hcy in C, Hxy. rewrite Hcids in C, Hxids.
      rewrite A. cbn [bind with_next with_flags l_next l_max l_parts].
      destruct (wf_started _ Hwf Es) as (i & x & ws & f & r & E1 & E2 & E3 & E4).
      rewrite Hnp in E3. destruct (F f r E3) as (f' & r' & -> & Hss).
      assert (Hcp' : exists i x, f' :: r' = i ++ [x] /\ lp_style x = y /\ lp_ids x = ids) by (exists xi, xx; repeat split; congruence).
      assert (Hx : part_ok x).
      { pose proof (wf_parts _ Hwf) as H. rewrite E1 in H. apply Forall_app in H as [_ H]. now apply Forall_cons_iff in H. }
      assert (Hi : parts_ok i).
      { pose proof (wf_parts _ Hwf) as H. rewrite E1 in H. now apply Forall_app in H. }
      assert (Hmin : (min_width a (mkLine (l_max l) (l_parts l) (l_top l) (Some (with_parts n (f' :: r'))) false (l_first l) true)
                      + min_width a (with_parts n (f' :: r')) == min_of a (ctoks l ++ ltoks (f' :: r')))%Q).
      { unfold min_width, min_of. cbn [l_parts with_parts]. rewrite !line_width by (assumption || apply Hwf).
        rewrite <- width_of_app. reflexivity. }
      assert (Hww : forallb is_word (ltoks (f' :: r')) = true).
      { rewrite C, forallb_app, <- Hotoks, (wf_words _ Hwf). reflexivity. }
      unfold with_next, with_flags. cbn [l_next l_max l_parts l_top l_lws l_first l_started].
      destruct (qgtb _ _) eqn:Eq.
      * assert (Hlt : (min_of a (ctoks l ++ ltoks (f' :: r')) < l_max l)%Q).
        { unfold qgtb in Eq. apply negb_true_iff in Eq. rewrite <- Hmin. apply Qnot_le_lt. intros Hc.
          apply Qle_bool_iff in Hc. congruence. }
        eexists Preadded, _. split; [reflexivity|]. split; [split; reflexivity|].
        cbn [l_parts]. split; [intros z Hz; apply in_app_iff; now left|].
        split; [constructor; unfold nparts, otoks, ctoks, nparts; cbn [l_parts l_next l_started with_parts l_lws l_first]; try assumption; try discriminate|].
        -- apply Hwf.
        -- intros _. exists i, x, ws, f', r'. destruct E4, Hss. repeat split; try assumption; congruence.
        -- intros n' Hn'. injection Hn' as <-. exact (wf_next _ Hwf n Hn).
        -- unfold curpart, nparts, otoks, nparts. cbn [l_next l_parts with_parts].
           split; [exact Hcp'|]. split; [rewrite D, Hn; apply incl_refl|].
           split; [reflexivity|]. split; [reflexivity|]. split; [reflexivity|]. split; [reflexivity|].
           split; [|exact Hlt]. rewrite Hn. exact C.
      * assert (Hge : (l_max l <= min_of a (ctoks l ++ ltoks (f' :: r')))%Q).
        { unfold qgtb in Eq. apply negb_false_iff in Eq. rewrite <- Hmin. now apply Qle_bool_iff. }
        rewrite E1, rev_unit, E2, rev_unit. change (is_sp sp) with true. cbn iota.
        destruct (part_pop_sp x ws E2 Hx) as (P1 & P2 & P3 & P4 & P5).
        rewrite rev_involutive. unfold with_parts, with_next. cbn [l_next l_max l_parts l_top l_lws l_first l_started].
        destruct (wf_next _ Hwf n Hn) as [Hns Hnl]. rewrite Hns, Hnl.
        match goal with |- context [Finished ?n0] => set (nl := n0) end.
        exists (Finished nl), (mkLine (l_max l) (i ++ [part_pop x]) (l_top l) (Some nl) false (l_first l) true).
        split; [reflexivity|]. split; [split; reflexivity|]. cbn [l_parts l_next].
        split.
        { intros z Hz. apply in_app_iff. left. unfold sty in *. rewrite map_app in *. cbn [map] in *. rewrite P2 in Hz. exact Hz. }
        split; [reflexivity|]. split; [reflexivity|].
        assert (Hnlp : nparts nl = f' :: r') by reflexivity. rewrite Hnlp.
        assert (Hnlo : otoks nl = ltoks (f' :: r')) by reflexivity. rewrite Hnlo.
        split; [constructor; try discriminate|].
        -- constructor.
        -- exact B.
        -- exact Hww.
        -- intros _. reflexivity.
        -- intros n' Hn'. injection Hn' as <-. split; reflexivity.
        -- split; [unfold curpart; rewrite Hnlp; exact Hcp'|]. split; [reflexivity|]. split; [reflexivity|].
           split; [reflexivity|]. split; [reflexivity|]. split; [reflexivity|].
           split; [rewrite D, Hnp; apply incl_refl|].
           split; [rewrite Hotoks; exact C|].
           split; [|split; [|exact Hge]].
           ++ exists (lp_style x). unfold ctoks. cbn [l_parts]. rewrite E1, !ltoks_app, !ltoks_one, P5, app_assoc. reflexivity.
           ++ apply Forall_app. split; [exact Hi|]. constructor; [exact P4|constructor].
  - pose proof (wf_stopped _ Hwf Es) as Hp0. destruct (isspace w) eqn:Ew.
    + destruct (l_first l) eqn:Ef.
      * destruct (Hacc (with_flags l (l_lws l) true true) Hn eq_refl eq_refl eq_refl eq_refl eq_refl)
          as (l' & A & B & C & D & E & F & G & H & I).
        exists Added, l'. rewrite A. cbn [bind]. split; [reflexivity|]. split; [exact B|]. split; [exact C|].
        split; [exact D|]. split; [exact E|]. split; [exact F|]. split; [reflexivity|]. split; [exact G|]. split; [exact H|exact I].
      * exists Ignored, l. split; [reflexivity|]. split; [split; reflexivity|].
        split; [intros z Hz; apply in_app_iff; now left|]. split; [reflexivity|]. split; [reflexivity|].
        exact (wf_first _ Hwf Es Ef).
    + destruct (next_adds (with_flags l (l_lws l) true false) n w Hn Hne Hg Ew Hnok)
        as (ps & A & B & D & E & F & F2).
      destruct (F2 _ _ Hci) as (C & xi & xx & Hxi & Hxy & Hxids). rewrite Hcy in C, Hxy. rewrite Hcids in C, Hxids.
      rewrite A. cbn [bind]. eexists Added, _. split; [reflexivity|]. split; [split; reflexivity|].
      cbn [with_next with_flags l_parts l_started l_next l_first]. split; [intros z Hz; apply in_app_iff; now left|].
      set (l' := with_next _ _).
      assert (Hnlp : nparts l' = ps) by reflexivity. rewrite Hnlp.
      assert (Hnlo : otoks l' = ltoks ps) by reflexivity. rewrite Hnlo.
      split; [constructor; try discriminate|].
      * apply Hwf.
      * exact B.
      * rewrite Hnlo, C, forallb_app, <- Hotoks, (wf_words _ Hwf). reflexivity.
      * intros _. exact Hp0.
      * intros n' Hn'. injection Hn' as <-. exact (wf_next _ Hwf n Hn).
      * split; [unfold curpart; rewrite Hnlp; exists xi, xx; repeat split; congruence|].
        split; [rewrite D, Hnp; intros z Hz; apply in_app_iff; now right|].
        split; [reflexivity|]. split; [reflexivity|].
        split; [unfold ctoks; change (l_parts l') with (l_parts l); rewrite Hp0; reflexivity|].
        rewrite Hotoks; exact C.
Qed.
End Layout.
