(** Paragraphs with variables of the document: pdfme/text.py 675-676 (in
    [add_part]), 1241 and 1295-1301 (what is parsed is in RichText.v). *)
From Coq Require Import String QArith Lia Lqa List.
From Verif Require Import Py PyStr Gfx TextLayout TextProofs TextOrder.
Import ListNotations.
Open Scope list_scope.

(** ** Model *)

(** The elements of [content]; [VVar] has a key 'var'. *)
Inductive vpart := VBr | VText (text : str) (y : style) (ids : list str) | VVar (name : str) (y : style) (ids : list str) | VOther.
(** [str(pdf.context.get(name, ''))]. *)
Definition values := str -> str.
Definition value_of (context : list (str * str)) : values :=
  fun name => match find (fun e => str_eqb (fst e) name) context with Some (_, v) => v | None => [] end.
(** text.py 675-676: before each run of the part its text becomes the value,
    so that its words are found again (696-702); the text of other parts is a
    list of the same words after their first run. *)
Definition resolve (k : values) (p : vpart) : cpart :=
  match p with VBr => CBr | VText t y ids => CText t y ids | VVar n y ids => CText (k n) y ids | VOther => COther end.
(** A paragraph, what is fixed in it: [vc] has everything but the content. *)
Definition with_values (vc : config) (content : list vpart) (k : values) : config :=
  mkCfg (map (resolve k) content) (c_align vc) (c_lh vc) (c_indent vc) (c_list vc).

Section Vars.
Variable round3 : Q -> Q.
Variable text_w : fkey -> str -> Q.
Variable space_w : fkey -> Q.
Variable fref : fkey -> str.
Variable vc : config.
Variable content : list vpart.
Notation run := (run round3 text_w space_w fref).

(** text.py 616-661 [run] and pdf.py 703-714, in one rectangle after the other,
    each with the values the variables have then. *)
Fixpoint vruns (d : dyn) (rects : list (values * Q * Q)) : res (list dyn) :=
  match rects with
  | [] => Ok []
  | (k, w, h) :: r =>
      do d1 <- run (with_values vc content k) d w h;
      if d_fin d1 then Ok [d1] else do rest <- vruns d1 r; Ok (d1 :: rest)
  end.

(** ** Specification *)

(** A value of one word. *)
Definition one_word (s : str) : Prop := ~ In 32%N s /\ exists ch, In ch s /\ is_space ch = false.
(** What is to be shown: words that are given and words that are names of
    variables, in unbreakable pieces.  Variables in [fixed] have always that
    value. *)
Variable fixed : str -> option str.
Inductive vword := Given (w : str) | Named (v : str).
Definition piece := list (style * list str * vword).
Inductive vtok := XWord (y : style) (ids : list str) (w : vword) | XGap.
Definition text_vtoks (t : str) (y : style) (ids : list str) : list vtok :=
  map (fun w => if isspace w then XGap else XWord y ids (Given w)) (tokenize t).
Definition part_vtoks (p : vpart) : list vtok :=
  match p with
  | VBr => [XGap]
  | VText t y ids => text_vtoks t y ids
  | VVar n y ids => match fixed n with Some s => text_vtoks s y ids | None => [XWord y ids (Named n)] end
  | VOther => []
  end.
Definition shut (d : list piece) (o : piece) : list piece := match o with [] => d | _ => d ++ [o] end.
Fixpoint vscan (d : list piece) (o : piece) (ts : list vtok) : list piece * piece :=
  match ts with
  | [] => (d, o)
  | XWord y ids w :: r => vscan d (o ++ [(y, ids, w)]) r
  | XGap :: r => vscan (shut d o) [] r
  end.
Definition pieces : list piece := let '(d, o) := vscan [] [] (flat_map part_vtoks content) in shut d o.
(** How a piece looks with the values of the variables. *)
Definition said (k : values) (x : style * list str * vword) : style * list str * str :=
  let '(y, ids, w) := x in (y, ids, match w with Given s => s | Named n => k n end).
Definition in_piece (k : values) (c : piece) : chunk := map (said k) c.
(** The values of the variables of the paragraph. *)
Definition fair (k : values) : Prop := forall n y ids, In (VVar n y ids) content ->
  match fixed n with Some s => k n = s | None => one_word (k n) end.

(** ** Proofs *)

Lemma raw_one s : s <> [] -> ~ In 32%N s -> raw_tokens s = [s].
Proof.
  induction s as [|c s IH]; intros Hn Hs; [congruence|]. cbn [raw_tokens].
  assert (Hc : (c =? 32)%N = false) by (apply N.eqb_neq; intros ->; apply Hs; now left).
  destruct s as [|a s]; [reflexivity|].
  rewrite IH; [|discriminate|intros H; apply Hs; now right].
  assert (Ha : (a =? 32)%N = false) by (apply N.eqb_neq; intros ->; apply Hs; right; now left).
  now rewrite Hc, Ha.
Qed.
Lemma one_word_tokens s : one_word s -> tokenize s = [s] /\ isspace s = false.
Proof.
  intros [H1 (ch & H2 & H3)]. assert (Hn : s <> []) by (intros ->; destruct H2).
  assert (Hi : isspace s = false).
  { unfold isspace. destruct s; [reflexivity|]. destruct (forallb is_space _) eqn:E; [|reflexivity]. rewrite forallb_forall in E. rewrite (E ch H2) in H3. discriminate. }
  split; [|exact Hi]. unfold tokenize. rewrite (raw_one s Hn H1). cbn [map]. now rewrite Hi.
Qed.

(** Tokens of the model against those of the specification. *)
Definition tok_said (k : values) (x : vtok) (t : tok) : Prop :=
  match x, t with
  | XWord y ids w, TWord y' ids' s => y' = y /\ ids' = ids /\ s = match w with Given g => g | Named n => k n end
  | XGap, TSpace _ | XGap, TBr => True
  | _, _ => False
  end.
Lemma text_said k t y ids : Forall2 (tok_said k) (text_vtoks t y ids) (map (tok_of y ids) (tokenize t)).
Proof.
  unfold text_vtoks. induction (tokenize t) as [|w l IH]; [constructor|]. cbn [map]. constructor; [|exact IH].
  unfold tok_of. destruct (isspace w); cbn; auto.
Qed.
Lemma part_said k p : (forall n y ids, p = VVar n y ids -> match fixed n with Some s => k n = s | None => one_word (k n) end) ->
  Forall2 (tok_said k) (part_vtoks p) (part_toks (resolve k p)).
Proof.
  intros H. destruct p as [|t y ids|n y ids|]; cbn [part_vtoks resolve part_toks].
  - constructor; [exact I|constructor].
  - apply text_said.
  - specialize (H n y ids eq_refl). destruct (fixed n) as [s|]; [rewrite H; apply text_said|].
    destruct (one_word_tokens _ H) as [H1 H2]. rewrite H1. cbn [map]. unfold tok_of. rewrite H2. constructor; [cbn; auto|constructor].
  - constructor.
Qed.
Lemma F2_flat {A B C D} (P : A -> B -> Prop) (f : C -> list A) (g : D -> list B) (h : C -> D) : forall l, (forall x, In x l -> Forall2 P (f x) (g (h x))) ->
  Forall2 P (flat_map f l) (flat_map g (map h l)).
Proof. induction l as [|a l IH]; intros H; [constructor|]. cbn [flat_map map]. apply Forall2_app; [apply H; now left|apply IH; intros x Hx; apply H; now right]. Qed.
Lemma F2_firstn {A B} (P : A -> B -> Prop) l m : Forall2 P l m -> forall n, Forall2 P (firstn n l) (firstn n m).
Proof. induction 1; intros [|n]; cbn [firstn]; constructor; auto. Qed.

Lemma close_in k d o : close (map (in_piece k) d) (in_piece k o) = map (in_piece k) (shut d o).
Proof. destruct o; cbn [close shut in_piece map]; [reflexivity|]. now rewrite map_app. Qed.
Lemma scan_in k : forall xs ts, Forall2 (tok_said k) xs ts -> forall d o,
  scan (map (in_piece k) d) (in_piece k o) ts = let '(d', o') := vscan d o xs in (map (in_piece k) d', in_piece k o').
Proof.
  induction 1 as [|x t xs ts Hx _ IH]; intros d o; [reflexivity|]. destruct x as [y ids w|], t as [y' ids' s|y'|]; try contradiction; cbn [scan vscan].
  - destruct Hx as (-> & -> & ->). rewrite <- IH. f_equal. unfold in_piece. rewrite map_app. reflexivity.
  - rewrite close_in. exact (IH (shut d o) []).
  - rewrite close_in. exact (IH (shut d o) []).
Qed.

(** The tokens before a place. *)
Definition vbefore (p w : nat) : list vtok :=
  flat_map part_vtoks (firstn p content) ++ firstn w (match nth_error content p with Some x => part_vtoks x | None => [] end).
Lemma In_firstn {A} (x : A) n l : In x (firstn n l) -> In x l.
Proof. intros H. rewrite <- (firstn_skipn n l). apply in_or_app. now left. Qed.
Lemma before_said k p w : fair k -> Forall2 (tok_said k) (vbefore p w) (before (map (resolve k) content) p w).
Proof.
  intros Hk. unfold vbefore, before, all_toks, toks_at. apply Forall2_app.
  - rewrite firstn_map. apply F2_flat. intros x Hx. apply part_said. intros n y ids ->. exact (Hk n y ids (In_firstn _ _ _ Hx)).
  - apply F2_firstn. rewrite nth_error_map. destruct (nth_error content p) as [x|] eqn:E; cbn [option_map]; [|constructor].
    apply part_said. intros n y ids ->. exact (Hk n y ids (nth_error_In _ _ E)).
Qed.
Lemma all_said k : fair k -> chunks (all_toks (map (resolve k) content)) = map (in_piece k) pieces.
Proof.
  intros Hk. unfold chunks, pieces.
  assert (H : Forall2 (tok_said k) (flat_map part_vtoks content) (all_toks (map (resolve k) content))).
  { unfold all_toks. apply F2_flat. intros x Hx. apply part_said. intros n y ids ->. exact (Hk n y ids Hx). }
  pose proof (scan_in k _ _ H [] []) as S. cbn [map in_piece] in S. rewrite S. destruct (vscan [] [] _) as [d o]. apply close_in.
Qed.
Lemma vscan_app a : forall b d o, vscan d o (a ++ b) = let '(d1, o1) := vscan d o a in vscan d1 o1 b.
Proof. induction a as [|t a IH]; intros b d o; cbn [app vscan]; [reflexivity|]. destruct t; apply IH. Qed.
Lemma vscan_grows a : forall d o, exists e, fst (vscan d o a) = d ++ e.
Proof.
  induction a as [|t a IH]; intros d o; cbn [vscan]; [exists []; cbn; now rewrite app_nil_r|]. destruct t; [apply IH|].
  destruct (IH (shut d o) []) as (e & ->). destruct o; cbn [shut]; [eauto|]. rewrite <- app_assoc. eauto.
Qed.
Lemma vbefore_prefix p w : exists post, flat_map part_vtoks content = vbefore p w ++ post.
Proof.
  unfold vbefore. exists (skipn w (match nth_error content p with Some x => part_vtoks x | None => [] end) ++ flat_map part_vtoks (skipn (S p) content)).
  rewrite <- app_assoc, (app_assoc (firstn w _)), firstn_skipn. revert content. induction p as [|p IH]; intros [|x l]; cbn [firstn skipn flat_map nth_error app]; try reflexivity.
  rewrite <- app_assoc. f_equal. apply IH.
Qed.
Lemma pieces_prefix p w d : vscan [] [] (vbefore p w) = (d, []) -> exists rest, pieces = d ++ rest.
Proof.
  intros H. destruct (vbefore_prefix p w) as (post & E). unfold pieces. rewrite E, vscan_app, H.
  destruct (vscan_grows post d []) as (e & He). destruct (vscan d [] post) as [d' o]. cbn [fst] in He. subst d'.
  destruct o; cbn [shut]; [eauto|]. rewrite <- app_assoc. eauto.
Qed.

Lemma map_eq_nil {A B} (f : A -> B) l : map f l = [] -> l = [].
Proof. destruct l; [reflexivity|discriminate]. Qed.

(** Between runs: the first pieces are shown. *)
Definition stopped (done : list piece) (d : dyn) : Prop :=
  d_fin d = false /\ vscan [] [] (vbefore (d_part d) (d_word d)) = (done, []) /\
  (d_word d <> 0%nat -> exists x, nth_error content (d_part d) = Some x /\ x <> VBr /\ x <> VOther) /\
  d_lpart d = d_part d /\ d_lword d = d_word d.

Lemma stopped_paused k done d : fair k -> stopped done d -> paused (with_values vc content k) (map (in_piece k) done) d.
Proof.
  intros Hk (H1 & H2 & H3 & H4 & H5). split; [exact H1|]. split; [|split; assumption]. split.
  - cbn [with_values c_content]. pose proof (scan_in k _ _ (before_said k (d_part d) (d_word d) Hk) [] []) as S. cbn [map in_piece] in S. rewrite S, H2. reflexivity.
  - intros Hw. destruct (H3 Hw) as (x & Hx & N1 & N2). cbn [with_values c_content]. rewrite nth_error_map, Hx. destruct x; cbn; try congruence; eauto.
Qed.
Lemma vrun_step k done d w h d' : fair k -> stopped done d -> run (with_values vc content k) d w h = Ok d' ->
  exists new, lc (d_lines d') = map (in_piece k) new /\
  ((d_fin d' = true /\ pieces = done ++ new) \/ (stopped (done ++ new) d' /\ exists rest, pieces = done ++ new ++ rest)).
Proof.
  intros Hk Hs E. pose proof (stopped_paused k done d Hk Hs) as Hp. pose proof (run_order _ _ _ _ _ _ _ _ _ _ Hp E) as HF.
  assert (Hd : exists rest, pieces = done ++ rest) by (eapply pieces_prefix; apply Hs). destruct Hd as (rest & Hd).
  destruct HF as [[Hf HF]|(Hf & [HF HP] & H1 & H2)].
  - cbn [with_values c_content] in HF. rewrite (all_said k Hk), Hd, map_app in HF. apply app_inv_head in HF. exists rest. split; [exact HF|]. left. auto.
  - cbn [with_values c_content] in HF. pose proof (scan_in k _ _ (before_said k (d_part d') (d_word d') Hk) [] []) as S. cbn [map in_piece] in S. rewrite S in HF.
    destruct (vscan [] [] (vbefore (d_part d') (d_word d'))) as [t o] eqn:Et. injection HF as Ht Ho. apply map_eq_nil in Ho. subst o.
    destruct (pieces_prefix _ _ _ Et) as (r2 & Hr2).
    assert (Hnew : exists new, t = done ++ new).
    { assert (Hl : (List.length done <= List.length t)%nat) by (apply (f_equal (@List.length _)) in Ht; rewrite app_length, !map_length in Ht; lia).
      exists (skipn (List.length done) t). assert (K : firstn (List.length done) t = done); [|rewrite <- K at 1; symmetry; apply firstn_skipn].
      apply (f_equal (firstn (List.length done))) in Hr2. rewrite Hd in Hr2.
      rewrite firstn_app, Nat.sub_diag, firstn_all in Hr2. cbn [firstn] in Hr2. rewrite app_nil_r in Hr2.
      rewrite firstn_app in Hr2. replace (List.length done - List.length t)%nat with 0%nat in Hr2 by lia. cbn [firstn] in Hr2. rewrite app_nil_r in Hr2. congruence. }
    destruct Hnew as (new & ->). rewrite map_app in Ht. apply app_inv_head in Ht. exists new. split; [symmetry; exact Ht|]. right. split.
    + split; [exact Hf|]. split; [exact Et|]. split; [|split; assumption]. intros Hw. destruct (HP Hw) as (x & y & ids & Hx). cbn [with_values c_content] in Hx.
      rewrite nth_error_map in Hx. destruct (nth_error content (d_part d')) as [z|]; [|discriminate]. exists z. split; [reflexivity|]. destruct z; cbn in Hx; split; congruence.
    + exists r2. rewrite Hr2, <- app_assoc. reflexivity.
Qed.

Lemma vruns_step : forall rects done d ds, Forall (fun r => fair (fst (fst r))) rects -> stopped done d -> vruns d rects = Ok ds ->
  exists cuts rest, pieces = done ++ List.concat cuts ++ rest /\
    Forall2 (fun x c => lc (d_lines (snd x)) = map (in_piece (fst (fst (fst x)))) c) (combine rects ds) cuts /\ List.length cuts = List.length ds /\
    (d_fin (last ds d) = true -> rest = []).
Proof.
  induction rects as [|[[k w] h] rects IH]; intros done d ds Hk Hs E; cbn [vruns] in E.
  - injection E as <-. destruct (pieces_prefix _ _ _ (proj1 (proj2 Hs))) as (rest & Hr). exists [], rest. cbn. split; [exact Hr|]. split; [constructor|]. split; [reflexivity|].
    intros Hf. destruct Hs as (Hf' & _). congruence.
  - inversion Hk as [|? ? Hk1 Hk2]; subst. cbn [fst] in Hk1. destruct (run (with_values vc content k) d w h) as [d1|e] eqn:Er; [|discriminate]. cbn [bind] in E.
    destruct (vrun_step k done d w h d1 Hk1 Hs Er) as (new & Hn & [[Hf Hp]|[Hs1 (rest & Hp)]]).
    + rewrite Hf in E. injection E as <-. exists [new], []. cbn [List.concat]. rewrite !app_nil_r. split; [exact Hp|]. split; [|split; [reflexivity|reflexivity]].
      replace (combine ((k, w, h) :: rects) [d1]) with [((k, w, h), d1)] by (cbn [combine]; destruct rects; reflexivity). constructor; [exact Hn|constructor].
    + rewrite (proj1 Hs1) in E. destruct (vruns d1 rects) as [l|e] eqn:El; [|discriminate]. cbn [bind] in E. injection E as <-.
      destruct (IH (done ++ new) d1 l Hk2 Hs1 El) as (cuts & r2 & C1 & C2 & C3 & C4). exists (new :: cuts), r2. cbn [List.concat combine List.length].
      split; [rewrite C1, <- !app_assoc; reflexivity|]. split; [constructor; [exact Hn|exact C2]|]. split; [now rewrite C3|].
      intros Hf. apply C4. rewrite <- Hf. destruct l as [|x l]; [reflexivity|]. change (last (d1 :: x :: l) d) with (last (x :: l) d).
      clear. f_equal. revert x. induction l as [|z l IH]; intros x; [reflexivity|]. exact (IH z).
Qed.
Lemma stopped_fresh k : stopped [] (fresh (with_values vc content k)).
Proof. unfold stopped, fresh. cbn. split; [reflexivity|]. split; [unfold vbefore; cbn; reflexivity|]. split; [congruence|split; reflexivity]. Qed.
End Vars.
