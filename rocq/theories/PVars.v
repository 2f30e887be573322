(** C82: variables in paragraphs. *)
From Coq Require Import String QArith Lia Lqa List.
From Verif Require Import Py PyStr Roman PageGeom Gfx TextLayout TextProofs TextOrder TextVars PText.
Import ListNotations.
Open Scope list_scope.

(** C82: the pieces of the paragraph are shown in order and once each, those in a
    rectangle with the values the variables have there; when the paragraph is
    finished all of them are shown.  The values of a variable are single words,
    or always the same. *)
Theorem C82_values_partial : forall round3 text_w space_w fref vc content fixed rects ds,
  Forall (fun r => fair content fixed (fst (fst r))) rects ->
  vruns round3 text_w space_w fref vc content (fresh vc) rects = Ok ds ->
  exists cuts rest, pieces content fixed = List.concat cuts ++ rest /\
    List.length cuts = List.length ds /\
    Forall2 (fun x c => lc (d_lines (snd x)) = map (in_piece (fst (fst (fst x)))) c) (combine rects ds) cuts /\
    (d_fin (last ds (fresh vc)) = true -> rest = []).
Proof.
  intros round3 text_w space_w fref vc content fixed rects ds Hf E.
  destruct (vruns_step round3 text_w space_w fref vc content fixed rects [] (fresh vc) ds Hf (stopped_fresh vc content fixed (fun _ => [])) E) as (cuts & rest & C1 & C2 & C3 & C4).
  exists cuts, rest. auto.
Qed.
Print Assumptions C82_values_partial.

(** C82: an unknown variable is empty, the others have their value. *)
Theorem C82_lookup : forall context name, NoDup (map fst context) ->
  (forall v, In (name, v) context -> value_of context name = v) /\ ((forall v, ~ In (name, v) context) -> value_of context name = []).
Proof.
  intros context name. unfold value_of. induction context as [|[n w] l IH]; intros Hn.
  - split; [intros v []|reflexivity].
  - cbn [find fst map] in *. inversion Hn as [|? ? Hx Hl]; subst. destruct (IH Hl) as [I1 I2]. destruct (str_eqb n name) eqn:E.
    + apply str_eqb_eq in E. subst n. split; [|intros H; destruct (H w); now left].
      intros v [H|H]; [now injection H|]. destruct Hx. exact (in_map fst _ _ H).
    + split; [|intros H; apply I2; intros v K; exact (H v (or_intror K))].
      intros v [H|H]; [injection H as -> ->; rewrite str_eqb_refl in E; discriminate|exact (I1 v H)].
Qed.
Print Assumptions C82_lookup.

(** C82: page numbers are single words. *)
Definition word_b (s : str) : bool := match s with [] => false | _ => forallb (fun c => negb (is_space c)) s end.
Lemma word_b_one s : word_b s = true -> one_word s.
Proof.
  unfold word_b. destruct s as [|c s]; [discriminate|]. intros H. rewrite forallb_forall in H. split.
  - intros K. specialize (H _ K). discriminate.
  - exists c. split; [now left|]. specialize (H c (or_introl eq_refl)). now destruct (is_space c).
Qed.
Lemma roman_words : forallb (fun z => match to_roman z with Ok r => word_b r | Err _ => false end) (map Z.of_nat (seq 1 3999)) = true.
Proof. vm_compute. reflexivity. Qed.
Theorem C82_page_numbers : forall s i n, page_number s i = Ok n -> one_word n.
Proof.
  intros s i n. unfold page_number. destruct (ps_roman s).
  - intros E. apply word_b_one. pose proof roman_words as H. rewrite forallb_forall in H.
    set (z := (Z.of_nat i + 1 + ps_offset s)%Z) in *. clearbody z.
    assert (Hz : (0 < z < 4000)%Z).
    { destruct (Z_lt_dec 0 z), (Z_lt_dec z 4000); try lia; rewrite to_roman_err in E by lia; discriminate. }
    specialize (H z). rewrite E in H. apply H. apply in_map_iff. exists (Z.to_nat z). split; [lia|]. apply in_seq. lia.
  - intros E. injection E as <-. apply word_b_one. unfold word_b. pose proof (dec_Z_no_space (Z.of_nat i + 1 + ps_offset s)) as H.
    destruct (dec_Z _) as [|c r] eqn:Ed; [|exact H]. exfalso. unfold dec_Z in Ed. destruct (Z.of_nat i + 1 + ps_offset s)%Z; try discriminate; apply dec_nonempty in Ed; exact Ed.
Qed.
Print Assumptions C82_page_numbers.

(** ** Examples *)

Notation ex_vruns := (vruns (fun q => q) ex_text_w ex_space_w ex_ref).
Definition ex_vcfg : config := mkCfg [] ALeft 1 0 None.
Definition y1 : style := ex_style 1.
(** "seite $page von $name", over three pages; the name is of two words. *)
Definition ex_vcontent : list vpart :=
  [VText (lit "seite ") y1 []; VVar (lit "$page") y1 [lit "n"]; VText (lit " von ") y1 []; VVar (lit "name") y1 []; VText (lit "/") y1 []; VVar (lit "$page") y1 []].
Definition ex_values (n : string) : values := value_of [(lit "name", lit "a b"); (lit "$page", lit n)].
Definition ex_fixed (n : str) : option str := if str_eqb n (lit "name") then Some (lit "a b") else None.
Definition ex_vrects : list (values * Q * Q) := [(ex_values "1", 8, 2); (ex_values "12", 8, 2); (ex_values "xiii", 8, 2)]%Q.
Example C82_applies : Forall (fun r => fair ex_vcontent ex_fixed (fst (fst r))) ex_vrects /\
  exists ds, ex_vruns ex_vcfg ex_vcontent (fresh ex_vcfg) ex_vrects = Ok ds /\ d_fin (last ds (fresh ex_vcfg)) = true /\
  map (fun d => map (map snd) (lc (d_lines d))) ds =
    [[[lit "seite"]; [lit "1"]]; [[lit "von"]; [lit "a"]]; [[lit "b"; lit "/"; lit "xiii"]]].
Proof.
  split.
  - repeat constructor; intros n y ids H; repeat (destruct H as [H|H]; [try discriminate; injection H as <- <- <-; cbn|]); try destruct H;
      try reflexivity; try (apply word_b_one; reflexivity).
  - eexists. split; [vm_compute; reflexivity|]. split; vm_compute; reflexivity.
Qed.

(** C82 is false of a variable of several words that changes: what is shown is
    the beginning of one value and the end of the other. *)
Theorem C82_words_refuted : exists k1 k2 content w h ds, content = [VVar (lit "v") y1 []] /\ k1 (lit "v") = lit "one two" /\ k2 (lit "v") = lit "uno due" /\
  ex_vruns ex_vcfg content (fresh ex_vcfg) [(k1, w, h); (k2, w, h)] = Ok ds /\ d_fin (last ds (fresh ex_vcfg)) = true /\
  map (fun d => map (map snd) (lc (d_lines d))) ds = [[[lit "one"]]; [[lit "due"]]].
Proof.
  exists (fun _ => lit "one two"), (fun _ => lit "uno due"), [VVar (lit "v") y1 []], 4%Q, 2%Q. eexists.
  split; [reflexivity|]. split; [reflexivity|]. split; [reflexivity|]. split; [vm_compute; reflexivity|]. split; vm_compute; reflexivity.
Qed.
Print Assumptions C82_words_refuted.

(** And a line feed in a value is not a line break, as it is in text (C39): it is
    shown as a character. *)
Theorem C82_break_refuted : exists k content w h ds, content = [VVar (lit "v") y1 []] /\ In 10%N (k (lit "v")) /\
  ex_vruns ex_vcfg content (fresh ex_vcfg) [(k, w, h)] = Ok ds /\ d_fin (last ds (fresh ex_vcfg)) = true /\
  flat_map (fun d => shown (e_text (d_em d))) ds = [k (lit "v")].
Proof.
  exists (fun _ => lit "one" ++ 10%N :: lit "two"), [VVar (lit "v") y1 []], 20%Q, 9%Q. eexists.
  split; [reflexivity|]. split; [cbn; auto|]. split; [vm_compute; reflexivity|]. split; vm_compute; reflexivity.
Qed.
Print Assumptions C82_break_refuted.
