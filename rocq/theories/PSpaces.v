(** Theorems for C72: spaces in the lines of a paragraph. *)
From Coq Require Import String QArith Lqa Lia.
From Verif Require Import Py PyStr Gfx TextLayout TextProofs TextWords TextOrder TextFit TextWidth TextEmit TextMarks TextTerm TextSpace PText PText2.
Open Scope list_scope.

Section Text.
Variable round3 : Q -> Q.
Variable text_w : fkey -> str -> Q.
Variable space_w : fkey -> Q.
Variable fref : fkey -> str.
Notation run := (run round3 text_w space_w fref).

(** C72, the part that holds: a line never begins with a space.  When no two
    pieces of white space are next to each other in the text, no line has two
    spaces one after the other, and a line that ends because the next word
    does not fit does not end with a space; then, without line breaks, only
    the line with the end of the text may end with a space.  Missing: texts
    with white space at the end of one part and the beginning of the next
    one, and the end of last lines. *)
Theorem C72_spaces_partial : forall c ds d w h d', between round3 text_w space_w fref c ds d -> run c d w h = Ok d' ->
  (forall l, In l (d_lines d') -> ~ begins_blank (ltoks (l_parts l))) /\
  (~ double_space (all_toks (c_content c)) ->
    (forall l, In l (d_lines d') -> ~ double_space (ltoks (l_parts l))) /\
    (forall i l k, nth_error (d_lines d') i = Some l -> nth_error (d_marks d') i = Some k -> k_last k = false ->
      ~ ends_blank (ltoks (l_parts l))) /\
    (~ In CBr (c_content c) -> forall i l, nth_error (d_lines d') i = Some l ->
      d_fin d' = false \/ S i <> List.length (d_lines d') -> ~ ends_blank (ltoks (l_parts l)))).
Proof.
  intros c ds d w h d' Hb E.
  destruct (run_spaces round3 text_w space_w fref c (placed ds) d w h d' (between_paused _ _ _ _ _ _ _ Hb) E) as [Hl (ini & rest & E1 & E2 & E3 & E4)].
  assert (Hin : forall l, In l (d_lines d') -> exists k, line_ok c l k).
  { clear E1 E2. induction Hl as [|x y ls ks Hxy Hl IH]; [intros l []|]. intros l [<-|H]; [eauto|exact (IH l H)]. }
  split; [|intros Hnd; split; [|split]].
  - intros l H. destruct (Hin l H) as [k [K _]]. exact K.
  - intros l H. destruct (Hin l H) as [k [_ K]]. exact (proj1 (K Hnd)).
  - intros i l k Hi Hk Hf. assert (K : line_ok c l k).
    { clear - Hl Hi Hk. revert i Hi Hk. induction Hl as [|x y ls ks Hxy Hl IH]; intros [|i] Hi Hk; cbn in *; try discriminate.
      - injection Hi as <-. injection Hk as <-. exact Hxy.
      - exact (IH i Hi Hk). }
    exact (proj2 (proj2 K Hnd) Hf).
  - intros Hno i l Hi Hc. specialize (E2 Hnd Hno). rewrite Forall_forall in E2. apply E2.
    assert (Hlt : (i < List.length ini)%nat).
    { assert (Hi' : (i < List.length (d_lines d'))%nat) by (apply nth_error_Some; congruence).
      destruct Hc as [Hc|Hc]; rewrite E1 in *; rewrite app_length in *; [rewrite (E4 Hc) in *; cbn in *; lia|lia]. }
    rewrite E1, nth_error_app1 in Hi by exact Hlt. exact (nth_error_In _ _ Hi).
Qed.
End Text.
Print Assumptions C72_spaces_partial.

Definition ex_spaced : config :=
  mkCfg [CText (lit "one  two") (ex_style 1) []; CText (lit " three four ") (ex_style 1) []; CText (lit "five") (ex_style 1) []] ALeft 1 0 None.
Example C72_nonvacuous : exists d, ex_run ex_spaced (fresh ex_spaced) 15 40 = Ok d /\ d_fin d = true /\
  map (fun l => List.concat (line_shows l)) (d_lines d) = [lit "one two three"; lit "four five"] /\
  map k_last (d_marks d) = [false; true] /\
  between (fun q => q) ex_text_w ex_space_w ex_ref ex_spaced [] (fresh ex_spaced) /\
  ~ double_space (all_toks (c_content ex_spaced)).
Proof.
  eexists. split; [vm_compute; reflexivity|]. split; [reflexivity|]. split; [vm_compute; reflexivity|].
  split; [reflexivity|]. split; [split; [exists []; reflexivity|]; split; reflexivity|].
  intros (a & y & y' & b & E).
  apply (f_equal (map is_word)) in E. rewrite map_app in E. vm_compute in E.
  do 10 (destruct a as [|? a]; [cbn in E; discriminate|cbn in E; try (injection E as _ E)]); destruct a; discriminate.
Qed.

(** Two texts with white space between them and a word before it: the space
    after the second word is not counted as a space (text.py 334-346: the flag
    [is_last_word_space] is never set again). *)
Definition ex_double : config := mkCfg [CText (lit "a b ") (ex_style 1) []; CText (lit " c") (ex_style 1) []] ALeft 1 0 None.
(** The text of a part with a space at its end before a line break. *)
Definition ex_trail : config := mkCfg [CText (lit "a ") (ex_style 1) []; CBr; CText (lit "b") (ex_style 1) []] ARight 1 0 None.
Theorem C72_spaces_refuted :
  (exists d l, ex_run ex_double (fresh ex_double) 15 40 = Ok d /\ d_lines d = [l] /\ List.concat (line_shows l) = lit "a b  c" /\
    double_space (ltoks (l_parts l))) /\
  (exists d d2 l l', ex_run ex_double (fresh ex_double) 5 40 = Ok d /\ ex_run ex_trail (fresh ex_trail) 9 40 = Ok d2 /\
    nth_error (d_lines d) 0 = Some l /\ map k_last (d_marks d) = [true; true] /\ ends_blank (ltoks (l_parts l)) /\
    nth_error (d_lines d2) 0 = Some l' /\ List.concat (line_shows l') = lit "a ").
Proof.
  split.
  - eexists _, _. split; [vm_compute; reflexivity|]. split; [reflexivity|]. split; [vm_compute; reflexivity|].
    eexists [_; _; _], _, _, [_]. vm_compute. reflexivity.
  - eexists _, _, _, _. split; [vm_compute; reflexivity|]. split; [vm_compute; reflexivity|]. split; [reflexivity|].
    split; [vm_compute; reflexivity|]. split; [eexists [_; _; _], _; vm_compute; reflexivity|]. split; [reflexivity|]. vm_compute. reflexivity.
Qed.
Print Assumptions C72_spaces_refuted.
