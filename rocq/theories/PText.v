(** Theorems for C23 and C31-C34: graphics operators and paragraph layout. *)
From Coq Require Import String QArith Lqa.
From Verif Require Import Py PyStr Gfx TextLayout TextProofs TextWords TextOrder TextFit TextWidth.
Open Scope list_scope.

(** C23: the operators generated for a list of fills and lines paint exactly
    these, in order, each with its own attributes, and leave the reader as it
    was (so saves and restores are balanced). *)
Theorem C23_graphics : forall round3, (forall x y, (x == y)%Q -> (round3 x == round3 y)%Q) ->
  forall l ops r, create_graphics round3 l = Ok ops -> r_path r = [] ->
  exists ps, execs ops r = (r, ps) /\ paints_eq ps (map (wanted round3 (g_ctm (r_gs r))) l).
Proof. intros round3 Hp l ops r. apply create_graphics_ok. exact Hp. Qed.
Print Assumptions C23_graphics.
(** C23: and every list with known line styles is accepted. *)
Theorem C23_graphics_written : forall round3 l,
  (forall x1 y1 x2 y2 w c, ~ In (Line x1 y1 x2 y2 w c BadStyle) l) -> exists ops, create_graphics round3 l = Ok ops.
Proof. exact create_graphics_total. Qed.
Print Assumptions C23_graphics_written.

Definition page_reader : reader :=
  mkR (mkGS identity (Gray 0) (Gray 0) 1 0 ([], 0) None 0 0)%Q [] [] None.
Example C23_nonvacuous :
  let gs := [Fill 0 0 10 10 (Rgb 1 0 0); Line 0 0 5 5 2 (Gray (1#2)) Dashed; Line 0 5 5 5 2 (Gray (1#2)) Solid;
             Fill 1 1 2 2 (Rgb 1 0 0); Line 0 0 9 9 1 (Gray (1#2)) Dotted]%Q in
  exists ops, create_graphics (fun q => q) gs = Ok ops /\ List.length (snd (execs ops page_reader)) = 5%nat /\
    List.length ops = 25%nat.
Proof. eexists. split; [reflexivity|]. split; vm_compute; reflexivity. Qed.

Section Text.
Variable round3 : Q -> Q.
Variable text_w : fkey -> str -> Q.
Variable space_w : fkey -> Q.
Variable fref : fkey -> str.
Notation run := (run round3 text_w space_w fref).
Notation runs := (runs round3 text_w space_w fref).

(** C31: the chunks (unbreakable runs of words with their style and ids) in
    the lines of the runs, and the ones from the saved position on, are those
    of the text, at every interruption.  [remaining] is empty when the
    paragraph is finished. *)
Theorem C31_words : forall c rects ds, runs c (fresh c) rects = Ok ds ->
  placed ds ++ remaining c (last ds (fresh c)) = chunks (all_toks (c_content c)).
Proof. intros c rects ds E. exact (runs_order round3 text_w space_w fref c rects [] (fresh c) ds (paused_fresh c) E). Qed.

Theorem C31_finished : forall c rects ds, runs c (fresh c) rects = Ok ds -> d_fin (last ds (fresh c)) = true ->
  placed ds = chunks (all_toks (c_content c)).
Proof.
  intros c rects ds E H. rewrite <- (C31_words _ _ _ E). unfold remaining. rewrite H. now rewrite app_nil_r.
Qed.

(** C31: what the operators of a run show is what its lines contain, and the
    ids with a rectangle are those of the parts that are not blank. *)
Theorem C31_shown : forall c d w h d', run c d w h = Ok d' ->
  shown (e_text (d_em d')) =
    (match c_list c with
     | Some li => if d_first d && negb (match d_lines d' with [] => true | _ => false end) then [li_text li] else []
     | None => []
     end) ++ flat_map line_shows (d_lines d') /\
  map fst (e_ids (d_em d')) = flat_map line_marks (d_lines d').
Proof. exact (run_shown round3 text_w space_w fref). Qed.

(** C31: runs do not raise, when no line break comes before the first text of
    a list paragraph. *)
Theorem C31_runs : forall c rects, c_list c = None \/ text_first (c_content c) -> exists ds, runs c (fresh c) rects = Ok ds.
Proof.
  intros c rects H. apply runs_total. destruct H as [H|H]; [left; now left|right]. split; [reflexivity|exact H].
Qed.

(** C32: the height of a run is the sum of the heights of its lines and does
    not exceed the rectangle; it is also how far the text cursor moved. *)
Theorem C32_height : forall c d w h d', run c d w h = Ok d' ->
  (d_h d' == total_height c (d_lines d'))%Q /\ (d_lines d' <> [] -> (d_h d' <= h)%Q) /\
  (c_list c = None -> (e_y (d_em d') == - total_height c (d_lines d'))%Q).
Proof.
  intros c d w h d' E. destruct (run_height round3 text_w space_w fref c d w h d' E) as [_ _ H1 H2 H3 _].
  split; [exact H1|]. split; [exact H2|]. intros Hl. rewrite (H3 Hl), H1. reflexivity.
Qed.
(** C32: with more room a run that stopped writes the same lines and then one
    that did not fit; a run that finished writes the same. *)
Theorem C32_greedy : forall c d w h h' d1 d2, (h <= h')%Q -> d_fin d = false -> run c d w h = Ok d1 -> run c d w h' = Ok d2 ->
  if d_fin d1 then d2 = seth d1 h'
  else exists rest, d_lines d2 = d_lines d1 ++ rest /\ (rest = [] -> d_fin d2 = false) /\
    forall l r, rest = l :: r -> (h < total_height c (d_lines d1 ++ [l]))%Q.
Proof. exact (run_greedy round3 text_w space_w fref). Qed.

(** C33: every line of a run without list text is one unbreakable chunk or is
    narrower than the width when its spaces are as narrow as they may be. *)
Theorem C33_width : forall c d w h d', c_list c = None -> run c d w h = Ok d' ->
  forall i l, nth_error (d_lines d') i = Some l ->
    fits text_w space_w (c_align c) (if (i =? 0)%nat then (w - (if d_first d then c_indent c else 0))%Q else w)
      (strip (ltoks (l_parts l))).
Proof. exact (run_width round3 text_w space_w fref). Qed.

(** C34, what is true of it: in a list paragraph without line breaks, the lines in
    the first rectangle fit beside the list text. *)
Theorem C34_list_width_partial : forall c li y0 w h d', c_list c = Some li -> ~ In CBr (c_content c) ->
  first_style (c_content c) = Some y0 -> run c (fresh c) w h = Ok d' ->
  forall i l, nth_error (d_lines d') i = Some l ->
    fits text_w space_w (c_align c)
      (if (i =? 0)%nat then (w - c_indent c - list_indent text_w li y0)%Q else (w - list_indent text_w li y0)%Q)
      (strip (ltoks (l_parts l))).
Proof. exact (fresh_list_width round3 text_w space_w fref). Qed.
End Text.
Print Assumptions C31_words.
Print Assumptions C31_finished.
Print Assumptions C31_shown.
Print Assumptions C31_runs.
Print Assumptions C32_height.
Print Assumptions C32_greedy.
Print Assumptions C33_width.
Print Assumptions C34_list_width_partial.

(** C31: the words of the text: a text is cut into maximal runs of spaces and
    of other characters, and nothing is lost. *)
Theorem C31_tokens : forall s, List.concat (raw_tokens s) = s /\
  (forall w, In w (raw_tokens s) -> w <> [] /\ (Forall (fun ch => ch = 32%N) w \/ Forall (fun ch => ch <> 32%N) w)) /\
  (forall a u v b, raw_tokens s = a ++ u :: v :: b -> Forall (fun ch => ch = 32%N) u -> Forall (fun ch => ch <> 32%N) v) /\
  (forall a u v b, raw_tokens s = a ++ u :: v :: b -> Forall (fun ch => ch <> 32%N) u -> Forall (fun ch => ch = 32%N) v).
Proof. exact raw_tokens_spec. Qed.
Print Assumptions C31_tokens.

(** ** Examples *)

(** A font in which every character is 1 wide, and a text in two styles with
    a forced line break. *)
Definition ex_text_w (_ : fkey) (w : str) : Q := inject_Z (Z.of_nat (List.length w)).
Definition ex_space_w (_ : fkey) : Q := 1%Q.
Definition ex_ref (k : fkey) : str := fst k.
Definition ex_style (size : Q) : style := mkStyle (mkState (lit "Helvetica", lit "n") size (Some (Gray 0)) 0) false None.
Definition ex_content : list cpart :=
  [CText (lit "one two") (ex_style 1) [lit "a"]; CText (lit "three four five ") (ex_style 2) []; CBr;
   CText (lit " six") (ex_style 1) [lit "b"]].
Definition ex_cfg (a : align) : config := mkCfg ex_content a (11#10) 2 None.
Notation ex_run := (run (fun q => q) ex_text_w ex_space_w ex_ref).
Notation ex_runs := (runs (fun q => q) ex_text_w ex_space_w ex_ref).

Example C31_nonvacuous : exists ds, ex_runs (ex_cfg AJust) (fresh (ex_cfg AJust)) [(16, 4); (20, 1); (15, 5); (22, 6)]%Q = Ok ds /\
  map (fun d => List.length (d_lines d)) ds = [1; 0; 1; 2]%nat /\ d_fin (last ds (fresh (ex_cfg AJust))) = true /\
  List.length (placed ds) = 5%nat.
Proof. eexists. split; [vm_compute; reflexivity|]. vm_compute. auto. Qed.
Example C32_nonvacuous : exists d1 d2, ex_run (ex_cfg AJust) (fresh (ex_cfg AJust)) 16 4 = Ok d1 /\
  ex_run (ex_cfg AJust) (fresh (ex_cfg AJust)) 16 6 = Ok d2 /\ d_fin d1 = false /\
  List.length (d_lines d1) = 1%nat /\ List.length (d_lines d2) = 2%nat /\ (d_h d1 == 21#10)%Q.
Proof. eexists _, _. split; [vm_compute; reflexivity|]. split; [vm_compute; reflexivity|]. repeat split; vm_compute; reflexivity. Qed.
(** The first line has two chunks: "one" and "twothree". *)
Example C33_nonvacuous : exists d1, ex_run (ex_cfg AJust) (fresh (ex_cfg AJust)) 20 40 = Ok d1 /\
  map (fun l => List.length (line_chunks l)) (d_lines d1) = [2; 2; 1]%nat.
Proof. eexists _. split; vm_compute; reflexivity. Qed.

(** C34 is false as stated: after a line break, and on the first line of a
    continuation, the whole width is used. *)
Definition ex_list (l : list cpart) : config := mkCfg l ALeft 1 0 (Some (mkList (lit "-") (Some 4%Q) (fun y => y))).
Definition ex_br : config := ex_list [CText (lit "a") (ex_style 1) []; CBr; CText (lit "bb cc") (ex_style 1) []].
Definition ex_long : config := ex_list [CText (lit "a bb cc") (ex_style 1) []].
Definition fits_b (a : align) (limit : Q) (ts : list tok) : bool :=
  forallb is_word ts || qgtb limit (min_of ex_text_w ex_space_w a ts).
Lemma fits_b_false a limit ts : fits_b a limit ts = false -> ~ fits ex_text_w ex_space_w a limit ts.
Proof.
  unfold fits_b, qgtb. intros H [K|K].
  - rewrite K in H. discriminate.
  - apply orb_false_iff in H as [_ H]. apply negb_false_iff in H. apply Qle_bool_iff in H. lra.
Qed.
(** A boolean test of a result. *)
Definition on_ok {A} (r : res A) (test : A -> bool) : bool := match r with Ok x => test x | Err _ => false end.
Lemma on_ok_ex {A} (r : res A) test : on_ok r test = true -> exists x, r = Ok x /\ test x = true.
Proof. destruct r; cbn; [eauto|discriminate]. Qed.
Definition line0 : line := new_line 0 0.
Theorem C34_break_refuted : exists c li y0 w h d' l, c_list c = Some li /\ first_style (c_content c) = Some y0 /\
  ex_run c (fresh c) w h = Ok d' /\ In l (d_lines d') /\
  ~ fits ex_text_w ex_space_w (c_align c) (w - list_indent ex_text_w li y0) (strip (ltoks (l_parts l))).
Proof.
  destruct (on_ok_ex (ex_run ex_br (fresh ex_br) 6 9) (fun d => (List.length (d_lines d) =? 2)%nat &&
    negb (fits_b ALeft (6 - 4) (strip (ltoks (l_parts (nth 1 (d_lines d) line0))))))) as (d & E & T);
    [vm_compute; reflexivity|]. apply andb_true_iff in T as [T1 T2]. apply Nat.eqb_eq in T1. apply negb_true_iff in T2.
  exists ex_br, (mkList (lit "-") (Some 4%Q) (fun y => y)), (ex_style 1), 6%Q, 9%Q, d, (nth 1 (d_lines d) line0).
  split; [reflexivity|]. split; [reflexivity|]. split; [exact E|]. split; [apply nth_In; lia|].
  exact (fits_b_false _ _ _ T2).
Qed.
Print Assumptions C34_break_refuted.
Theorem C34_continuation_refuted : exists c li y0 w h d1 d2 l, c_list c = Some li /\ first_style (c_content c) = Some y0 /\
  ~ In CBr (c_content c) /\
  ex_run c (fresh c) w h = Ok d1 /\ ex_run c d1 w h = Ok d2 /\ In l (d_lines d2) /\
  ~ fits ex_text_w ex_space_w (c_align c) (w - list_indent ex_text_w li y0) (strip (ltoks (l_parts l))).
Proof.
  destruct (on_ok_ex (ex_run ex_long (fresh ex_long) 6 2) (fun d1 => on_ok (ex_run ex_long d1 6 2) (fun d =>
    (List.length (d_lines d) =? 1)%nat &&
    negb (fits_b ALeft (6 - 4) (strip (ltoks (l_parts (nth 0 (d_lines d) line0)))))))) as (d1 & E1 & T);
    [vm_compute; reflexivity|]. apply on_ok_ex in T as (d & E & T).
  apply andb_true_iff in T as [T1 T2]. apply Nat.eqb_eq in T1. apply negb_true_iff in T2.
  exists ex_long, (mkList (lit "-") (Some 4%Q) (fun y => y)), (ex_style 1), 6%Q, 2%Q, d1, d, (nth 0 (d_lines d) line0).
  split; [reflexivity|]. split; [reflexivity|]. split; [intros [H|[]]; discriminate|]. split; [exact E1|]. split; [exact E|].
  split; [apply nth_In; lia|].
  exact (fits_b_false _ _ _ T2).
Qed.
Print Assumptions C34_continuation_refuted.
Example C34_nonvacuous : exists d, ex_run ex_long (fresh ex_long) 9 9 = Ok d /\
  map (fun l => List.length (line_chunks l)) (d_lines d) = [2; 1]%nat.
Proof. eexists. split; vm_compute; reflexivity. Qed.
