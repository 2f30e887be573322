(** Theorems for C76: a page shows each thing that is added to it as an empty
    page would, in the order of adding, and its stream is well formed. *)
From Coq Require Import String QArith Lqa Lia.
From Verif Require Import Py PyStr Gfx TextLayout TextProofs TextOrder PText Alone.
Open Scope list_scope.

Section Page.
Variable round3 : Q -> Q.
Variable text_w : fkey -> str -> Q.
Variable space_w : fkey -> Q.
Variable fref : fkey -> str.
Notation run := (run round3 text_w space_w fref).
Notation piece_ops := (piece_ops round3).
Notation page_ops := (page_ops round3).

(** What a reader shows of a piece on an empty page. *)
Definition alone (p : piece) (shown : list paint) : Prop :=
  exists ops, piece_ops p = Ok ops /\ shown = snd (execs ops page_reader).

(** C76, the part that holds: whatever paragraphs, graphics and images are
    added to a page, the reader shows each of them as on an empty page, in the
    order of adding, and nothing stays open at the end.  Not for paragraphs
    with text without a colour or with a list text without a colour or with a
    space inside (see below). *)
Theorem C76_alone_partial : forall ps ops, page_ops ps = Ok ops ->
  (forall x y d', In (Paragraph x y d') ps -> exists c d w h, run c d w h = Ok d' /\ set_once d /\
     (forall l p, In l (d_lines d') -> In p (l_parts l) -> t_color (y_state (lp_style p)) <> None) /\
     (forall li s, c_list c = Some li -> d_lstate d' = Some s -> t_color s <> None) /\
     (forall li, c_list c = Some li -> ~ inner_space (li_text li))) ->
  exists each, Forall2 alone ps each /\ Forall2 looks (snd (execs ops page_reader)) (List.concat each) /\
    let r := fst (execs ops page_reader) in
    r_stack r = [] /\ r_path r = [] /\ r_line r = None /\ g_ctm (r_gs r) = identity.
Proof.
  intros ps ops E H.
  assert (Hok : Forall (piece_ok round3 text_w space_w fref) ps).
  { apply Forall_forall. intros [x y d'| |] Hp; cbn [piece_ok]; auto. destruct (H x y d' Hp) as (c & d & w & h & Er & Ho & H1 & H2 & H3).
    exists c, d, w, h. split; [exact Er|]. split; [exact Ho|]. split; [|split].
    - exact H3.
    - intros Hl s. destruct (c_list c) as [li|]; [|congruence]. exact (H2 li s eq_refl).
    - apply Forall_forall. intros l Hl p Hq. exact (H1 l p Hl Hq). }
  destruct (page_alone round3 text_w space_w fref (r_gs page_reader) ps ops [] page_reader Hok E) as (each & A & B & C).
  { split; [apply near_refl|]. repeat split. }
  exists each. split; [exact A|]. split; [exact B|]. destruct C as ((C1 & _) & C2 & C3 & C4). cbn in C1. auto.
Qed.

(** The list text is set up once in a paragraph, in whatever rectangles it is
    laid out and from whatever checkpoint it goes on. *)
Theorem C76_set_once : forall c, set_once (fresh c) /\
  (forall d w h d', set_once d -> run c d w h = Ok d' -> set_once d') /\ (forall d s, set_once d -> set_once (set_state d s)).
Proof.
  intros c. split; [intros _; reflexivity|]. split; [|intros d s H; exact H].
  intros d w h d' H E. exact (proj1 (run_sim round3 text_w space_w fref c d w h d' E H)).
Qed.

(** C76: for all paragraphs, graphics and images: every operator of the page
    stands where the format allows it: saves and restores match, text is shown
    in text objects only, paths are painted before anything else, and at the
    end nothing is open. *)
Theorem C76_well_formed : forall ps ops, page_ops ps = Ok ops ->
  (forall x y d', In (Paragraph x y d') ps -> exists c d w h, run c d w h = Ok d') ->
  all_stand ops (O, OnPage) = Some (O, OnPage).
Proof. intros ps ops E H. exact (page_fine round3 text_w space_w fref ps ops H E O). Qed.
End Page.
Print Assumptions C76_alone_partial.
Print Assumptions C76_set_once.
Print Assumptions C76_well_formed.

(** ** An example *)

Notation ex_page_ops := (page_ops (fun q => q)).
(** A justified paragraph with underlined text on a background, then a list
    item, lines and an image. *)
Definition ex_red (size : Q) : style := mkStyle (mkState (lit "Helvetica", lit "b") size (Some (Rgb 1 0 0)) (1#2)) true (Some (Gray (1#2))).
Definition ex_first : config :=
  mkCfg [CText (lit "a bb ccc ") (ex_style 1) []; CText (lit "dddd ee fff gg h") (ex_red 1) []] AJust (11#10) 2 None.
Definition ex_item (mark : string) (y : style) : config :=
  mkCfg [CText (lit "uu vv ww") y []] ALeft (11#10) 0 (Some (mkList (lit mark) (Some 4%Q) (fun y => y))).
Definition ex_parts (d : dyn) (e : dyn) : list piece :=
  [Paragraph 5 90 d; Paragraph 5 50 e; Graphics [Fill 0 0 9 9 (Rgb 1 1 0); Line 0 0 9 0 1 (Gray (1#2)) Dotted];
   Picture (lit "Im0") 20 30 1 1; Paragraph 5 20 d].
Definition all_coloured (d : dyn) : bool :=
  forallb (fun l => forallb (fun p => match t_color (y_state (lp_style p)) with Some _ => true | None => false end) (l_parts l)) (d_lines d).
Lemma all_coloured_spec d : all_coloured d = true -> forall l p, In l (d_lines d) -> In p (l_parts l) -> t_color (y_state (lp_style p)) <> None.
Proof.
  intros H l p Hl Hp. unfold all_coloured in H. rewrite forallb_forall in H. specialize (H l Hl). rewrite forallb_forall in H.
  specialize (H p Hp). destruct (t_color _); [discriminate|discriminate].
Qed.
Lemma one_char_no_space x : ~ inner_space [x].
Proof.
  intros (a & b & E & y & Hy & _). destruct a as [|a0 a]; cbn in E; injection E as E1 E2.
  - subst b. exact Hy.
  - destruct a; discriminate.
Qed.
Example C76_applies : exists d e ops,
  ex_run ex_first (fresh ex_first) 10 20 = Ok d /\ ex_run (ex_item "*" (ex_style 1)) (fresh (ex_item "*" (ex_style 1))) 10 20 = Ok e /\
  (3 <= List.length (d_lines d))%nat /\ (d_lines e <> []) /\ ex_page_ops (ex_parts d e) = Ok ops /\
  (forall x y d', In (Paragraph x y d') (ex_parts d e) -> exists c d w h, ex_run c d w h = Ok d' /\ set_once d /\
     (forall l p, In l (d_lines d') -> In p (l_parts l) -> t_color (y_state (lp_style p)) <> None) /\
     (forall li s, c_list c = Some li -> d_lstate d' = Some s -> t_color s <> None) /\
     (forall li, c_list c = Some li -> ~ inner_space (li_text li))) /\
  (20 <= List.length (snd (execs ops page_reader)))%nat.
Proof.
  destruct (on_ok_ex (ex_run ex_first (fresh ex_first) 10 20) (fun d => all_coloured d && (3 <=? List.length (d_lines d))%nat &&
    on_ok (ex_run (ex_item "*" (ex_style 1)) (fresh (ex_item "*" (ex_style 1))) 10 20) (fun e => all_coloured e && (1 <=? List.length (d_lines e))%nat &&
      match d_lstate e with Some s => match t_color s with Some _ => true | None => false end | None => false end &&
      on_ok (ex_page_ops (ex_parts d e)) (fun ops => (20 <=? List.length (snd (execs ops page_reader)))%nat)))) as (d & E & T).
  { vm_compute. reflexivity. }
  apply andb_true_iff in T as [T T3]. apply andb_true_iff in T as [T1 T2].
  apply on_ok_ex in T3 as (e & E' & T). apply andb_true_iff in T as [T T6]. apply andb_true_iff in T as [T T5]. apply andb_true_iff in T as [T3 T4].
  apply on_ok_ex in T6 as (ops & Eo & T6). apply Nat.leb_le in T2, T4, T6.
  exists d, e, ops. split; [exact E|]. split; [exact E'|]. split; [exact T2|]. split; [intros K; rewrite K in T4; cbn in T4; lia|]. split; [exact Eo|].
  split; [|exact T6].
  assert (Kd : exists c d0 w h, ex_run c d0 w h = Ok d /\ set_once d0 /\
     (forall l p, In l (d_lines d) -> In p (l_parts l) -> t_color (y_state (lp_style p)) <> None) /\
     (forall li s, c_list c = Some li -> d_lstate d = Some s -> t_color s <> None) /\
     (forall li, c_list c = Some li -> ~ inner_space (li_text li))).
  { exists ex_first, (fresh ex_first), 10%Q, 20%Q. split; [exact E|]. split; [intros _; reflexivity|]. split; [exact (all_coloured_spec d T1)|].
    split; intros; discriminate. }
  intros x y d' [H|[H|[H|[H|[H|[]]]]]]; try discriminate H; injection H as _ _ <-; try exact Kd.
  exists (ex_item "*" (ex_style 1)), (fresh (ex_item "*" (ex_style 1))), 10%Q, 20%Q. split; [exact E'|]. split; [intros _; reflexivity|].
  split; [exact (all_coloured_spec e T3)|]. split.
  - intros li s _ Hs. rewrite Hs in T5. destruct (t_color s); [discriminate|discriminate T5].
  - intros li Hl. cbn in Hl. injection Hl as <-. apply one_char_no_space.
Qed.

(** ** Where it fails *)

(** The second of two pieces does not look as it does alone. *)
Definition looks_different (a b : piece) : Prop := exists o1 o2 p q,
  ex_page_ops [a; b] = Ok o1 /\ ex_page_ops [b] = Ok o2 /\
  nth_error (snd (execs o1 page_reader)) (List.length (snd (execs o1 page_reader)) - List.length (snd (execs o2 page_reader))) = Some p /\
  nth_error (snd (execs o2 page_reader)) 0 = Some q /\ ~ looks p q.
Definition differ (a b : piece) (test : paint -> paint -> bool) : bool :=
  on_ok (ex_page_ops [a; b]) (fun o1 => on_ok (ex_page_ops [b]) (fun o2 =>
    match nth_error (snd (execs o1 page_reader)) (List.length (snd (execs o1 page_reader)) - List.length (snd (execs o2 page_reader))),
          nth_error (snd (execs o2 page_reader)) 0 with Some p, Some q => test p q | _, _ => false end)).
Lemma differ_different a b test : differ a b test = true -> (forall p q, test p q = true -> ~ looks p q) -> looks_different a b.
Proof.
  intros T H. apply on_ok_ex in T as (o1 & E1 & T). apply on_ok_ex in T as (o2 & E2 & T).
  destruct (nth_error _ (_ - _)) as [p|] eqn:Ep; [|discriminate]. destruct (nth_error _ 0) as [q|] eqn:Eq; [|discriminate].
  exists o1, o2, p, q. auto 10.
Qed.

(** A list text with a space inside is shown with the word spacing that a
    justified paragraph before it has left. *)
Definition ex_even : config := mkCfg [CText (lit "a bb ccc dddd ee fff gg h") (ex_style 1) []] AJust (11#10) 2 None.
Theorem C76_list_text_refuted : exists c1 c2 d e w h, c_align c1 = AJust /\ ex_run c1 (fresh c1) w h = Ok d /\ ex_run c2 (fresh c2) w h = Ok e /\
  (exists li, c_list c2 = Some li /\ li_text li = lit "note 1") /\ all_coloured d = true /\ all_coloured e = true /\
  looks_different (Paragraph 5 90 d) (Paragraph 5 50 e).
Proof.
  pose (test := fun p q => match p, q with PShow _ _ _ _ sp _ s, PShow _ _ _ _ sp' _ s' => negb (Qeq_bool sp sp') && str_eqb s (lit "note 1") | _, _ => false end).
  pose (c2 := ex_item "note 1" (ex_style 1)).
  destruct (on_ok_ex (ex_run ex_even (fresh ex_even) 10 4) (fun d => all_coloured d && on_ok (ex_run c2 (fresh c2) 10 4) (fun e => all_coloured e &&
    differ (Paragraph 5 90 d) (Paragraph 5 50 e) test))) as (d & E & T).
  { vm_compute. reflexivity. }
  apply andb_true_iff in T as [T1 T]. apply on_ok_ex in T as (e & E' & T). apply andb_true_iff in T as [T2 T].
  exists ex_even, c2, d, e, 10%Q, 4%Q. split; [reflexivity|]. split; [exact E|]. split; [exact E'|]. split; [eexists; split; reflexivity|].
  split; [exact T1|]. split; [exact T2|]. apply (differ_different _ _ test T).
  intros [| |m f c ri sp l s|] [| |m' f' c' ri' sp' l' s'|] Ht; try discriminate Ht. unfold test in Ht. apply andb_true_iff in Ht as [H1 H2].
  apply str_eqb_eq in H2. intros (_ & _ & _ & _ & _ & _ & K). apply negb_true_iff in H1. rewrite K in H1.
  - rewrite (proj2 (Qeq_bool_iff _ _) (Qeq_refl _)) in H1. discriminate.
  - exists (lit "note"), (lit "1"). split; [rewrite H2; reflexivity|]. exists 49%N. split; [left; reflexivity|discriminate].
Qed.
Print Assumptions C76_list_text_refuted.

(** Text without a colour ([''] or [None], color.py 228-234) is shown in the
    colour of the text before it on the page. *)
Definition ex_bare : style := mkStyle (mkState (lit "Helvetica", lit "n") 1 None 0) false None.
Theorem C76_colour_refuted : exists c1 c2 d e w h, ex_run c1 (fresh c1) w h = Ok d /\ ex_run c2 (fresh c2) w h = Ok e /\
  c_list c1 = None /\ c_list c2 = None /\ all_coloured d = true /\ looks_different (Paragraph 5 90 d) (Paragraph 5 50 e).
Proof.
  pose (test := fun p q => match p, q with PShow _ _ (Rgb _ _ _) _ _ _ _, PShow _ _ (Gray _) _ _ _ _ => true | _, _ => false end).
  pose (c2 := mkCfg [CText (lit "uu vv ww") ex_bare []] ALeft (11#10) 0 None).
  destruct (on_ok_ex (ex_run ex_first (fresh ex_first) 10 20) (fun d => all_coloured d && on_ok (ex_run c2 (fresh c2) 10 20) (fun e =>
    differ (Paragraph 5 90 d) (Paragraph 5 50 e) test))) as (d & E & T).
  { vm_compute. reflexivity. }
  apply andb_true_iff in T as [T1 T]. apply on_ok_ex in T as (e & E' & T).
  exists ex_first, c2, d, e, 10%Q, 20%Q. split; [exact E|]. split; [exact E'|]. split; [reflexivity|]. split; [reflexivity|].
  split; [exact T1|]. apply (differ_different _ _ test T).
  intros [| |m f [] ri sp l s|] [| |m' f' [] ri' sp' l' s'|] Ht; try discriminate Ht. intros (_ & _ & K & _). discriminate.
Qed.
Print Assumptions C76_colour_refuted.
