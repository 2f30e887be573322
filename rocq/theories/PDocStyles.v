(** C79: the styles of the sections, running sections and notes of a document. *)
From Coq Require Import String ZArith Lia.
From Verif Require Import Py PyStr Parser StreamProofs Styles PStyles DocStyles.
Open Scope list_scope.
Open Scope nat_scope.

Section Theorems.
Context {V : Type}.
Variables none five : V.
Variables helvetica eleven tenth left_ eleven_tenths zero half six ten footnote_name : V.
Variable note_text : nat -> V.
Variable parse_str : str -> res (sdict V).
Notation doc_formats := (doc_formats zero half six ten).
Notation format_of := (format_of zero half six ten).
Notation given := (given zero half six ten).
Notation style_is := (style_is none five zero half six ten parse_str).
Notation constants := (constants helvetica eleven tenth left_ eleven_tenths zero).
Notation section_styles := (section_styles none five helvetica eleven tenth left_ eleven_tenths zero half six ten parse_str).
Notation running_styles := (running_styles none five helvetica eleven tenth left_ eleven_tenths zero half six ten parse_str).
Notation notes_styles := (notes_styles none five helvetica eleven tenth left_ eleven_tenths zero half six ten footnote_name note_text parse_str).
Notation numbered_notes := (numbered_notes footnote_name note_text).

(** Names of styles: those of the document, and two for notes that can be
    replaced. *)
Theorem C79_formats : forall (d : doc (V := V)) n,
  (has_format d n <-> exists st, doc_formats d n = Some st) /\
  (forall st, doc_formats d n = Some st -> forall k, st k = format_of d n k).
Proof.
  intros d n. pose proof (format_of_eq zero half six ten d n) as H. split; [split|].
  - intros Hn. destruct (doc_formats d n) as [st|]; [exists st; reflexivity|]. destruct H as [H _]. contradiction.
  - intros [st E]. unfold DocStyles.doc_formats in E. unfold has_format. destruct (g_formats d n); [left; discriminate|right].
    destruct (str_eqb n (lit "$footnotes")) eqn:E1; [right; now apply str_eqb_eq|].
    destruct (str_eqb n (lit "$footnote")) eqn:E2; [left; now apply str_eqb_eq|discriminate].
  - intros st E. rewrite E in H. exact H.
Qed.

Lemma default_base (d : doc (V := V)) k :
  default_style (doc_defaults helvetica eleven tenth left_ eleven_tenths zero d) k =
  match dget k constants with Some c => first_said [g_style d k; Some c] | None => None end.
Proof.
  rewrite default_eq. unfold DocStyles.constants. cbn [existsb dget fst].
  repeat (rewrite (str_eqb_sym k); destruct (str_eqb _ k); [reflexivity|]). reflexivity.
Qed.
Lemma base_is d above u t :
  style_is d above (fun k => [default_style (doc_defaults helvetica eleven tenth left_ eleven_tenths zero d) k]) u t ->
  style_is d above (fun k => [match dget k constants with Some c => first_said [g_style d k; Some c] | None => None end]) u t.
Proof.
  destruct u as [st|st], t as [w|w inner]; cbn [DocStyles.style_is]; try (intros []; fail); [|auto].
  intros H k Hk. rewrite (H k Hk), default_base. reflexivity.
Qed.
Lemma Forall2_impl' {A B} (P Q : A -> B -> Prop) l m : (forall a b, P a b -> Q a b) -> Forall2 P l m -> Forall2 Q l m.
Proof. intros H F. induction F; constructor; auto. Qed.
Lemma Forall2_map_r {A B C} (P : A -> C -> Prop) (f : B -> C) l m : Forall2 P l (map f m) -> Forall2 (fun a b => P a (f b)) l m.
Proof.
  revert l. induction m as [|b m IH]; intros l H; inversion H; subst; constructor; auto.
Qed.
Lemma known_format d st : known (doc_formats d) st <-> match st with SName n => has_format d n | SOther => False | _ => True end.
Proof.
  destruct st as [|n|x|]; cbn; try tauto. rewrite (proj1 (C79_formats d n)).
  destruct (doc_formats d n); split; try discriminate; try congruence; [intros _; eexists; reflexivity|intros [st E]; discriminate].
Qed.

(** Sections: the style of every paragraph and image of a section has for every
    key what is said first from the element outwards, then by the section, then
    by the style of the document, and else what [PDF] has; the margins and fills
    of cells come in the same way.  Sections can always be styled when the names
    of styles are known and the style strings right. *)
Theorem C79_sections : forall (d : doc (V := V)) s,
  (match s_style s with SName n => has_format d n | SOther => False | _ => True end ->
   All (fine (doc_formats d) parse_str InBox) (s_content s) -> exists outs, section_styles d s = Ok outs) /\
  (forall outs, section_styles d s = Ok outs ->
     Forall2 (style_is d (fun k => [given d (s_style s) k; g_style d k]) (fun k => [dget k constants]))
       outs (flat_map (targets InBox) (s_content s))).
Proof.
  intros d s. unfold DocStyles.section_styles, section_box. split.
  - intros Hk Hf. apply known_format in Hk.
    assert (P : exists own, process_style (doc_formats d) (s_style s) = Ok own).
    { destruct (s_style s) as [|n|x|]; cbn in *; try (eexists; reflexivity); [|contradiction].
      destruct (doc_formats d n) as [st|]; [eexists; reflexivity|congruence]. }
    destruct P as [own ->]. cbn [bind]. apply (C66_styles_partial none five (doc_formats d) parse_str). cbn [fine style_of known].
    split; [exact I|]. split; [discriminate|exact Hf].
  - intros outs E. destruct (process_style (doc_formats d) (s_style s)) as [own|] eqn:Eo; [|discriminate]. cbn [bind] in E.
    apply (C66_styles_partial none five (doc_formats d) parse_str) in E.
    set (root := EBox (SDict (update (g_style d) own)) (s_content s)) in *. cbn [targets is_cell app] in E. unfold root in E at 1.
    apply Forall2_map_r in E.
    assert (Ho : forall k, own k = given d (s_style s) k).
    { intros k. destruct (s_style s) as [|n|x|]; cbn in Eo |- *; try (injection Eo as <-; reflexivity); try discriminate.
      destruct (doc_formats d n) as [st|] eqn:En; [|discriminate]. injection Eo as <-. exact (proj2 (C79_formats d n) _ En k). }
    refine (Forall2_impl' _ _ _ _ _ E). intros u t H.
    apply said_is in H. apply under_is with (above := fun k => [given d (s_style s) k; g_style d k]) in H.
    + change (fun k => dget k (document_says (doc_defaults helvetica eleven tenth left_ eleven_tenths zero d)))
        with (default_style (doc_defaults helvetica eleven tenth left_ eleven_tenths zero d)) in H.
      destruct u as [st|st], t as [w|w inner]; cbn [DocStyles.style_is] in *; try contradiction; [|exact H].
      intros k Hk. rewrite (H k Hk), !first_said_app. cbn [app]. destruct (first_said _); [reflexivity|].
      pose proof (default_base d k) as Hd. unfold default_style in Hd at 1. cbn [first_said]. destruct (given d (s_style s) k); [reflexivity|].
      destruct (g_style d k) eqn:Eg; [reflexivity|].
      change (dget k (document_says (doc_defaults helvetica eleven tenth left_ eleven_tenths zero d)))
        with (default_style (doc_defaults helvetica eleven tenth left_ eleven_tenths zero d) k). rewrite default_base, Eg.
      destruct (dget k constants); reflexivity.
    + intros k. unfold tells. cbn [style_of DocStyles.given root first_said]. unfold update. rewrite Ho.
      destruct (given d (s_style s) k); [reflexivity|]. destruct (g_style d k); reflexivity.
Qed.

(** What the elements of running sections and notes have when nothing is said:
    for the keys of text, the style of the document, or what [PDF] has. *)
Definition outside (d : doc (V := V)) (k : str) : list (option V) :=
  [match dget k constants with Some c => first_said [g_style d k; Some c] | None => None end].

(** Running sections: the style of the document counts for the keys of text
    only. *)
Theorem C79_running : forall (d : doc (V := V)) name e, dget name (g_running d) = Some e ->
  (fine (doc_formats d) parse_str InBox e -> exists outs, running_styles d name = Ok outs) /\
  (forall outs, running_styles d name = Ok outs -> Forall2 (style_is d (fun _ => []) (outside d)) outs (targets InBox e)).
Proof.
  intros d name e He. unfold DocStyles.running_styles. rewrite He. split; [apply C66_styles_partial|].
  intros outs E. apply C66_styles_partial in E. refine (Forall2_impl' _ _ _ _ _ E). intros u t H.
  apply said_is in H. apply base_is. exact H.
Qed.

(** A note as it is shown: with its number as list text, in the style of the
    marks. *)
Definition shown_note (n : nat) (e e' : elem V) : Prop :=
  exists st, e' = with_style e (SDict st) /\
    forall k, st k = if str_eqb k (lit "list_text") then Some (note_text n)
                     else if str_eqb k (lit "list_style") then Some footnote_name
                     else match style_of e with SDict x => x k | _ => None end.
Fixpoint shown_notes (n : nat) (l m : list (elem V)) : Prop :=
  match l, m with [], [] => True | e :: l', e' :: m' => shown_note n e e' /\ shown_notes (S n) l' m' | _, _ => False end.
Lemma ok_inj {A} (a b : A) : Ok a = Ok b -> a = b.
Proof. congruence. Qed.
Lemma numbered_shown l : forall n m, numbered_notes n l = Ok m -> shown_notes (S n) l m.
Proof.
  induction l as [|e l IH]; intros n m E; cbn [DocStyles.numbered_notes] in E; [injection E as <-; exact I|].
  destruct (numbered_note footnote_name note_text (S n) e) as [x|] eqn:E1; [|discriminate]. cbn [bind] in E.
  destruct (numbered_notes (S n) l) as [y|] eqn:E2; [|discriminate]. injection E as <-. cbn [shown_notes]. split; [|apply IH; exact E2].
  unfold numbered_note in E1. destruct (style_of e) as [|nm|x0|] eqn:Es; try discriminate; apply ok_inj in E1; subst x; eexists; (split; [reflexivity|]);
    intros k; unfold update, single, empty; rewrite ?Es; destruct (str_eqb k (lit "list_style")) eqn:E3;
    try (apply str_eqb_eq in E3 as ->; reflexivity); destruct (str_eqb k (lit "list_text")); reflexivity.
Qed.
Lemma numbered_ok l : forall n, (forall e, In e l -> match style_of e with SNone | SDict _ => True | _ => False end) ->
  exists m, numbered_notes n l = Ok m.
Proof.
  induction l as [|e l IH]; intros n H; cbn [DocStyles.numbered_notes]; [eexists; reflexivity|].
  destruct (IH (S n) (fun x Hx => H x (or_intror Hx))) as [m ->]. pose proof (H e (or_introl eq_refl)) as He. unfold numbered_note.
  destruct (style_of e); try contradiction; eexists; reflexivity.
Qed.
Lemma fine_styled d e st : fine (doc_formats d) parse_str InBox e -> fine (doc_formats d) parse_str InBox (with_style e (SDict st)).
Proof. destruct e; cbn [fine with_style style_of known]; tauto. Qed.
Lemma numbered_fine d l : forall n m, All (fine (doc_formats d) parse_str InBox) l -> shown_notes n l m -> All (fine (doc_formats d) parse_str InBox) m.
Proof.
  induction l as [|e l IH]; intros n [|x m] H S; try contradiction; [exact I|]. destruct S as [(st & -> & _) S], H as [H1 H2].
  cbn [All]. split; [apply fine_styled; exact H1|]. exact (IH _ _ H2 S).
Qed.

(** The notes of a page: each is shown with its number; the elements of a note
    have what is said first in the note, then by the format [$footnotes], then
    for the keys of text by the style of the document, and else what [PDF] has.
    Notes whose style is not a name can always be shown. *)
Theorem C79_notes_partial : forall (d : doc (V := V)) notes,
  ((forall e, In e notes -> match style_of e with SNone | SDict _ => True | _ => False end) ->
   All (fine (doc_formats d) parse_str InBox) notes -> exists outs, notes_styles d notes = Ok outs) /\
  (forall outs, notes_styles d notes = Ok outs -> exists shown, shown_notes 1 notes shown /\
     Forall2 (style_is d (fun k => [format_of d (lit "$footnotes") k]) (outside d)) outs (flat_map (targets InBox) shown)).
Proof.
  intros d notes. unfold DocStyles.notes_styles. split.
  - intros Hs Hf. destruct (numbered_ok notes 0 Hs) as [m Em]. rewrite Em. cbn [bind].
    apply (C66_styles_partial none five (doc_formats d) parse_str). cbn [fine style_of]. split; [|split; [discriminate|]].
    + apply known_format. right. right. reflexivity.
    + exact (numbered_fine d _ _ _ Hf (numbered_shown _ _ _ Em)).
  - intros outs E. destruct (numbered_notes 0 notes) as [m|] eqn:Em; [|discriminate]. cbn [bind] in E. exists m.
    split; [exact (numbered_shown _ _ _ Em)|]. apply C66_styles_partial in E. cbn [targets is_cell app] in E. apply Forall2_map_r in E.
    refine (Forall2_impl' _ _ _ _ _ E). intros u t H. apply said_is in H.
    apply under_is with (above := fun k => [format_of d (lit "$footnotes") k]) in H.
    + apply base_is. exact H.
    + intros k. unfold tells. cbn [style_of DocStyles.given first_said]. destruct (format_of d (lit "$footnotes") k); reflexivity.
Qed.
End Theorems.
Print Assumptions C79_formats.
Print Assumptions C79_sections.
Print Assumptions C79_running.
Print Assumptions C79_notes_partial.

(** ** What is not so *)

(** A note whose style is a name, which sections, boxes and paragraphs may have:
    it cannot be shown (document.py 452-455 updates a string). *)
Theorem C79_notes_refuted : exists (d : doc (V := nat)) (notes : list (elem nat)),
  (forall e, In e notes -> match style_of e with SName n => has_format d n | SOther => False | _ => True end) /\
  All (fine (doc_formats 0 1 6 10 d) no_strings InBox) notes /\
  notes_styles 0 5 1 11 2 3 4 0 1 6 10 7 (fun n => n) no_strings d notes = Err AttributeError.
Proof.
  exists (mkDoc empty names [] []), [EPar [] (SName (lit "big"))]. split; [|split; [|reflexivity]].
  - intros e [<-|[]]. left. discriminate.
  - cbn. split; [|exact I]. split; [discriminate|]. eexists. reflexivity.
Qed.
Print Assumptions C79_notes_refuted.

(** ** A document *)

(** The document says size 20 and bold, its first section size 10; it has a
    running section and two notes.  Bold is not for running sections and notes. *)
Definition a_doc : doc (V := nat) :=
  mkDoc (update (single (lit "s") 20) (single (lit "b") 1)) names [(lit "header", EBox SNone [a_par])]
    [mkSection (says_size 10) [a_par; EPar (lit "s:7") SNone; EBox (SName (lit "big")) [a_par]]; mkSection SNone [a_par]].
Definition shows (r : res (list (used nat))) (keys : list string) : list (list (option nat)) :=
  match r with Ok l => map (fun u => match u with ULeaf st | UCell st => map (fun k => st (lit k)) keys end) l | Err _ => [] end.
Example C79_applies :
  (forall s, In s (g_sections a_doc) -> match s_style s with SName n => has_format a_doc n | SOther => False | _ => True end /\
     All (fine (doc_formats 0 1 6 10 a_doc) strings InBox) (s_content s)) /\
  map (fun s => shows (section_styles 0 5 1 11 2 3 4 0 1 6 10 strings a_doc s) ["s"; "b"; "f"]%string) (g_sections a_doc) =
    [[[Some 10; Some 1; Some 1]; [Some 7; Some 1; Some 1]; [Some 30; Some 1; Some 1]]; [[Some 20; Some 1; Some 1]]] /\
  shows (running_styles 0 5 1 11 2 3 4 0 1 6 10 strings a_doc (lit "header")) ["s"; "b"; "f"]%string = [[Some 20; None; Some 1]] /\
  shows (notes_styles 0 5 1 11 2 3 4 0 1 6 10 7 (fun n => 100 + n) strings a_doc [a_par; EPar [] (says_size 3)]) ["s"; "b"; "list_text"]%string =
    [[Some 10; None; Some 101]; [Some 3; None; Some 102]].
Proof.
  split; [|split; [reflexivity|split; reflexivity]].
  intros s [<-|[<-|[]]]; cbn; repeat first [split|discriminate|exact I|eexists; reflexivity].
Qed.
