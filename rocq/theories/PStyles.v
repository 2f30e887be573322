(** C66: where the style of every paragraph, image and cell comes from. *)
From Coq Require Import String ZArith Lia.
From Verif Require Import Py PyStr Parser StreamProofs Styles.
Open Scope list_scope.
Open Scope nat_scope.

(** Every key of the style of a paragraph or image is the one of the nearest
    element around it that says something about it (the element itself before
    the elements it is in, and the style of an element before its style string),
    and the default of the document if none does.  The margins and fill of a cell
    are those of the nearest of the cell, its table and the boxes it is in; a
    margin for a side comes before the margin for all, and the margin is 5 and
    there is no fill when nothing is said.  The styles can always be used when
    the names of styles are known and their strings right.

    Not so, and why this is partial: an element that is in the document at two
    places has the style of the first at the second; the margins and fill of the
    cells of a table that is itself in a cell do not come from the style of the
    table; the method [text] of the document does not use its line height and
    indent. *)
Definition document_says {V : Type} (d : defaults V) : list (str * V) :=
  [(lit "f", df_f d); (lit "s", df_s d); (lit "c", df_c d); (lit "text_align", df_align d); (lit "line_height", df_lh d); (lit "indent", df_indent d)].
Theorem C66_styles_partial {V : Type} (none five : V) (formats : str -> option (sdict V)) (parse_str : str -> res (sdict V)) (d : defaults V) (e : elem V) :
  (fine formats parse_str InBox e -> exists outs, document_styles none five formats parse_str d e = Ok outs) /\
  (forall outs, document_styles none five formats parse_str d e = Ok outs ->
     Forall2 (as_said none five formats parse_str (fun k => dget k (document_says d))) outs (targets InBox e)).
Proof.
  split; [apply styles_ok|]. intros outs E.
  change (default_style d) with (fun k => dget k (document_says d)) in *.
  apply (styles_rel none five formats parse_str e InBox (fun k => dget k (document_says d)) outs) in E; [|discriminate].
  assert (B : forall k, In k cell_keys -> dget k (document_says d) = None).
  { intros k Hk. cbv [cell_keys margins app In] in Hk.
    repeat match type of Hk with _ \/ _ => destruct Hk as [<-|Hk]; [reflexivity|] end. destruct Hk. }
  clear - E B. induction E; constructor; [|assumption]. apply rel_said; assumption.
Qed.

(** ** What is not so *)
Definition no_names : str -> option (sdict nat) := fun _ => None.
Definition no_strings : str -> res (sdict nat) := fun _ => Ok empty.
Definition says_size (v : nat) : sty nat := SDict (single (lit "s") v).
Definition a_par : elem nat := EPar [] SNone.

(** A dict used at two places: under a box with size 20 and one with size 8, the
    second has the size of the first. *)
Theorem C66_shared_refuted :
  ~ (forall (own : sdict nat) (parents : list (sdict nat)) n inherited k v, nth_error parents n = Some inherited ->
       own k = None -> inherited k = Some v -> exists st, nth_error (shared_styles own parents) n = Some st /\ st k = Some v).
Proof.
  intros H. destruct (H empty [single (lit "s") 20; single (lit "s") 8] 1 _ (lit "s") 8 eq_refl eq_refl eq_refl) as (st & E & K).
  cbn in E. injection E as <-. cbv in K. discriminate K.
Qed.
(** A table in a cell whose style has a cell margin: its cells do not have it. *)
Theorem C66_inner_table_refuted :
  ~ (forall (d : defaults nat) (outer : sty nat) (inner : sdict nat) v outs,
       inner (lit "cell_margin") = Some v ->
       document_styles 0 5 no_names no_strings d (ETable outer [[ETable (SDict inner) [[a_par]]]]) = Ok outs ->
       exists st, In (UCell st) (tl outs) /\ st (lit "cell_margin_top") = Some v).
Proof.
  intros H. destruct (document_styles 0 5 no_names no_strings (mkDefaults 0 1 2 3 4 5) (ETable SNone [[ETable (SDict (single (lit "cell_margin") 2)) [[a_par]]]])) as [outs|] eqn:E;
    [|discriminate E].
  destruct (H _ _ _ 2 _ eq_refl E) as (st & Hin & K). cbn in E. injection E as <-. cbn [tl In] in Hin.
  destruct Hin as [Hin|[Hin|[]]]; [|discriminate Hin]. injection Hin as <-. vm_compute in K. discriminate K.
Qed.
(** [text] without a line height: it is not the one of the document. *)
Theorem C66_text_refuted :
  ~ (forall (d : defaults nat) lh indent, snd (fst (paragraph_style d lh indent (mkArgs None None None))) = df_lh d).
Proof. intros H. specialize (H (mkDefaults 0 1 2 3 4 5) 11 0). discriminate H. Qed.

(** ** A document with a box, a group and tables *)
Definition a_document : elem nat :=
  EBox (says_size 10)
    [a_par;
     EGroup (SName (lit "big")) [a_par; EPar (lit "s:7") SNone];
     ETable (SDict (single (lit "cell_margin") 2)) [[a_par; EPar (lit "s:7") (SDict (update (single (lit "s") 6) (single (lit "cell_margin_top") 9)))]]].
Definition names : str -> option (sdict nat) := fun n => if str_eqb n (lit "big") then Some (single (lit "s") 30) else None.
Definition strings : str -> res (sdict nat) := fun s => if str_eqb s [] then Ok empty else Ok (single (lit "s") 7).
Example C66_applies :
  fine names strings InBox a_document /\
  exists outs, document_styles 0 5 names strings (mkDefaults 0 1 2 3 4 5) a_document = Ok outs /\
    map (fun u => match u with ULeaf st => (st (lit "s"), st (lit "f")) | UCell st => (st (lit "cell_margin_top"), st (lit "cell_margin_left")) end) outs
      = [(Some 10, Some 0); (Some 30, Some 0); (Some 7, Some 0); (Some 2, Some 2); (Some 10, Some 0); (Some 9, Some 2); (Some 6, Some 0)].
Proof.
  split.
  - cbn. repeat first [split|discriminate|exact I|eexists; reflexivity].
  - eexists. split; reflexivity.
Qed.
Print Assumptions C66_styles_partial.
Print Assumptions C66_shared_refuted.
Print Assumptions C66_inner_table_refuted.
Print Assumptions C66_text_refuted.
