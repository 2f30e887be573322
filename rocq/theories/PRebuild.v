(** Building again from the same description (C56). *)
From Coq Require Import String QArith ZArith Lia.
From Verif Require Import Py PyStr Parser StreamProofs Base Table PageGeom Content ContentFlow ContentState PContent PState Footnotes FootnotesProofs.
Open Scope list_scope.
Open Scope nat_scope.

(** ** The marks *)

(** The sections are changed by the build: a mark gets an id, a style and a
    variable. *)
Theorem C56_refuted : ~ (forall doc doc' fn, traverse [] doc = Ok (doc', fn) -> doc' = doc).
Proof.
  intros H. set (doc := NDict [(lit "footnote", NText (lit "a"))]).
  assert (E : match traverse [] doc with Ok (doc', _) => doc' <> doc | Err _ => False end) by (vm_compute; discriminate).
  destruct (traverse [] doc) as [[doc' fn]|] eqn:Et; [|exact E]. exact (E (H _ _ _ Et)).
Qed.
Print Assumptions C56_refuted.

Lemma traverse_unmarked n : forall fn, marks n = [] -> traverse fn n = Ok (n, fn).
Proof.
  induction n as [s|s|l IH|l IH|d IH] using node_ind'; intros fn H; try reflexivity; cbn [marks] in H; cbn [traverse].
  - match goal with |- bind (?all fn l) _ = _ => set (go := all) end.
    enough (X : go fn l = Ok (l, fn)) by (rewrite X; reflexivity).
    revert fn H. induction IH as [|x r Hx _ IHr]; intros fn H; [reflexivity|]. cbn [flat_map] in H. apply app_eq_nil in H as [H1 H2].
    cbn. rewrite (Hx fn H1). cbn [bind fst snd]. rewrite (IHr fn H2). reflexivity.
  - match goal with |- bind (?all fn l) _ = _ => set (go := all) end.
    enough (X : go fn l = Ok (l, fn)) by (rewrite X; reflexivity).
    revert fn H. induction IH as [|x r Hx _ IHr]; intros fn H; [reflexivity|]. cbn [flat_map] in H. apply app_eq_nil in H as [H1 H2].
    cbn. rewrite (Hx fn H1). cbn [bind fst snd]. rewrite (IHr fn H2). reflexivity.
  - destruct (dget (lit "footnote") d); [discriminate|].
    match goal with |- bind (?vals fn d) _ = _ => set (go := vals) end.
    enough (X : go fn d = Ok (d, fn)) by (rewrite X; reflexivity).
    revert fn H. induction IH as [|[k x] r Hx _ IHr]; intros fn H; [reflexivity|]. cbn [flat_map snd] in H, Hx. apply app_eq_nil in H as [H1 H2].
    cbn. rewrite (Hx fn H1). cbn [bind fst snd]. rewrite (IHr fn H2). reflexivity.
Qed.
(** Sections without footnotes are left as they are. *)
Theorem C56_unmarked_partial doc : marks doc = [] -> traverse [] doc = Ok (doc, []).
Proof. apply traverse_unmarked. Qed.
Print Assumptions C56_unmarked_partial.
Example C56_unmarked_applies :
  marks (NList [NDict [(lit "content", NList [NText (lit "a"); NTuple [NOther (lit "2"); NDict [(lit ".", NText (lit "b"))]]])]]) = [].
Proof. reflexivity. Qed.

(** Whether a dict can be a mark: its ids, if any, are a list. *)
Definition markable (d : list (str * node)) : Prop := match dget (lit "ids") d with None => True | Some (NList _) => True | _ => False end.
Lemma traverse_total n : forall fn, Forall markable (marks n) -> exists n' fn', traverse fn n = Ok (n', fn').
Proof.
  induction n as [s|s|l IH|l IH|d IH] using node_ind'; intros fn H; cbn [marks] in H; cbn [traverse]; eauto.
  - match goal with |- exists _ _, bind (?all fn l) _ = _ => set (go := all) end.
    enough (X : exists l' fn', go fn l = Ok (l', fn')) by (destruct X as (l' & fn' & ->); cbn; eauto).
    revert fn H. induction IH as [|x r Hx _ IHr]; intros fn H; [exists [], fn; reflexivity|]. cbn [flat_map] in H. apply Forall_app in H as [H1 H2].
    destruct (Hx fn H1) as (x' & f1 & E1). destruct (IHr f1 H2) as (r' & f2 & E2). exists (x' :: r'), f2. cbn. rewrite E1. cbn [bind fst snd]. rewrite E2. reflexivity.
  - match goal with |- exists _ _, bind (?all fn l) _ = _ => set (go := all) end.
    enough (X : exists l' fn', go fn l = Ok (l', fn')) by (destruct X as (l' & fn' & ->); cbn; eauto).
    revert fn H. induction IH as [|x r Hx _ IHr]; intros fn H; [exists [], fn; reflexivity|]. cbn [flat_map] in H. apply Forall_app in H as [H1 H2].
    destruct (Hx fn H1) as (x' & f1 & E1). destruct (IHr f1 H2) as (r' & f2 & E2). exists (x' :: r'), f2. cbn. rewrite E1. cbn [bind fst snd]. rewrite E2. reflexivity.
  - destruct (dget (lit "footnote") d) as [f|].
    + inversion H as [|? ? Hm _]. subst. unfold set_mark. unfold markable in Hm. destruct (dget (lit "ids") d) as [v|] eqn:Ei.
      * destruct v; try contradiction. rewrite Ei. cbn. eauto.
      * rewrite dget_dset_same. cbn. eauto.
    + match goal with |- exists _ _, bind (?vals fn d) _ = _ => set (go := vals) end.
      enough (X : exists l' fn', go fn d = Ok (l', fn')) by (destruct X as (l' & fn' & ->); cbn; eauto).
      revert fn H. induction IH as [|[k x] r Hx _ IHr]; intros fn H; [exists [], fn; reflexivity|]. cbn [flat_map snd] in H, Hx. apply Forall_app in H as [H1 H2].
      destruct (Hx fn H1) as (x' & f1 & E1). destruct (IHr f1 H2) as (r' & f2 & E2). exists ((k, x') :: r'), f2. cbn. rewrite E1. cbn [bind fst snd]. rewrite E2. reflexivity.
Qed.

(** A mark after another build: all that it has is the same, but the last id,
    which is there twice. *)
Definition named_again (d d' : list (str * node)) : Prop :=
  (exists l x, dget (lit "ids") d = Some (NList (l ++ [x])) /\ dget (lit "ids") d' = Some (NList (l ++ [x; x]))) /\
  forall key, key <> lit "ids" -> dget key d' = dget key d.
Lemma labelled_again k d d1 d2 : labelled k d d1 -> labelled k d1 d2 -> named_again d1 d2.
Proof.
  intros ((l & _ & A1) & A2 & A3 & A4) ((l' & B0 & B1) & B2 & B3 & B4). split.
  - exists l, (NText (name_of k)). split; [exact A1|]. rewrite A1 in B0. destruct B0 as [B0|[B0 _]]; [|discriminate]. injection B0 as <-. rewrite B1, <- app_assoc. reflexivity.
  - intros key Hk. destruct (str_eqb key (lit "var")) eqn:E1; [apply str_eqb_eq in E1; subst; congruence|].
    destruct (str_eqb key (lit "style")) eqn:E2; [apply str_eqb_eq in E2; subst; congruence|].
    apply B4. intros [X|[X|[X|[]]]]; [apply Hk; symmetry; exact X| |].
    + apply (f_equal (fun s => str_eqb s (lit "var"))) in X. rewrite E1 in X. vm_compute in X. discriminate.
    + apply (f_equal (fun s => str_eqb s (lit "style"))) in X. rewrite E2 in X. vm_compute in X. discriminate.
Qed.
(** Building again from the same sections: it has the same footnotes, and each
    mark the same name. *)
Theorem C56_marks_again_partial doc doc1 fn : traverse [] doc = Ok (doc1, fn) ->
  exists doc2, traverse [] doc1 = Ok (doc2, fn) /\ Forall2 named_again (marks doc1) (marks doc2).
Proof.
  intros H. apply traverse_ok in H as [H1 H2]. cbn [app length] in *.
  assert (Hm : Forall markable (marks doc1)).
  { clear H1. revert H2. generalize 0 as k. generalize (marks doc) as a. induction (marks doc1) as [|d l IH]; intros [|d0 a] k H; cbn in H; try contradiction; [constructor|].
    destruct H as [((l0 & _ & X) & _) H]. constructor; [unfold markable; rewrite X; exact I|exact (IH _ _ H)]. }
  destruct (traverse_total doc1 [] Hm) as (doc2 & fn2 & E). pose proof (traverse_ok _ _ _ _ E) as [E1 E2]. cbn [app length] in *. exists doc2.
  assert (Hn : forall a k b, all_labelled k a b -> map note b = map note a).
  { induction a as [|d a IH]; intros k [|d' b] X; cbn in X; try contradiction; [reflexivity|]. destruct X as [X1 X2]. cbn [map]. f_equal; [|exact (IH _ _ X2)].
    unfold note. rewrite (labelled_footnote _ _ _ X1). reflexivity. }
  split; [rewrite E; do 2 f_equal; rewrite E1, H1; eapply Hn; exact H2|].
  clear - H2 E2. revert H2 E2. generalize 0 as k. generalize (marks doc) as a. generalize (marks doc2) as c. induction (marks doc1) as [|d l IH]; intros [|d2 c] [|d0 a] k H2 E2; cbn in *; try contradiction; [constructor|].
  destruct H2 as [A1 A2]. destruct E2 as [B1 B2]. constructor; [eapply labelled_again; eassumption|exact (IH _ _ _ A2 B2)].
Qed.
Print Assumptions C56_marks_again_partial.

(** A section that was in a document is put in another: its mark still has the
    old name, and the number of that name is not of a footnote of the new
    document. *)
Definition rb_section (text : str) : node := NDict [(lit "content", NList [NDict [(lit "footnote", NText text)]])].
Theorem C56_reuse_refuted :
  match traverse [] (NList [rb_section (lit "a"); rb_section (lit "b")]) with
  | Ok (NList [_; b], _) =>
      match traverse [] (NList [b]) with
      | Ok (doc, fn) => map (dget (lit "ids")) (marks doc) = [Some (NList [NText (name_of 1); NText (name_of 0)])] /\
                        length fn = 1 /\ check_ids fn [] [] [(name_of 1, 1); (name_of 0, 1)] = Err IndexError
      | Err _ => False
      end
  | _ => False
  end.
Proof. vm_compute. auto. Qed.
Print Assumptions C56_reuse_refuted.

(** ** The styles *)

(** content.py 1075-1084 [get_element_styles]: the style inherited, that of the
    key, and that of the element.  The style of a paragraph is set to it (line
    854); that of a section, in document.py 296-305, in the same way (without
    key). *)
Definition merged {V} (inherited key own : list (str * V)) : list (str * V) := dupdate (dupdate inherited key) own.
(** With the style set to it, it is the same. *)
Theorem C56_styles_again {V} (inherited key own : list (str * V)) : NoDup (keys own) -> NoDup (keys inherited) ->
  forall k, dget k (merged inherited key (merged inherited key own)) = dget k (merged inherited key own).
Proof.
  intros H1 H2 k. unfold merged at 1.
  assert (Hd : forall (e d : list (str * V)), NoDup (keys d) -> NoDup (keys (dupdate d e))).
  { induction e as [|[a v] e IH]; intros d Hd; cbn [dupdate]; [exact Hd|]. apply IH. apply nodup_dset. exact Hd. }
  rewrite dupdate_dget by (apply Hd, Hd, H2). destruct (dget k (merged inherited key own)) eqn:E; [reflexivity|].
  unfold merged in E. rewrite dupdate_dget in E by exact H1. destruct (dget k own); [discriminate|]. exact E.
Qed.
Print Assumptions C56_styles_again.
Example C56_styles_applies :
  merged [(lit "s", 10); (lit "c", 1)] [(lit "b", 1)] [(lit "s", 12)] = [(lit "s", 12); (lit "c", 1); (lit "b", 1)].
Proof. reflexivity. Qed.

(** ** The boxes *)
Section Boxes.
Context {E O S P L K : Type}.
Variable start : E -> res O.
Variable crun : O -> Q -> Q -> Q -> Q -> res (O * Q * bool * list P * list L).
Variable save : O -> S.
Variable restore : O -> S -> O.
Variable kind : O -> K.
Hypothesis kind_run : forall o x y w h o' ht fin ps ls, crun o x y w h = Ok (o', ht, fin, ps, ls) -> kind o' = kind o.
Hypothesis kind_restore : forall o sv, kind (restore o sv) = kind o.
Hypothesis same_restore : forall o o' sv, kind o = kind o' -> restore o sv = restore o' sv.
Notation content := (@content E O S).
Notation runs := (runs start crun save restore).

(** A box of the same elements as one that was run: the times that its images
    and groups were tried stay in them. *)
Definition again (c : content) : content := mkC (c_elems c) (c_cols c) (c_gap c) None false [] (c_tries c).

(** Run again in the same rectangles, if nothing is raised, all is as the first
    time; and nothing is if no image or group had to wait. *)
Theorem C56_boxes_again_partial fuel rs elems cols gap c outs : runs fuel rs (fresh_content elems cols gap) = Done (c, outs) ->
  (forall c' outs', runs fuel rs (again c) = Done (c', outs') -> outs' = outs /\ c_finished c' = c_finished c) /\
  ((forall i, c_tries c i = 0) -> exists c', runs fuel rs (again c) = Done (c', outs) /\ c_finished c' = c_finished c).
Proof.
  intros H.
  assert (Hself : c_elems c = elems /\ c_cols c = cols /\ c_gap c = gap).
  { assert (Hf : rc kind true (fresh_content (O := O) (S := S) elems cols gap) (fresh_content elems cols gap)) by (repeat split).
    pose proof (runs_sim start crun save restore kind kind_run kind_restore same_restore true fuel rs _ _ Hf I) as X. rewrite H in X. apply done_self in X. cbn [fst snd] in X.
    destruct X as (_ & _ & _ & _ & A3 & A4 & A5 & _). auto. }
  destruct Hself as (E1 & E2 & E3).
  assert (Hrc : forall strict, (strict = true -> forall i, c_tries c i = 0) -> rc kind strict (fresh_content elems cols gap) (again c)).
  { intros strict Ht. split; [exact E1|]. split; [exact E2|]. split; [exact E3|]. split; [reflexivity|]. split; [exact I|]. exact Ht. }
  split.
  - intros c' outs' H'. pose proof (runs_sim start crun save restore kind kind_run kind_restore same_restore false fuel rs _ _ (Hrc false ltac:(discriminate)) I) as X.
    rewrite H, H' in X. apply done_self in X. cbn [fst snd] in X. destruct X as (D1 & D2 & _). split; [exact D1|apply D2].
  - intros Ht. pose proof (runs_sim start crun save restore kind kind_run kind_restore same_restore true fuel rs _ _ (Hrc true (fun _ => Ht)) I) as [X|[X _]]; [|discriminate].
    rewrite H in X. destruct (runs fuel rs (again c)) as [[c' outs']|e|]; try contradiction. cbn [fst snd] in X. destruct X as (D1 & D2 & _). subst outs'. exists c'. split; [reflexivity|apply D2].
Qed.
End Boxes.
Print Assumptions C56_boxes_again_partial.

(** A paragraph, and an image that is put on the second page: the image is tried
    once more in each build, and the 51st build raises. *)
Definition rb_box : list (@elem (nat * nat)) := [Leaf ex_style (1, 3); Image ex_style 0 100 40].
Definition rb_runs := ex_runs3 20 [mkRect 0 500 100 60; mkRect 0 500 100 60].
Fixpoint rb_builds (n : nat) (c : @content (nat * nat) (nat * nat) nat) : ans (@content (nat * nat) (nat * nat) nat) :=
  match n with
  | 0 => Done c
  | Datatypes.S n => run! (c1, _) <- rb_runs c; rb_builds n (again c1)
  end.
Theorem C56_tries_refuted :
  match rb_builds 50 (fresh_content rb_box 1 None) with
  | Done c => c_elems c = rb_box /\ c_cols c = 1 /\ rb_runs c = Raise PyException /\
      match rb_runs (fresh_content rb_box 1 None) with Done (c1, outs) => c_finished c1 = true /\ length outs = 2 /\ c_tries c1 0 = 1 | _ => False end
  | _ => False
  end.
Proof. vm_compute. auto 10. Qed.
Print Assumptions C56_tries_refuted.
Example C56_boxes_applies :
  match rb_runs (fresh_content rb_box 1 None) with
  | Done (c, outs) => match rb_runs (again c) with Done (c2, outs2) => outs2 = outs /\ c_tries c2 0 = 2 /\ ex_shown outs = [[(1, 3, 3)]; [(0, 0, 100)]] | _ => False end
  | _ => False
  end.
Proof. vm_compute. auto. Qed.
