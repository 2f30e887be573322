(** Proofs about footnotes (Footnotes.v). *)
From Coq Require Import String QArith ZArith Lia Lqa.
From Verif Require Import Py PyStr Parser StreamProofs Ranges Base Table Content Footnotes.
Open Scope list_scope.
Open Scope nat_scope.

(** ** The marks of a document *)

(** The dicts of the marks of a document, in its order. *)
Fixpoint marks (n : node) : list (list (str * node)) :=
  match n with
  | NText _ | NOther _ => []
  | NList l | NTuple l => flat_map marks l
  | NDict d => match dget (lit "footnote") d with
               | Some _ => [d]
               | None => flat_map (fun kv => marks (snd kv)) d
               end
  end.
(** The footnote of a mark. *)
Definition note (d : list (str * node)) : node := match dget (lit "footnote") d with Some f => wrap f | None => NList [] end.
(** [d'] is [d] named as the mark number [k]. *)
Definition labelled (k : nat) (d d' : list (str * node)) : Prop :=
  (exists l, (dget (lit "ids") d = Some (NList l) \/ dget (lit "ids") d = None /\ l = []) /\
     dget (lit "ids") d' = Some (NList (l ++ [NText (name_of k)]))) /\
  dget (lit "var") d' = Some (NText (name_of k)) /\ dget (lit "style") d' = Some (NText (lit "$footnote")) /\
  forall key, ~ In key [lit "ids"; lit "var"; lit "style"] -> dget key d' = dget key d.
Fixpoint all_labelled (k : nat) (l l' : list (list (str * node))) : Prop :=
  match l, l' with
  | [], [] => True
  | d :: r, d' :: r' => labelled k d d' /\ all_labelled (Datatypes.S k) r r'
  | _, _ => False
  end.

Section NodeInd.
Variable R : node -> Prop.
Hypothesis Htext : forall s, R (NText s).
Hypothesis Hother : forall s, R (NOther s).
Hypothesis Hlist : forall l, Forall R l -> R (NList l).
Hypothesis Htuple : forall l, Forall R l -> R (NTuple l).
Hypothesis Hdict : forall d, Forall (fun kv => R (snd kv)) d -> R (NDict d).
Fixpoint node_ind' (n : node) : R n :=
  match n with
  | NText s => Htext s
  | NOther s => Hother s
  | NList l => Hlist l ((fix go l : Forall R l := match l with [] => Forall_nil _ | x :: r => Forall_cons _ (node_ind' x) (go r) end) l)
  | NTuple l => Htuple l ((fix go l : Forall R l := match l with [] => Forall_nil _ | x :: r => Forall_cons _ (node_ind' x) (go r) end) l)
  | NDict d => Hdict d ((fix go d : Forall (fun kv => R (snd kv)) d :=
                 match d with [] => Forall_nil _ | x :: r => Forall_cons x (node_ind' (snd x)) (go r) end) d)
  end.
End NodeInd.

Lemma all_labelled_app k a a' b b' : all_labelled k a a' -> all_labelled (k + length a) b b' -> all_labelled k (a ++ b) (a' ++ b').
Proof.
  revert k a'. induction a as [|d a IH]; intros k [|d' a'] H1 H2; cbn in *; try contradiction.
  - rewrite Nat.add_0_r in H2. exact H2.
  - destruct H1 as [H0 H1]. split; [exact H0|]. apply IH; [exact H1|]. replace (Datatypes.S k + length a) with (k + Datatypes.S (length a)) by lia. exact H2.
Qed.

Lemma set_mark_ok k d d' : set_mark (name_of k) d = Ok d' -> labelled k d d'.
Proof.
  unfold set_mark. intros H.
  assert (Hd1 : exists l d1, match dget (lit "ids") d with Some _ => d | None => dset (lit "ids") (NList []) d end = d1 /\
     dget (lit "ids") d1 = Some (NList l) /\ (dget (lit "ids") d = Some (NList l) \/ dget (lit "ids") d = None /\ l = []) /\
     forall key, key <> lit "ids" -> dget key d1 = dget key d).
  { destruct (dget (lit "ids") d) as [v|] eqn:E.
    - rewrite E in H. destruct v as [| |l| |]; try discriminate. exists l, d. rewrite E. auto.
    - exists [], (dset (lit "ids") (NList []) d). split; [reflexivity|]. split; [apply dget_dset_same|]. split; [auto|].
      intros key Hk. apply dget_dset_other. congruence. }
  destruct Hd1 as (l & d1 & E1 & E2 & E3 & E4). cbv zeta in H. rewrite E1, E2 in H. injection H as <-.
  split; [exists l; split; [exact E3|]|split; [|split]].
  - rewrite dget_dset_other by (intros X; vm_compute in X; discriminate). rewrite dget_dset_other by (intros X; vm_compute in X; discriminate). apply dget_dset_same.
  - apply dget_dset_same.
  - rewrite dget_dset_other by (intros X; vm_compute in X; discriminate). apply dget_dset_same.
  - intros key Hk. cbn [In] in Hk.
    rewrite (dget_dset_other (lit "var") key) by (intros X; apply Hk; right; left; symmetry; exact X).
    rewrite (dget_dset_other (lit "style") key) by (intros X; apply Hk; right; right; left; symmetry; exact X).
    rewrite (dget_dset_other (lit "ids") key) by (intros X; apply Hk; left; symmetry; exact X).
    apply E4. intros X. apply Hk. left. symmetry. exact X.
Qed.
Lemma labelled_footnote k d d' : labelled k d d' -> dget (lit "footnote") d' = dget (lit "footnote") d.
Proof. intros (_ & _ & _ & H). apply H. intros [X|[X|[X|[]]]]; vm_compute in X; discriminate. Qed.

Theorem traverse_ok n : forall fn n' fn', traverse fn n = Ok (n', fn') ->
  fn' = fn ++ map note (marks n) /\ all_labelled (length fn) (marks n) (marks n').
Proof.
  induction n as [s|s|l IH|l IH|d IH] using node_ind'; intros fn n' fn' H.
  - injection H as <- <-. cbn. rewrite app_nil_r. auto.
  - injection H as <- <-. cbn. rewrite app_nil_r. auto.
  - cbn [traverse] in H.
    match type of H with bind (?all fn l) _ = _ => set (go := all) in * end.
    assert (Hl : forall l, Forall (fun n => forall fn n' fn', traverse fn n = Ok (n', fn') ->
        fn' = fn ++ map note (marks n) /\ all_labelled (length fn) (marks n) (marks n')) l ->
      forall fn l' fn', go fn l = Ok (l', fn') ->
        fn' = fn ++ map note (flat_map marks l) /\ all_labelled (length fn) (flat_map marks l) (flat_map marks l')).
    { clear. induction 1 as [|x r Hx _ IH]; intros fn l' fn' H; cbn in H.
      - injection H as <- <-. cbn. rewrite app_nil_r. auto.
      - destruct (traverse fn x) as [[x' f1]|] eqn:Ex; [|discriminate]. cbn [bind fst snd] in H.
        destruct (go f1 r) as [[r' f2]|] eqn:Er; [|discriminate]. cbn [bind fst snd] in H. injection H as <- <-.
        destruct (Hx _ _ _ Ex) as [A1 A2]. destruct (IH _ _ _ Er) as [B1 B2]. cbn [flat_map].
        split; [rewrite B1, A1, map_app, app_assoc; reflexivity|]. apply all_labelled_app; [exact A2|].
        rewrite A1, app_length, map_length in B2. exact B2. }
    destruct (go fn l) as [[l' f2]|] eqn:El; [|discriminate]. cbn [bind fst snd] in H. injection H as <- <-. cbn [marks].
    eapply Hl; eassumption.
  - cbn [traverse] in H.
    match type of H with bind (?all fn l) _ = _ => set (go := all) in * end.
    assert (Hl : forall l, Forall (fun n => forall fn n' fn', traverse fn n = Ok (n', fn') ->
        fn' = fn ++ map note (marks n) /\ all_labelled (length fn) (marks n) (marks n')) l ->
      forall fn l' fn', go fn l = Ok (l', fn') ->
        fn' = fn ++ map note (flat_map marks l) /\ all_labelled (length fn) (flat_map marks l) (flat_map marks l')).
    { clear. induction 1 as [|x r Hx _ IH]; intros fn l' fn' H; cbn in H.
      - injection H as <- <-. cbn. rewrite app_nil_r. auto.
      - destruct (traverse fn x) as [[x' f1]|] eqn:Ex; [|discriminate]. cbn [bind fst snd] in H.
        destruct (go f1 r) as [[r' f2]|] eqn:Er; [|discriminate]. cbn [bind fst snd] in H. injection H as <- <-.
        destruct (Hx _ _ _ Ex) as [A1 A2]. destruct (IH _ _ _ Er) as [B1 B2]. cbn [flat_map].
        split; [rewrite B1, A1, map_app, app_assoc; reflexivity|]. apply all_labelled_app; [exact A2|].
        rewrite A1, app_length, map_length in B2. exact B2. }
    destruct (go fn l) as [[l' f2]|] eqn:El; [|discriminate]. cbn [bind fst snd] in H. injection H as <- <-. cbn [marks].
    eapply Hl; eassumption.
  - cbn [traverse] in H. cbn [marks]. destruct (dget (lit "footnote") d) as [f|] eqn:Ef.
    + destruct (set_mark (name_of (length fn)) d) as [d'|] eqn:Em; [|discriminate]. cbn [bind] in H. injection H as <- <-.
      apply set_mark_ok in Em. pose proof (labelled_footnote _ _ _ Em) as Hf. cbn [marks]. rewrite Hf, Ef.
      cbn [map note]. unfold note. rewrite Ef. split; [reflexivity|]. cbn. auto.
    + match type of H with bind (?vals fn d) _ = _ => set (go := vals) in * end.
      assert (Hl : forall d, Forall (fun kv => forall fn n' fn', traverse fn (snd kv) = Ok (n', fn') ->
          fn' = fn ++ map note (marks (snd kv)) /\ all_labelled (length fn) (marks (snd kv)) (marks n')) d ->
        forall fn d' fn', go fn d = Ok (d', fn') -> map fst d' = map fst d /\
          fn' = fn ++ map note (flat_map (fun kv => marks (snd kv)) d) /\
          all_labelled (length fn) (flat_map (fun kv => marks (snd kv)) d) (flat_map (fun kv => marks (snd kv)) d')).
      { clear. induction 1 as [|[k x] r Hx _ IH]; intros fn l' fn' H; cbn in H.
        - injection H as <- <-. cbn. rewrite app_nil_r. auto.
        - destruct (traverse fn x) as [[x' f1]|] eqn:Ex; [|discriminate]. cbn [bind fst snd] in H.
          destruct (go f1 r) as [[r' f2]|] eqn:Er; [|discriminate]. cbn [bind fst snd] in H. injection H as <- <-.
          destruct (Hx _ _ _ Ex) as [A1 A2]. destruct (IH _ _ _ Er) as (B0 & B1 & B2). cbn [flat_map snd map fst] in *.
          split; [congruence|]. split; [rewrite B1, A1, map_app, app_assoc; reflexivity|]. apply all_labelled_app; [exact A2|].
          rewrite A1, app_length, map_length in B2. exact B2. }
      destruct (go fn d) as [[d' f2]|] eqn:Ed; [|discriminate]. cbn [bind fst snd] in H. injection H as <- <-.
      destruct (Hl d IH _ _ _ Ed) as (A0 & A1 & A2).
      assert (Hk : forall (a b : list (str * node)) key, map fst a = map fst b -> dget key b = None -> dget key a = None).
      { clear. induction a as [|[k v] a IH]; intros [|[k' v'] b] key H; cbn in H; try discriminate; [reflexivity|].
        injection H as -> H. cbn [dget]. destruct (str_eqb key k'); [discriminate|]. apply IH, H. }
      cbn [marks]. rewrite (Hk _ _ _ A0 Ef). auto.
Qed.

(** ** The footnotes of a page *)

(** The marks among the ids of a page. *)
Definition shown_marks (ids : list (str * nat)) : list str :=
  map fst (filter (fun i => negb (snd i =? 0) && starts mark (fst i)) ids).

Lemma starts_app p s : starts p (p ++ s) = true.
Proof. induction p as [|a p IH]; cbn; [reflexivity|]. rewrite N.eqb_refl. exact IH. Qed.
Lemma name_starts k : starts mark (name_of k) = true.
Proof. apply starts_app. Qed.
Lemma name_int k : py_int (skipn 10 (name_of k)) = Ok (Z.of_nat k).
Proof. change (skipn 10 (name_of k)) with (dec_Z (Z.of_nat k)). apply py_int_dec0. Qed.
Lemma name_inj j k : name_of j = name_of k -> j = k.
Proof.
  intros H. assert (X : py_int (skipn 10 (name_of j)) = py_int (skipn 10 (name_of k))) by congruence.
  rewrite !name_int in X. injection X as X. lia.
Qed.

Section Check.
Context {T : Type}.
Variable fn : list T.

(** The context after the marks [ks], with [n] before. *)
Fixpoint noted (n : nat) (ks : list nat) (c : ctx) : ctx :=
  match ks with [] => c | k :: r => noted (Datatypes.S n) r (dset (name_of k) (dec_Z (Z.of_nat (n + 1))) c) end.

Lemma check_ids_ok ids : forall ks c acc ts, shown_marks ids = map name_of ks -> map (nth_error fn) ks = map Some ts ->
  check_ids fn c acc ids = Ok (noted (length acc) ks c, acc ++ ts).
Proof.
  induction ids as [|[id n] ids IH]; intros ks c acc ts Hs Ht.
  - destruct ks; [|discriminate]. destruct ts; [|discriminate]. cbn. rewrite app_nil_r. reflexivity.
  - cbn [check_ids check_id]. unfold shown_marks in Hs. cbn [filter fst snd] in Hs. destruct (n =? 0) eqn:En; cbn [negb andb] in Hs.
    + cbn [bind fst snd]. apply IH; assumption.
    + destruct (starts mark id) eqn:Es; [|cbn [bind fst snd]; apply IH; assumption].
      cbn [map fst] in Hs. destruct ks as [|k ks]; [discriminate|]. cbn [map] in Hs. injection Hs as -> Hs.
      destruct ts as [|t ts]; [discriminate|]. cbn [map] in Ht. injection Ht as Hk Ht.
      rewrite name_int. cbn [bind]. unfold py_index.
      assert (Hlt : k < length fn) by (apply nth_error_Some; congruence).
      destruct (Z.ltb_spec (Z.of_nat k) 0) as [?|_]; [lia|].
      replace ((0 <=? Z.of_nat k)%Z && (Z.of_nat k <? Z.of_nat (length fn))%Z) with true by (symmetry; apply andb_true_iff; split; [apply Z.leb_le|apply Z.ltb_lt]; lia).
      rewrite Nat2Z.id, Hk. cbn [bind fst snd]. cbn [noted].
      rewrite (IH ks _ _ ts Hs Ht). rewrite app_length. cbn [length]. rewrite <- app_assoc. cbn [app].
      f_equal. f_equal. f_equal. lia.
Qed.

Lemma noted_other ks : forall n c key, ~ In key (map name_of ks) -> dget key (noted n ks c) = dget key c.
Proof.
  induction ks as [|k ks IH]; intros n c key H; cbn [noted]; [reflexivity|].
  rewrite IH by (intros X; apply H; right; exact X). apply dget_dset_other. intros X. apply H. left. congruence.
Qed.
(** The number of a mark of the page. *)
Lemma noted_at ks : NoDup ks -> forall n c j k, nth_error ks j = Some k ->
  dget (name_of k) (noted n ks c) = Some (dec_Z (Z.of_nat (n + j + 1))).
Proof.
  induction 1 as [|k0 ks Hn _ IH]; intros n c j k H; cbn [noted]; [destruct j; discriminate|].
  destruct j as [|j]; cbn [nth_error] in H.
  - injection H as ->. rewrite noted_other.
    + rewrite dget_dset_same. rewrite Nat.add_0_r. reflexivity.
    + intros X. apply in_map_iff in X as (k' & X & Hin). apply name_inj in X as ->. contradiction.
  - rewrite (IH (Datatypes.S n) _ j k H). do 3 f_equal. lia.
Qed.
End Check.

(** [l] begins with [p]. *)
Definition prefix {A} (p l : list A) : Prop := exists r, l = p ++ r.
(** A list numbered from 1. *)
Fixpoint count {A} (n : nat) (l : list A) : list (nat * A) := match l with [] => [] | x :: r => (n, x) :: count (Datatypes.S n) r end.

(** The marks of a page with the texts they show. *)
Definition marks_shown {O P L T} (ids_of : P -> list (str * nat)) (p : @shownp O P L T) : list (str * str) :=
  map (fun id => (id, match dget id (sh_ctx p) with Some v => v | None => [] end)) (shown_marks (page_ids ids_of (sh_out p))).

Lemma numbered_count {T} (ts : list T) : forall n, numbered n ts = map (fun x => (dec_Z (Z.of_nat (fst x)) ++ lit " ", snd x)) (count (Datatypes.S n) ts).
Proof. induction ts as [|t ts IH]; intros n; cbn [numbered count map fst snd]; [reflexivity|]. rewrite IH. reflexivity. Qed.

Lemma texts_prefix {T} (fn : list T) (k2 k1 : list nat) ts1 : prefix k2 k1 -> map (nth_error fn) k1 = map Some ts1 ->
  exists ts2, map (nth_error fn) k2 = map Some ts2.
Proof.
  intros [r ->]. rewrite map_app. intros H. exists (firstn (length k2) ts1).
  rewrite <- firstn_map, <- H, firstn_app, map_length, Nat.sub_diag. cbn [firstn]. rewrite app_nil_r.
  rewrite <- (map_length (nth_error fn) k2), firstn_all. reflexivity.
Qed.

Section Page.
Context {E O S P L T : Type}.
Variable start : E -> res O.
Variable crun : ctx -> O -> Q -> Q -> Q -> Q -> res (O * Q * bool * list P * list L).
Variable save : O -> S.
Variable restore : O -> S -> O.
Variable ids_of : P -> list (str * nat).
Variable notes_height : list (str * T) -> res Q.
Variable fn : list T.
Notation content := (@content E O S).
Notation add_content := (add_content start crun save restore ids_of notes_height fn).

Lemma shown_texts ks2 ks1 k (c : ctx) n : NoDup ks1 -> prefix ks2 ks1 -> k = noted n ks1 c ->
  map (fun id => (id, match dget id k with Some v => v | None => [] end)) (map name_of ks2) =
  map (fun x => (name_of (snd x), dec_Z (Z.of_nat (fst x)))) (count (Datatypes.S n) ks2).
Proof.
  intros Hnd [r ->] ->. 
  assert (H : forall j m, nth_error ks2 j = Some m -> dget (name_of m) (noted n (ks2 ++ r) c) = Some (dec_Z (Z.of_nat (n + j + 1)))).
  { intros j m Hj. apply noted_at; [exact Hnd|]. rewrite nth_error_app1; [exact Hj|]. apply nth_error_Some. congruence. }
  remember (noted n (ks2 ++ r) c) as k. clear Heqk Hnd r.
  revert n H. induction ks2 as [|m ks2 IH]; intros n H; cbn [map count]; [reflexivity|]. cbn [fst snd].
  rewrite (H 0 m eq_refl). do 3 f_equal; [lia|]. apply IH. intros j m' Hj. rewrite (H (Datatypes.S j) m' Hj). do 3 f_equal. lia.
Qed.

(** One page, whatever the two passes show. *)
Theorem page_numbers fuel x y w h k c c' k' p ks1 ks2 c1 out1 ts1 :
  add_content fuel x y w h k c = Done (c', k', p) ->
  run start (crun k) save restore fuel x y w h c = Done (c1, out1) ->
  shown_marks (page_ids ids_of out1) = map name_of ks1 -> map (nth_error fn) ks1 = map Some ts1 -> NoDup ks1 ->
  shown_marks (page_ids ids_of (sh_out p)) = map name_of ks2 -> prefix ks2 ks1 ->
  exists ts2, map (nth_error fn) ks2 = map Some ts2 /\
    marks_shown ids_of p = map (fun x => (name_of (snd x), dec_Z (Z.of_nat (fst x)))) (count 1 ks2) /\
    sh_notes p = map (fun x => (dec_Z (Z.of_nat (fst x)) ++ lit " ", snd x)) (count 1 ts2).
Proof.
  intros H Hrun H1 Ht1 Hnd H2 Hpre. destruct (texts_prefix fn ks2 ks1 ts1 Hpre Ht1) as [ts2 Ht2].
  exists ts2. split; [exact Ht2|]. unfold Footnotes.add_content in H.
  match type of H with abind ?e _ = _ => destruct e as [st| |]; try discriminate end. cbn [abind] in H.
  rewrite Hrun in H. cbn [abind] in H.
  rewrite (check_ids_ok fn _ ks1 k [] ts1 H1 Ht1) in H. cbn [lift abind app length] in H.
  destruct ts1 as [|t ts1].
  - injection H as <- <- <-. cbn [sh_out] in H2. unfold marks_shown. cbn [sh_out sh_ctx sh_notes]. rewrite H2.
    destruct ks1; [|discriminate]. destruct Hpre as [r Hpre]. destruct ks2; [|discriminate]. destruct ts2; [|discriminate]. auto.
  - destruct (notes_height (numbered 0 (t :: ts1))) as [fh|]; [|discriminate]. cbn [lift abind] in H.
    destruct (Qle_bool (h - 10 - 20) fh); [discriminate|].
    destruct (set_state st c1) as [c2| |]; [|discriminate|discriminate]. cbn [abind] in H.
    match type of H with abind ?e _ = _ => destruct e as [[c3 out3]| |]; try discriminate end. cbn [abind] in H.
    assert (Hp : sh_out p = out3).
    { destruct (lift (check_ids fn (noted 0 ks1 k) [] (page_ids ids_of out3))) as [[k3 n3]| |]; try discriminate. cbn [abind] in H.
      destruct n3; [injection H as <- <- <-; reflexivity|].
      match type of H with abind ?e _ = _ => destruct e; try discriminate end. injection H as <- <- <-. reflexivity. }
    rewrite Hp in H2.
    rewrite (check_ids_ok fn _ ks2 (noted 0 ks1 k) [] ts2 H2 Ht2) in H. cbn [lift abind app] in H.
    assert (Hs : sh_ctx p = noted 0 ks1 k /\ sh_notes p = numbered 0 ts2).
    { destruct ts2 as [|t2 ts2]; [injection H as <- <- <-; auto|].
      match type of H with abind ?e _ = _ => destruct e; try discriminate end. injection H as <- <- <-. auto. }
    destruct Hs as [Hs1 Hs2]. rewrite Hs2, numbered_count. split; [|reflexivity].
    unfold marks_shown. rewrite Hp, Hs1, H2. apply shown_texts with (ks1 := ks1) (c := k); auto.
Qed.
End Page.
