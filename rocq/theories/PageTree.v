(** Model of the page tree construction: pdfme/pdf.py 909-940. *)
From Verif Require Import Py Parser StreamProofs Store.
From Coq Require Import String.
Open Scope list_scope.

(** A page as [_build_pages_tree] sees it: the id of its dictionary and, at
    the first level, the width and height of the [PDFPage]. *)
Definition page_item := (nat * option (obj * obj))%type.

(** [lst.append(x)] for a list held under key [k]. *)
Definition dappend (k : str) (x : obj) (d : dict) : dict :=
  match dget k d with Some (OSeq l) => dset k (OSeq (l ++ [x])) d | _ => d end.
(** [d[k] += 1]. *)
Definition dincr (k : str) (d : dict) : dict :=
  match dget k d with Some (OInt z) => dset k (OInt (z + 1)) d | _ => d end.

Definition pages_node : dict :=
  [(lit "Type", name "/Pages"); (lit "Kids", OSeq []); (lit "Count", OInt 0)].
Definition media_box (w h : obj) : obj := OSeq [OInt 0; OInt 0; w; h].

(** pdf.py 919-935: the loop.  [nodes] is [new_page_list]. *)
Fixpoint pages_loop (st : store) (count : nat) (nodes : list nat) (l : list page_item)
  : store * nat * list nat :=
  match l with
  | [] => (st, count, nodes)
  | (p, wh) :: r =>
      let st1 := match wh with
                 | Some (w, h) => sset st p (lit "MediaBox") (media_box w h)
                 | None => st
                 end in
      let '(st2, nodes', count') :=
        if (count mod 6 =? 0)%nat then
          let '(n, st') := sadd st1 pages_node in (st', nodes ++ [n], S count)
        else (st1, nodes, count) in
      let parent := last nodes' O in
      let st3 := sset st2 p (lit "Parent") (oref parent) in
      let st4 := supd st3 parent (dappend (lit "Kids") (oref p)) in
      let st5 := supd st4 parent (dincr (lit "Count")) in
      pages_loop st5 count' nodes' r
  end.

(** pdf.py 909-940 [_build_pages_tree]. *)
Fixpoint build_pages (fuel : nat) (st : store) (root : nat) (l : list page_item) : res store :=
  match fuel with
  | O => Err OutOfFuel
  | S f =>
      let '(st', count, nodes) := pages_loop st 0 [] l in
      if (count =? 1)%nat then Ok (sset st' root (lit "Pages") (oref (hd O nodes)))
      else build_pages f st' root (map (fun n => (n, None)) nodes)
  end.

(** Specification: [page_tree st n parent pages] says that the dictionary
    [n] is a page tree node with the given parent, whose leaves are [pages]
    in order, and whose Counts and Parents are right (PDF 32000, 7.7.3). *)
Inductive page_tree (st : store) : nat -> option nat -> list nat -> Prop :=
| tree_leaf p d parent : sget st p = Some d ->
    dget (lit "Type") d = Some (OBytes (lit "/Page")) ->
    dget (lit "Parent") d = Some (oref parent) ->
    page_tree st p (Some parent) [p]
| tree_node n d parent kids leaves : sget st n = Some d ->
    dget (lit "Type") d = Some (OBytes (lit "/Pages")) ->
    dget (lit "Parent") d = option_map oref parent ->
    dget (lit "Kids") d = Some (OSeq (map oref kids)) ->
    dget (lit "Count") d = Some (OInt (Z.of_nat (List.length (List.concat leaves)))) ->
    Forall2 (fun k l => page_tree st k (Some n) l) kids leaves ->
    page_tree st n parent (List.concat leaves).

(** ** Proofs *)

Definition page_in (st : store) (root nd : nat) (it : page_item) : Prop :=
  exists d w h, snd it = Some (w, h) /\ sget st (fst it) = Some d /\ fst it <> root /\ fst it <> nd.

Definition node_dict (kids : list obj) (n : Z) : dict :=
  [(lit "Type", name "/Pages"); (lit "Kids", OSeq kids); (lit "Count", OInt n)].

Lemma node_append kids n x :
  dincr (lit "Count") (dappend (lit "Kids") x (node_dict kids n)) = node_dict (kids ++ [x]) (n + 1).
Proof. reflexivity. Qed.

(** What the first-level loop does once the node [nd] exists. *)
Lemma pages_loop_one l : forall st nd kids n,
  sget st nd = Some (node_dict kids n) ->
  NoDup (map fst l) -> (forall it, In it l -> exists w h, snd it = Some (w, h) /\ fst it <> nd /\
                                   exists d, sget st (fst it) = Some d) ->
  exists st', pages_loop st 1 [nd] l = (st', 1%nat, [nd]) /\
    List.length st' = List.length st /\
    sget st' nd = Some (node_dict (kids ++ map (fun it => oref (fst it)) l) (n + Z.of_nat (List.length l))) /\
    (forall it d w h, In it l -> snd it = Some (w, h) -> sget st (fst it) = Some d ->
       sget st' (fst it) = Some (dset (lit "Parent") (oref nd) (dset (lit "MediaBox") (media_box w h) d))) /\
    (forall id, id <> nd -> ~ In id (map fst l) -> sget st' id = sget st id).
Proof.
  induction l as [|[p wh] l IH]; intros st nd kids n Hnd Hdup Hin.
  - exists st. cbn. rewrite app_nil_r, Z.add_0_r. repeat split; auto. intros it d w h [].
  - destruct (Hin _ (or_introl eq_refl)) as (w & h & Hwh & Hpn & d & Hd). cbn [fst snd] in *. subst wh.
    cbn [map] in Hdup. inversion Hdup as [|? ? Hni Hdup']; subst.
    cbn [pages_loop]. change (1 mod 6 =? 0)%nat with false. cbv iota. cbn [last].
    set (st1 := sset st p (lit "MediaBox") (media_box w h)).
    set (st3 := sset st1 p (lit "Parent") (oref nd)).
    set (st4 := supd st3 nd (dappend (lit "Kids") (oref p))).
    set (st5 := supd st4 nd (dincr (lit "Count"))).
    assert (Hnd3 : sget st3 nd = Some (node_dict kids n)).
    { unfold st3, st1, sset. rewrite !supd_other by congruence. exact Hnd. }
    assert (Hnd5 : sget st5 nd = Some (node_dict (kids ++ [oref p]) (n + 1))).
    { unfold st5, st4. erewrite supd_same; [|apply supd_same; exact Hnd3]. reflexivity. }
    assert (Hp3 : sget st3 p = Some (dset (lit "Parent") (oref nd) (dset (lit "MediaBox") (media_box w h) d))).
    { unfold st3, st1, sset. erewrite supd_same; [|apply supd_same; exact Hd]. reflexivity. }
    assert (Ho5 : forall id, id <> nd -> id <> p -> sget st5 id = sget st id).
    { intros id H1 H2. unfold st5, st4, st3, st1, sset. rewrite !supd_other by congruence. reflexivity. }
    destruct (IH st5 nd (kids ++ [oref p]) (n + 1)%Z Hnd5 Hdup') as (st' & E & Hlen & Hnode & Hpages & Hother).
    { intros it Hit. destruct (Hin it (or_intror Hit)) as (w' & h' & E1 & E2 & d' & E3).
      exists w', h'. split; [exact E1|]. split; [exact E2|]. exists d'. rewrite Ho5; auto.
      intros Hc. apply Hni. rewrite <- Hc. now apply in_map. }
    exists st'. split; [exact E|]. split.
    { rewrite Hlen. unfold st5, st4, st3, st1, sset. now rewrite !supd_length. }
    split; [|split].
    + rewrite Hnode. cbn [map List.length fst]. rewrite <- app_assoc. cbn [app].
      f_equal. f_equal. lia.
    + intros it d' w' h' [<-|Hit] Hw' Hd'.
      * cbn [fst snd] in *. injection Hw' as <- <-. rewrite Hd in Hd'. injection Hd' as <-.
        rewrite Hother; [|exact Hpn|exact Hni].
        unfold st5, st4. rewrite !supd_other by congruence. exact Hp3.
      * apply (Hpages it d' w' h' Hit Hw').
        destruct (Hin it (or_intror Hit)) as (_ & _ & _ & Hne & _). rewrite Ho5; auto.
        intros Hc. apply Hni. rewrite <- Hc. now apply in_map.
    + intros id H1 H2. cbn [map fst In] in H2. rewrite Hother; [|exact H1|tauto]. apply Ho5; [exact H1|]. intros ->. tauto.
Qed.

Theorem build_pages_spec st root rd l fuel :
  l <> [] -> NoDup (map fst l) -> sget st root = Some rd ->
  (forall it, In it l -> exists w h, snd it = Some (w, h) /\ fst it <> root /\
              exists d, sget st (fst it) = Some d) ->
  exists st', build_pages (S fuel) st root l = Ok st' /\
    let nd := S (List.length st) in
    List.length st' = nd /\
    sget st' root = Some (dset (lit "Pages") (oref nd) rd) /\
    sget st' nd = Some (node_dict (map (fun it => oref (fst it)) l) (Z.of_nat (List.length l))) /\
    (forall it d w h, In it l -> snd it = Some (w, h) -> sget st (fst it) = Some d ->
       sget st' (fst it) = Some (dset (lit "Parent") (oref nd) (dset (lit "MediaBox") (media_box w h) d))) /\
    (forall id, id <> root -> id <> nd -> ~ In id (map fst l) -> sget st' id = sget st id).
Proof.
  intros Hne Hdup Hroot Hin. destruct l as [|[p wh] l]; [congruence|].
  destruct (Hin _ (or_introl eq_refl)) as (w & h & Hwh & Hpr & d & Hd). cbn [fst snd] in *. subst wh.
  cbn [map fst] in Hdup. inversion Hdup as [|? ? Hni Hdup']; subst.
  cbn [build_pages pages_loop]. change (0 mod 6 =? 0)%nat with true. cbv iota. cbn [sadd].
  set (st1 := sset st p (lit "MediaBox") (media_box w h)).
  assert (Hl1 : List.length st1 = List.length st) by (unfold st1, sset; apply supd_length).
  rewrite Hl1. set (nd := S (List.length st)). cbn [app last].
  set (st2 := st1 ++ [pages_node]).
  set (st3 := sset st2 p (lit "Parent") (oref nd)).
  set (st4 := supd st3 nd (dappend (lit "Kids") (oref p))).
  set (st5 := supd st4 nd (dincr (lit "Count"))).
  assert (Hpnd : p <> nd) by (apply sget_some_lt in Hd; unfold nd; lia).
  assert (Hrnd : root <> nd) by (apply sget_some_lt in Hroot; unfold nd; lia).
  assert (Hnd2 : sget st2 nd = Some pages_node).
  { unfold st2, nd. rewrite <- Hl1. apply sadd_new. }
  assert (Hold2 : forall id, id <> nd -> sget st2 id = sget st1 id).
  { intros id H. unfold st2. apply sadd_old. rewrite Hl1. exact H. }
  assert (Hnd5 : sget st5 nd = Some (node_dict [oref p] 1)).
  { unfold st5, st4. erewrite supd_same; [|apply supd_same; unfold st3, sset; rewrite supd_other by congruence; exact Hnd2].
    reflexivity. }
  assert (Hp5 : sget st5 p = Some (dset (lit "Parent") (oref nd) (dset (lit "MediaBox") (media_box w h) d))).
  { unfold st5, st4. rewrite !supd_other by congruence. unfold st3, sset.
    erewrite supd_same; [|rewrite Hold2 by congruence; unfold st1, sset; apply supd_same; exact Hd]. reflexivity. }
  assert (Ho5 : forall id, id <> nd -> id <> p -> sget st5 id = sget st id).
  { intros id H1 H2. unfold st5, st4, st3, sset. rewrite !supd_other by congruence.
    rewrite Hold2 by congruence. unfold st1, sset. now rewrite supd_other by congruence. }
  destruct (pages_loop_one l st5 nd [oref p] 1 Hnd5 Hdup') as (st' & E & Hlen & Hnode & Hpages & Hother).
  { intros it Hit. destruct (Hin it (or_intror Hit)) as (w' & h' & E1 & E2 & d' & E3).
    exists w', h'. split; [exact E1|]. split; [apply sget_some_lt in E3; unfold nd; lia|].
    exists d'. rewrite Ho5; auto.
    - apply sget_some_lt in E3. unfold nd; lia.
    - intros Hc. apply Hni. rewrite <- Hc. now apply in_map. }
  rewrite E. change (1 =? 1)%nat with true. cbv iota. cbn [hd].
  eexists. split; [reflexivity|]. cbv zeta.
  assert (Hr' : sget st' root = Some rd).
  { rewrite Hother; [|exact Hrnd|]. rewrite Ho5; auto.
    intros Hc. apply in_map_iff in Hc as (it & Hc1 & Hc2).
    destruct (Hin it (or_intror Hc2)) as (_ & _ & _ & Hne' & _). congruence. }
  split.
  { unfold sset. rewrite supd_length, Hlen. unfold st5, st4, st3, st2, sset.
    rewrite !supd_length, app_length, Hl1. cbn. unfold nd. lia. }
  split; [apply supd_same, Hr'|]. split.
  { unfold sset. rewrite supd_other by congruence. rewrite Hnode. cbn [map List.length app fst].
    f_equal. f_equal. lia. }
  split.
  - intros it d' w' h' [<-|Hit] Hw' Hd'.
    + cbn [fst snd] in *. injection Hw' as <- <-. rewrite Hd in Hd'. injection Hd' as <-.
      unfold sset. rewrite supd_other by congruence. rewrite Hother; auto.
    + destruct (Hin it (or_intror Hit)) as (_ & _ & _ & Hne' & _).
      unfold sset. rewrite supd_other by congruence. apply (Hpages it d' w' h' Hit Hw').
      rewrite Ho5; auto.
      * apply sget_some_lt in Hd'. unfold nd; lia.
      * intros Hc. apply Hni. rewrite <- Hc. now apply in_map.
  - intros id H1 H2 H3. cbn [map fst In] in H3. unfold sset. rewrite supd_other by congruence.
    rewrite Hother; [|exact H2|tauto]. apply Ho5; [exact H2|]. intros ->. tauto.
Qed.

(** The resulting tree in the terms of the specification. *)
Theorem build_pages_tree st root rd l fuel :
  l <> [] -> NoDup (map fst l) -> sget st root = Some rd ->
  (forall it, In it l -> exists w h d, snd it = Some (w, h) /\ fst it <> root /\
              sget st (fst it) = Some d /\ dget (lit "Type") d = Some (OBytes (lit "/Page"))) ->
  exists st' n rd', build_pages (S fuel) st root l = Ok st' /\
    sget st' root = Some rd' /\ dget (lit "Pages") rd' = Some (oref n) /\
    page_tree st' n None (map fst l) /\
    (forall p w h, In (p, Some (w, h)) l -> exists d, sget st' p = Some d /\
       dget (lit "MediaBox") d = Some (OSeq [OInt 0; OInt 0; w; h])).
Proof.
  intros Hne Hdup Hroot Hin.
  destruct (build_pages_spec st root rd l fuel Hne Hdup Hroot) as (st' & E & _ & Hr & Hn & Hp & _).
  { intros it Hit. destruct (Hin it Hit) as (w & h & d & H1 & H2 & H3 & _). eauto 8. }
  exists st', (S (List.length st)), (dset (lit "Pages") (oref (S (List.length st))) rd).
  split; [exact E|]. split; [exact Hr|]. split; [apply dget_dset_same|]. split.
  - set (nd := S (List.length st)) in *.
    replace (map fst l) with (List.concat (map (fun it : page_item => [fst it]) l)).
    2:{ clear. induction l; cbn; congruence. }
    eapply tree_node; [exact Hn| | |cbn; f_equal; f_equal; symmetry; apply (map_map fst oref)| |].
    + reflexivity.
    + reflexivity.
    + cbn. do 3 f_equal. clear. induction l; cbn; congruence.
    + clear Hne Hdup E Hn. assert (forall it, In it l -> In it l) as Hsub by auto. revert Hsub.
      generalize l at 1 3 4 as l'. induction l' as [|it l' IH]; intros Hsub; cbn [map]; [constructor|].
      constructor; [|apply IH; intros; apply Hsub; now right].
      pose proof (Hsub it (or_introl eq_refl)) as Hit.
      destruct (Hin it Hit) as (w & h & d & H1 & H2 & H3 & H4).
      eapply tree_leaf.
      * eapply (Hp it d w h Hit H1 H3).
      * rewrite !dget_dset_other by discriminate. exact H4.
      * apply dget_dset_same.
  - intros p w h Hit. destruct (Hin _ Hit) as (w' & h' & d & H1 & H2 & H3 & _). cbn [fst snd] in *.
    eexists. split; [apply (Hp (p, Some (w, h)) d w h Hit eq_refl H3)|].
    rewrite dget_dset_other by discriminate. apply dget_dset_same.
Qed.
