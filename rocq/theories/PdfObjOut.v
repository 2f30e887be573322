(** The objects [PDF.output] writes for a reachable document (C10-C13, C20-C22). *)
From Verif Require Import Py PyStr PdfSyntax Parser StreamProofs Store PageTree NameTree OutlineTree Fonts PdfObj PdfObjSpec PdfObjFonts PdfObjProofs PdfObjSteps PdfObjRun.
From Coq Require Import String QArith Sorted.
Open Scope N_scope.
Open Scope list_scope.

(** ** Objects that stay keep the trees *)
Section PageFrame.
Variables st st' : store.
Hypothesis keep : forall id d, sget st id = Some d ->
  (dget (lit "Type") d = Some (OBytes (lit "/Page")) \/ dget (lit "Type") d = Some (OBytes (lit "/Pages"))) ->
  sget st' id = Some d.
Fixpoint page_tree_frame n parent l (H : page_tree st n parent l) {struct H} : page_tree st' n parent l.
Proof.
  destruct H as [p d parent H1 H2 H3|n d parent kids leaves H1 H2 H3 H4 H5 H6].
  - eapply tree_leaf; eauto.
  - eapply tree_node; eauto.
    clear - H6 page_tree_frame. induction H6; constructor; auto.
Defined.
End PageFrame.
Section NameFrame.
Variables st st' : store.
Hypothesis keep : forall id d, sget st id = Some d ->
  ((exists l, dget (lit "Names") d = Some (OSeq l)) \/ exists l, dget (lit "Kids") d = Some (OSeq l)) ->
  sget st' id = Some d.
Fixpoint name_tree_frame rt n kvs (H : name_tree st rt n kvs) {struct H} : name_tree st' rt n kvs.
Proof.
  destruct H as [rt id d kvs H1 H2 H3 H4 H5|rt id d kids kvss H1 H2 H3 H4 H5 H6].
  - eapply nt_leaf; eauto.
  - eapply nt_node; eauto.
    clear - H5 name_tree_frame. induction H5; constructor; auto.
Defined.
End NameFrame.

(** ** The output *)
(** Following the catalog: PDF 32000, 7.7.2. *)
Definition out_pages (st : store) (ids : list nat) : Prop :=
  exists rd n, sget st 1 = Some rd /\ dget (lit "Pages") rd = Some (oref n) /\ page_tree st n None ids.
Definition out_names (st : store) : option obj :=
  match sget st 1 with Some rd => dests_id rd | None => None end.
Definition out_outlines (st : store) : option obj :=
  match sget st 1 with Some rd => dget (lit "Outlines") rd | None => None end.
Definition odict (st : store) (id : nat) : dict := match sget st id with Some d => d | None => [] end.

Section Out.
Variable load_ttf : str -> res ttf.
Variable num : Q -> obj.
Variable round3 : Q -> Q.
Variable tt_descr : ttf -> dict.
Variable tt_file : ttf -> bytes.
Variable reg : list (fkey * str).
Variable fok : Prop.
Notation inv := (inv load_ttf num round3 tt_descr tt_file reg fok).

Lemma output_spec h s level : inv h s -> d_pages s <> [] ->
  exists st, output_objects num level s = Ok st /\
    out_pages st (map pp_id (d_pages s)) /\
    (forall i pg, nth_error (d_pages s) i = Some pg -> exists d, sget st (pp_id pg) = Some d /\
       dget (lit "MediaBox") d = Some (OSeq [OInt 0; OInt 0; num (pp_w pg); num (pp_h pg)]) /\
       (forall sub, res_of sub d = res_of sub (pdict s pg)) /\ annots d = annots (pdict s pg) /\
       dget (lit "Contents") d = dget (lit "Contents") (pdict s pg)) /\
    (forall id d, static s id d -> sget st id = Some d) /\
    match d_dests s with
    | [] => out_names st = None
    | _ => exists m, out_names st = Some (oref m) /\ name_tree st true m (sort_keys (d_dests s)) /\
             StronglySorted str_lt (keys (sort_keys (d_dests s)))
    end /\
    match d_outl s with
    | [] => out_outlines st = None
    | _ => exists m d lst, out_outlines st = Some (oref m) /\ sget st m = Some d /\
             dget (lit "Type") d = Some (name "/Outlines") /\
             dget (lit "Count") d = Some (OInt (visible level (d_outl s))) /\
             dget (lit "Last") d = Some (oref lst) /\
             chain st level m None (dget (lit "First") d) (d_outl s) (Some lst) (seq (S m) (size (d_outl s)))
    end.
Proof.
  intros I Hne. unfold output_objects. set (l := map (fun p => (pp_id p, Some (num (pp_w p), num (pp_h p)))) (d_pages s)).
  assert (Hl : map fst l = map pp_id (d_pages s)) by (unfold l; rewrite map_map; reflexivity).
  assert (B := i_base _ _ _ _ _ _ _ _ _ I).
  assert (Hlne : l <> []) by (unfold l; destruct (d_pages s); [congruence|discriminate]).
  assert (Hnd : NoDup (map fst l)) by (rewrite Hl; apply B).
  destruct (build_pages_spec (d_st s) 1 catalog l 0 Hlne Hnd (bi_root _ B)) as (st1 & E1 & L1 & R1 & N1 & P1 & O1).
  { intros it Hit. unfold l in Hit. apply in_map_iff in Hit as (pg & <- & Hin). cbn [fst snd].
    destruct (bi_pages _ B _ Hin) as (H1 & d & H2 & _). eauto 8. }
  destruct (build_pages_tree (d_st s) 1 catalog l 0 Hlne Hnd (bi_root _ B)) as (st1' & n & rd1 & E1' & R1' & Pg1 & T1 & M1).
  { intros it Hit. unfold l in Hit. apply in_map_iff in Hit as (pg & <- & Hin). cbn [fst snd].
    destruct (bi_pages _ B _ Hin) as (H1 & d & H2 & H3 & _). eauto 8. }
  rewrite E1 in E1'. injection E1' as <-. rewrite R1 in R1'. injection R1' as <-. rewrite Hl in T1, O1.
  set (nd := S (List.length (d_st s))) in *.
  replace (match d_pages s with [] => Err PyException | _ :: _ => _ end) with
    (do st1 <- build_pages 1 (d_st s) 1 l; do st2 <- build_dests st1 1 (d_dests s); Ok (build_outlines st2 1 (d_outl s) level))
    by (destruct (d_pages s); [congruence|reflexivity]).
  rewrite E1. cbn [bind]. set (rd1 := dset (lit "Pages") (oref nd) catalog) in *.
  (* the destinations *)
  assert (HD : exists st2 rd2, build_dests st1 1 (d_dests s) = Ok st2 /\ sget st2 1 = Some rd2 /\
     (forall id d, id <> 1%nat -> sget st1 id = Some d -> sget st2 id = Some d) /\
     (forall k, k <> lit "Names" -> dget k rd2 = dget k rd1) /\
     match d_dests s with
     | [] => dests_id rd2 = None
     | _ => exists m, dests_id rd2 = Some (oref m) /\ m <> 1%nat /\ name_tree st2 true m (sort_keys (d_dests s)) /\
             StronglySorted str_lt (keys (sort_keys (d_dests s)))
     end /\ (forall l, dget (lit "Names") rd2 <> Some (OSeq l))).
  { destruct (d_dests s) as [|kv ds] eqn:Ed.
    - exists st1, rd1. split; [reflexivity|]. split; [exact R1|]. split; [auto|]. split; [auto|]. split; [reflexivity|discriminate].
    - destruct (build_dests_spec st1 1 rd1 (kv :: ds)) as (st2 & m & F1 & F2 & F3 & F4 & F5 & F6).
      + exact R1.
      + split; [exact Logic.I|reflexivity].
      + rewrite <- Ed. apply I.
      + discriminate.
      + destruct (set_dests_id m rd1) as [G1 G2]; [split; [exact Logic.I|reflexivity]|].
        exists st2, (set_dests m rd1). split; [exact F1|]. split; [exact F2|]. split; [exact F6|]. split; [exact G2|].
        split; [eauto 6|]. discriminate. }
  destruct HD as (st2 & rd2 & E2 & R2 & O2 & K2 & D2 & N2). rewrite E2. cbn [bind].
  eexists. split; [reflexivity|]. set (st := build_outlines st2 1 (d_outl s) level).
  (* the outlines *)
  assert (HO : exists rd, sget st 1 = Some rd /\
     (forall id d, id <> 1%nat -> sget st2 id = Some d -> sget st id = Some d) /\
     (forall k, k <> lit "PageMode" -> k <> lit "Outlines" -> dget k rd = dget k rd2) /\
     match d_outl s with
     | [] => dget (lit "Outlines") rd = None
     | _ => exists m d lst, dget (lit "Outlines") rd = Some (oref m) /\ sget st m = Some d /\
             dget (lit "Type") d = Some (name "/Outlines") /\
             dget (lit "Count") d = Some (OInt (visible level (d_outl s))) /\
             dget (lit "Last") d = Some (oref lst) /\
             chain st level m None (dget (lit "First") d) (d_outl s) (Some lst) (seq (S m) (size (d_outl s)))
     end).
  { destruct (d_outl s) as [|o os] eqn:Eo.
    - exists rd2. unfold st. split; [exact R2|]. split; [auto|]. split; [auto|]. rewrite K2 by discriminate. reflexivity.
    - destruct (build_outlines_spec st2 1 rd2 (o :: os) level R2 ltac:(discriminate)) as (m & d & lst & F1 & F2 & F3 & F4 & F5 & F6 & F7).
      eexists. split; [exact F1|]. split.
      + intros id d0 Hid Hd0. unfold st. rewrite F2; [exact Hd0| |exact Hid]. apply sget_some_lt in Hd0. lia.
      + split.
        * intros k H1 H2. now rewrite !dget_dset_other by assumption.
        * exists m, d, lst. rewrite dget_dset_same. auto 10. }
  destruct HO as (rd & R3 & O3 & K3 & X3).
  assert (Keep : forall id d, id <> 1%nat -> sget st1 id = Some d -> sget st id = Some d) by auto.
  split; [|split; [|split; [|split]]].
  - exists rd, n. split; [exact R3|]. rewrite K3 by discriminate. rewrite K2 by discriminate. split; [exact Pg1|].
    eapply page_tree_frame; [|exact T1]. intros id d Hd Ht. apply Keep; [|exact Hd]. intros ->.
    rewrite R1 in Hd. injection Hd as <-. destruct Ht as [Ht|Ht]; discriminate.
  - intros i pg Hi. pose proof (nth_error_In _ _ Hi) as Hin. destruct (bi_pages _ B _ Hin) as (H1 & d & H2 & H3 & H4 & H5).
    eexists. split.
    + apply Keep; [exact H1|]. eapply (P1 (pp_id pg, Some (num (pp_w pg), num (pp_h pg))) d); [|reflexivity|exact H2].
      unfold l. apply in_map_iff. eauto.
    + unfold pdict. rewrite H2. split; [|split; [|split]].
      * now rewrite dget_dset_other, dget_dset_same by discriminate.
      * intros sub. unfold res_of. now rewrite !dget_dset_other by discriminate.
      * unfold annots. now rewrite !dget_dset_other by discriminate.
      * now rewrite !dget_dset_other by discriminate.
  - intros id d (S1 & S2 & S3). apply Keep; [exact S2|]. rewrite O1; auto. apply sget_some_lt in S1. unfold nd. lia.
  - unfold out_names. rewrite R3. assert (Hn : dests_id rd = dests_id rd2) by (unfold dests_id; now rewrite K3 by discriminate).
    rewrite Hn. destruct (d_dests s) as [|kv ds]; [exact D2|]. destruct D2 as (m & D1 & Dm & D2 & D3). exists m.
    split; [exact D1|]. split; [|exact D3]. eapply name_tree_frame; [|exact D2]. intros id d Hd Ht. apply O3; [|exact Hd].
    intros ->. rewrite R2 in Hd. injection Hd as <-. destruct Ht as [[l0 Ht]|[l0 Ht]]; [now apply N2 in Ht|].
    rewrite K2 in Ht by discriminate. discriminate.
  - unfold out_outlines. rewrite R3. exact X3.
Qed.
End Out.
