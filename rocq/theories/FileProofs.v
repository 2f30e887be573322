(** From the objects of a document to what a reader finds in the file (C85). *)
From Coq Require Import String QArith Sorted.
From Verif Require Import Py PyStr PdfSyntax PdfFile Parser Denote StreamProofs Base BaseProofs BaseProofs2 Store PageTree NameTree OutlineTree Fonts PdfObj PdfObjSpec PdfObjFonts PdfObjProofs PdfObjSteps PdfObjRun PdfObjOut PdfObjDoc PdfWhole PdfReader FileSpec GoodObjs PSerial.
Open Scope N_scope.
Open Scope list_scope.

(** ** One object *)
Lemma st_base_reachable flate v t st : base_reachable flate (st_base v t st).
Proof.
  exists v, (Some (ODict t)), (mkBase v [] t 1), (map (fun d : dict => BAdd (ODict d)) st). split; [reflexivity|].
  unfold base_run. symmetry. induction st as [|d st IH] using rev_ind; [reflexivity|]. rewrite map_app. cbn [map].
  rewrite fold_left_app. rewrite IH. cbn [fold_left base_step]. now rewrite sadd_base.
Qed.

Section Object.
Variable flate : bytes -> bytes.
Variables u1 u2 : bytes.
Variable version : str.
Variable trailer : dict.
Variable st : store.
Variable file : bytes.
Variable b' : base.
Hypothesis out : base_output flate u1 u2 (st_base version trailer st) = (file, Ok tt, b').
Hypothesis small : blen file < 10 ^ 10.

Lemma object_value id d vs : sget st id = Some d -> denote (ODict d) = Some (VDict vs) -> value_at file id (VDict vs).
Proof.
  intros Hd Hv. destruct (C05_file_roundtrip flate _ u1 u2 file b' (st_base_reachable _ _ _ _) out small) as (table & rest & X & H).
  destruct id as [|k]; [discriminate|]. cbn [sget] in Hd.
  destruct (H k (OObj (1 + N.of_nat k) (ODict d)) (VDict vs)) as (off & pre & post & more & H1 & H2 & H3 & H4).
  - cbn [st_base b_content]. rewrite number_objs_nth, Hd. reflexivity.
  - exact Hv.
  - exists post, more. split; [|exact H4]. exists table, rest, off, pre. auto.
Qed.
Lemma object_good id d : sget st id = Some d -> dgood d -> exists vs, value_at file id (VDict vs) /\
  forall k, assoc k vs = match dget k d with Some o => denote o | None => None end.
Proof.
  intros Hd Hg. destruct (dgood_denote d Hg) as (vs & _ & E & Ha). exists vs. split; [|exact Ha]. eapply object_value; eauto.
Qed.
Lemma object_stream id d s l payload vs : sget st id = Some d -> NoDup (keys d) -> dget (lit "__stream__") d = Some s ->
  chunks s = Some l -> stored_payload flate d (List.concat l) = Some payload -> denote_dict (ordinary d) = Some vs ->
  exists dv, stream_at file id dv payload /\ assoc (lit "Length") dv = Some (VInt (Z.of_nat (List.length payload))) /\
    forall k, k <> lit "Length" -> assoc k dv = assoc k vs.
Proof.
  intros Hd Hn Hs Hc Hp Hv. destruct (C07_stream flate d s l payload vs Hn Hs Hc Hp Hv) as (b & o' & P1 & dv & P2 & P3 & P4).
  destruct (C01_xref_offsets flate _ u1 u2 file b' (st_base_reachable _ _ _ _) out small) as (table & rest & X & _ & _ & H).
  destruct id as [|k]; [discriminate|]. cbn [sget] in Hd.
  destruct (H k (OObj (1 + N.of_nat k) (ODict d))) as (off & body & H1 & H2 & H3).
  - cbn [st_base b_content]. rewrite number_objs_nth, Hd. reflexivity.
  - assert (body = b).
    { rewrite parse_obj_eq, P1 in H2. cbn [fst] in H2. congruence. }
    subst body. destruct H3 as (pre & suf & H3 & H4). exists dv. split; [|auto].
    exists (b ++ NL :: lit "endobj" ++ [NL] ++ suf), ([NL] ++ suf). split; [|apply P4].
    exists table, rest, off, pre. split; [exact X|]. split; [exact H1|]. split; [|exact H4].
    rewrite H3. rewrite <- !app_assoc. cbn [app]. rewrite <- !app_assoc. reflexivity.
Qed.
Lemma trailer_found tv : forallb is_hex u1 = true -> forallb is_hex u2 = true -> denote (ODict trailer) = Some (VDict tv) ->
  exists dv, trailer_is file dv /\ forall k, k <> lit "Size" -> k <> lit "ID" -> assoc k dv = assoc k tv.
Proof.
  intros H1 H2 Ht. destruct (C03_xref_shape flate _ u1 u2 file b' tv (st_base_reachable _ _ _ _) out small H1 H2 Ht)
    as (table & rest & dv & tail & X & _ & _ & rest' & -> & R & _ & Ha).
  exists dv. split; [|exact Ha]. exists table, rest', tail. auto.
Qed.
End Object.

(** ** The streams of the pages *)
Section Fill.
Variable txt : Q -> str.
Lemma portions_chunks ps : forall i l, portions txt i ps = Ok l -> exists bs, chunk_list l = Some bs /\ Forall2 (fun p b => portion txt p = Ok b) ps bs.
Proof.
  induction ps as [|p ps IH]; intros i l E; cbn [portions] in E; [injection E as <-; exists []; split; [reflexivity|constructor]|].
  destruct (portion txt p) as [b|] eqn:Ep; [|discriminate]. cbn [bind] in E.
  destruct (portions txt (S i) ps) as [l1|] eqn:El; [|discriminate]. cbn [bind] in E. injection E as <-.
  destruct (IH _ _ El) as (bs & B1 & B2). exists (b :: bs). cbn [chunk_list]. rewrite B1. split; [reflexivity|]. now constructor.
Qed.
Definition filled (l : dict) : dict := [(lit "Filter", name "/FlateDecode"); (lit "__stream__", ODict l)].
Lemma fill_spec pgs : forall st st', fill txt pgs st = Ok st' -> NoDup (map pp_stream pgs) ->
  (forall pg, In pg pgs -> sget st (pp_stream pg) = Some page_stream) ->
  (forall id, ~ In id (map pp_stream pgs) -> sget st' id = sget st id) /\
  forall pg, In pg pgs -> exists l, portions txt 0 (pp_parts pg) = Ok l /\ sget st' (pp_stream pg) = Some (filled l).
Proof.
  induction pgs as [|pg pgs IH]; intros st st' E Hn Hs; cbn [fill] in E.
  - injection E as <-. split; [auto|intros pg []].
  - destruct (portions txt 0 (pp_parts pg)) as [l|] eqn:El; [|discriminate]. cbn [bind] in E. cbn [map] in Hn.
    inversion Hn as [|? ? N1 N2]; subst.
    destruct (IH _ _ E N2) as [I1 I2].
    { intros pg' Hin. unfold sset. rewrite supd_other; [apply Hs; now right|]. intros Heq. apply N1. rewrite Heq. now apply in_map. }
    split.
    + intros id Hid. cbn [map In] in Hid. rewrite I1 by tauto. unfold sset. apply supd_other. tauto.
    + intros pg' [<-|Hin]; [|auto]. exists l. split; [exact El|]. rewrite I1 by exact N1. unfold sset.
      rewrite (supd_same _ _ _ _ (Hs pg (or_introl eq_refl))). reflexivity.
Qed.
End Fill.

(** ** The objects of the page tree *)
Section Node.
Variable load_ttf : str -> res ttf.
Variable num : Q -> obj.
Variable round3 : Q -> Q.
Variable tt_descr : ttf -> dict.
Variable tt_file : ttf -> bytes.
Notation inv := (inv load_ttf num round3 tt_descr tt_file [] False).

Lemma output_node h s level st : inv h s -> output_objects num level s = Ok st ->
  let nd := S (List.length (d_st s)) in
  (exists rd, sget st 1 = Some rd /\ dget (lit "Type") rd = Some (name "/Catalog") /\ dget (lit "Pages") rd = Some (oref nd) /\
     (d_dests s = [] -> dget (lit "Names") rd = None)) /\
  sget st nd = Some (node_dict (map oref (map pp_id (d_pages s))) (Z.of_nat (List.length (d_pages s)))) /\
  (forall pg d, In pg (d_pages s) -> sget (d_st s) (pp_id pg) = Some d ->
     sget st (pp_id pg) = Some (dset (lit "Parent") (oref nd) (dset (lit "MediaBox") (media_box (num (pp_w pg)) (num (pp_h pg))) d))) /\
  (forall id d, static s id d -> sget st id = Some d).
Proof.
  intros I E. cbv zeta. unfold output_objects in E. set (l := map (fun p => (pp_id p, Some (num (pp_w p), num (pp_h p)))) (d_pages s)) in *.
  assert (Hne : d_pages s <> []) by (destruct (d_pages s); [discriminate|discriminate]).
  replace (match d_pages s with [] => Err PyException | _ :: _ => _ end) with
    (do st1 <- build_pages 1 (d_st s) 1 l; do st2 <- build_dests st1 1 (d_dests s); Ok (build_outlines st2 1 (d_outl s) level)) in E
    by (destruct (d_pages s); [congruence|reflexivity]).
  assert (B := i_base _ _ _ _ _ _ _ _ _ I).
  assert (Hl : map fst l = map pp_id (d_pages s)) by (unfold l; rewrite map_map; reflexivity).
  destruct (build_pages_spec (d_st s) 1 catalog l 0) as (st1 & E1 & L1 & R1 & N1 & P1 & O1).
  { unfold l. destruct (d_pages s); [congruence|discriminate]. }
  { rewrite Hl. apply B. }
  { apply B. }
  { intros it Hit. unfold l in Hit. apply in_map_iff in Hit as (pg & <- & Hin). cbn [fst snd].
    destruct (bi_pages _ B _ Hin) as (H1 & d & H2 & _). eauto 8. }
  rewrite E1 in E. cbn [bind] in E. rewrite Hl in O1. set (nd := S (List.length (d_st s))) in *.
  assert (HD : exists st2 rd2, build_dests st1 1 (d_dests s) = Ok st2 /\ sget st2 1 = Some rd2 /\
     (forall id d, id <> 1%nat -> sget st1 id = Some d -> sget st2 id = Some d) /\
     (forall k, k <> lit "Names" -> dget k rd2 = dget k (dset (lit "Pages") (oref nd) catalog)) /\
     (d_dests s = [] -> dget (lit "Names") rd2 = None)).
  { destruct (d_dests s) as [|kv ds] eqn:Ed.
    - exists st1, (dset (lit "Pages") (oref nd) catalog). split; [reflexivity|]. split; [exact R1|]. split; [auto|]. split; [auto|]. reflexivity.
    - destruct (build_dests_spec st1 1 _ (kv :: ds) R1) as (st2 & m & F1 & F2 & F3 & F4 & F5 & F6).
      + split; [exact Logic.I|reflexivity].
      + rewrite <- Ed. apply I.
      + discriminate.
      + exists st2, (set_dests m (dset (lit "Pages") (oref nd) catalog)). split; [exact F1|]. split; [exact F2|]. split; [exact F6|].
        split; [apply (set_dests_id m); split; [exact Logic.I|reflexivity]|discriminate]. }
  destruct HD as (st2 & rd2 & E2 & R2 & O2 & K2 & K4). rewrite E2 in E. cbn [bind] in E. injection E as <-.
  assert (HO : exists rd, sget (build_outlines st2 1 (d_outl s) level) 1 = Some rd /\
     (forall id d, id <> 1%nat -> sget st2 id = Some d -> sget (build_outlines st2 1 (d_outl s) level) id = Some d) /\
     (forall k, k <> lit "PageMode" -> k <> lit "Outlines" -> dget k rd = dget k rd2)).
  { destruct (d_outl s) as [|o os] eqn:Eo.
    - exists rd2. split; [exact R2|]. auto.
    - destruct (build_outlines_spec st2 1 rd2 (o :: os) level R2 ltac:(discriminate)) as (m & d & lst & F1 & F2 & _).
      eexists. split; [exact F1|]. split.
      + intros id d0 Hid Hd0. rewrite F2; [exact Hd0| |exact Hid]. apply sget_some_lt in Hd0. lia.
      + intros k H1 H2. now rewrite !dget_dset_other by assumption. }
  destruct HO as (rd & R3 & O3 & K3). set (st := build_outlines st2 1 (d_outl s) level) in *.
  assert (Keep : forall id d, id <> 1%nat -> sget st1 id = Some d -> sget st id = Some d) by auto.
  assert (Hnd : nd <> 1%nat) by (pose proof (sget_some_lt _ _ _ (bi_root _ B)); unfold nd; lia).
  split; [|split; [|split]].
  - exists rd. split; [exact R3|]. split; [rewrite K3, K2 by discriminate; reflexivity|]. split; [rewrite K3, K2 by discriminate; reflexivity|].
    intros Hd. rewrite K3 by discriminate. auto.
  - apply Keep; [exact Hnd|]. rewrite N1. unfold l. rewrite !map_map, map_length. reflexivity.
  - intros pg d Hin Hd. destruct (bi_pages _ B _ Hin) as (H1 & _). apply Keep; [exact H1|].
    eapply (P1 (pp_id pg, Some (num (pp_w pg), num (pp_h pg))) d); [|reflexivity|exact Hd]. unfold l. apply in_map_iff. eauto.
  - intros id d (S1 & S2 & S3). apply Keep; [exact S2|]. rewrite O1; auto. apply sget_some_lt in S1. unfold nd. lia.
Qed.
End Node.

(** ** The whole document *)
Lemma value_dget d vs k o v : (forall k, assoc k vs = match dget k d with Some o => denote o | None => None end) ->
  dget k d = Some o -> denote o = Some v -> assoc k vs = Some v.
Proof. intros H E Ev. now rewrite H, E. Qed.
Lemma resource_denote kind (d : dict) vs nm o : dgood d -> (forall k, assoc k vs = match dget k d with Some o => denote o | None => None end) ->
  dget nm (res_of kind d) = Some o -> resource kind vs nm = denote o.
Proof.
  intros Hg Ha E. unfold res_of in E. unfold resource. rewrite Ha. destruct (dget (lit "Resources") d) as [r0|] eqn:Er; [|discriminate].
  destruct r0 as [| |r| | | | | | |]; try discriminate. pose proof (dgood_get _ _ _ Hg Er) as Hr. apply dn_dict in Hr.
  destruct (dgood_denote r Hr) as (rv & _ & -> & Har). rewrite Har. destruct (dget kind r) as [m0|] eqn:Em; [|discriminate].
  destruct m0 as [| |m| | | | | | |]; try discriminate. pose proof (dgood_get _ _ _ Hr Em) as Hm. apply dn_dict in Hm.
  destruct (dgood_denote m Hm) as (mv & _ & -> & Ham). rewrite Ham, E. reflexivity.
Qed.
Lemma plain_regular n : plain_name n = true -> forallb is_regular n = true.
Proof.
  unfold plain_name. rewrite !forallb_forall. intros H c Hc. specialize (H c Hc). apply andb_true_iff in H as [H _]. now apply andb_true_iff in H as [H _].
Qed.
Lemma resource_regular kind (d : dict) nm o : dgood d -> dget nm (res_of kind d) = Some o -> forallb is_regular nm = true.
Proof.
  intros Hg E. unfold res_of in E. destruct (dget (lit "Resources") d) as [r0|] eqn:Er; [|discriminate].
  destruct r0 as [| |r| | | | | | |]; try discriminate. pose proof (dgood_get _ _ _ Hg Er) as Hr. apply dn_dict in Hr.
  destruct (dget kind r) as [m0|] eqn:Em; [|discriminate].
  destruct m0 as [| |m| | | | | | |]; try discriminate. pose proof (dgood_get _ _ _ Hr Em) as Hm. apply dn_dict in Hm.
  apply dget_in in E. unfold dgood in Hm. rewrite Forall_forall in Hm. destruct (Hm _ E) as [H _]. now apply plain_regular.
Qed.
Lemma ordinary_good d : good d -> dgood (ordinary d).
Proof.
  unfold ordinary. intros H. apply Forall_forall. intros kv Hkv. apply filter_In in Hkv as [Hin Hb]. unfold good in H. rewrite Forall_forall in H.
  destruct (H _ Hin) as [H1|H1]; [|exact H1]. exfalso. rewrite H1 in Hb. discriminate Hb.
Qed.
Lemma dget_ordinary k (d : dict) : special k = false -> dget k (ordinary d) = dget k d.
Proof.
  intros Hk. unfold ordinary. induction d as [|[k1 v1] d IH]; [reflexivity|]. cbn [filter fst]. destruct (special k1) eqn:E; cbn [negb dget].
  - rewrite IH. destruct (str_eqb k k1) eqn:E1; [|reflexivity]. apply str_eqb_eq in E1. congruence.
  - now rewrite IH.
Qed.

Section Document.
Variable load_ttf : str -> res ttf.
Variable num : Q -> obj.
Variable round3 : Q -> Q.
Variable tt_descr : ttf -> dict.
Variable tt_file : ttf -> bytes.
Hypothesis num_ok : forall q, dn (num q) = true.
Hypothesis ttf_ok : forall path t, load_ttf path = Ok t -> plain_name (tt_base t) = true /\ dgood (tt_descr t).
Variable txt : Q -> str.
Variable flate : bytes -> bytes.
Variables u1 u2 : bytes.
Variable version : str.
Variable p : process.
Variable ops : list op.
Variable level : Z.
Variable s : pdf.
Variable st : store.
Variable file : bytes.
Hypothesis clear : Forall clear_op ops.
Hypothesis W : written load_ttf num round3 tt_descr tt_file p ops level s st.
Hypothesis O : write_doc txt flate u1 u2 version s st = (file, Ok tt).
Hypothesis small : blen file < 10 ^ 10.
Hypothesis hex1 : forallb is_hex u1 = true.
Hypothesis hex2 : forallb is_hex u2 = true.

Lemma doc_oinv : oinv tt_descr s.
Proof. destruct W as [M _]. eapply made_oinv; eauto. Qed.
Lemma doc_inv : inv load_ttf num round3 tt_descr tt_file [] False (history ops) s.
Proof. destruct W as [M _]. eapply made_inv; eauto. Qed.
Lemma doc_file : exists st' b', fill txt (d_pages s) st = Ok st' /\ base_output flate u1 u2 (st_base version doc_trailer st') = (file, Ok tt, b').
Proof.
  unfold write_doc in O. destruct (fill txt (d_pages s) st) as [st'|]; [|discriminate]. exists st'.
  destruct (base_output _ _ _ _) as [[f r] b']. cbn [fst] in O. injection O as -> ->. eauto.
Qed.
Lemma doc_node : let nd := S (List.length (d_st s)) in
  (exists rd, sget st 1 = Some rd /\ dget (lit "Type") rd = Some (name "/Catalog") /\ dget (lit "Pages") rd = Some (oref nd) /\
     (d_dests s = [] -> dget (lit "Names") rd = None)) /\
  sget st nd = Some (node_dict (map oref (map pp_id (d_pages s))) (Z.of_nat (List.length (d_pages s)))) /\
  (forall pg d, In pg (d_pages s) -> sget (d_st s) (pp_id pg) = Some d ->
     sget st (pp_id pg) = Some (dset (lit "Parent") (oref nd) (dset (lit "MediaBox") (media_box (num (pp_w pg)) (num (pp_h pg))) d))) /\
  (forall id d, static s id d -> sget st id = Some d).
Proof. destruct W as [_ E]. exact (output_node _ _ _ _ _ _ _ _ _ doc_inv E). Qed.
Lemma doc_good id d : sget st id = Some d -> good d.
Proof.
  destruct W as [_ E]. intros Hd. assert (H : Forall good st) by (eapply output_good; [exact num_ok|exact doc_oinv|exact E]).
  destruct id as [|k]; [discriminate|]. cbn [sget] in Hd. apply nth_error_In in Hd. rewrite Forall_forall in H. auto.
Qed.
Lemma stream_in_st pg : In pg (d_pages s) -> sget st (pp_stream pg) = Some page_stream.
Proof. intros Hin. apply doc_node. apply (o_page _ _ doc_oinv _ Hin). Qed.
Lemma other_id id d : sget st id = Some d -> d <> page_stream -> ~ In id (map pp_stream (d_pages s)).
Proof. intros Hd Hn Hin. apply in_map_iff in Hin as (pg & <- & Hin). rewrite (stream_in_st _ Hin) in Hd. congruence. Qed.
(** An object that is not a stream. *)
Lemma doc_read id d : sget st id = Some d -> dget k_stream d = None -> dgood d /\ exists vs, value_at file id (VDict vs) /\
  forall k, assoc k vs = match dget k d with Some o => denote o | None => None end.
Proof.
  intros Hd Hk. assert (Hg : dgood d) by (apply good_plain; [eapply doc_good; eauto|unfold dmem; now rewrite Hk]). split; [exact Hg|].
  destruct doc_file as (st' & b' & F & B). destruct (fill_spec _ _ _ _ F (o_streams _ _ doc_oinv) stream_in_st) as [F1 _].
  eapply object_good; [exact B|exact small| |exact Hg]. rewrite F1; [exact Hd|]. eapply other_id; [exact Hd|].
  intros ->. discriminate.
Qed.
(** A stream with bytes that are stored as they are, or compressed. *)
Lemma doc_stream id d data payload : sget st id = Some d -> ~ In id (map pp_stream (d_pages s)) -> NoDup (keys d) ->
  dget (lit "__stream__") d = Some (OBytes data) -> stored_payload flate d data = Some payload ->
  exists dv, stream_at file id dv payload /\ assoc (lit "Length") dv = Some (VInt (Z.of_nat (List.length payload))) /\
    forall k, special k = false -> assoc k dv = match dget k d with Some o => denote o | None => None end.
Proof.
  intros Hd Hi Hn Hs Hp. destruct doc_file as (st' & b' & F & B). destruct (fill_spec _ _ _ _ F (o_streams _ _ doc_oinv) stream_in_st) as [F1 _].
  destruct (dgood_denote (ordinary d) (ordinary_good _ (doc_good _ _ Hd))) as (vs & V1 & _ & V2).
  destruct (object_stream _ _ _ _ _ _ _ _ B small id d (OBytes data) [data] payload vs) as (dv & D1 & D2 & D3); auto.
  { rewrite F1; auto. }
  { cbn [List.concat]. now rewrite app_nil_r. }
  exists dv. split; [exact D1|]. split; [exact D2|]. intros k Hk. rewrite D3; [rewrite V2; now rewrite dget_ordinary|].
  intros ->. discriminate.
Qed.
(** The contents of a page. *)
Lemma doc_contents pg : In pg (d_pages s) -> exists dv bs, stream_at file (pp_stream pg) dv (flate (List.concat bs)) /\
  assoc (lit "Filter") dv = Some (vname "FlateDecode") /\
  assoc (lit "Length") dv = Some (VInt (Z.of_nat (List.length (flate (List.concat bs))))) /\
  Forall2 (fun p b => portion txt p = Ok b) (pp_parts pg) bs.
Proof.
  intros Hin. destruct doc_file as (st' & b' & F & B). destruct (fill_spec _ _ _ _ F (o_streams _ _ doc_oinv) stream_in_st) as [_ F2].
  destruct (F2 _ Hin) as (l & L1 & L2). destruct (portions_chunks _ _ _ _ L1) as (bs & B1 & B2).
  destruct (object_stream _ _ _ _ _ _ _ _ B small (pp_stream pg) (filled l) (ODict l) bs (flate (List.concat bs))
    [(lit "Filter", VName (lit "FlateDecode"))]) as (dv & D1 & D2 & D3).
  - exact L2.
  - unfold filled, keys. cbn [map fst]. constructor; [|constructor; [|constructor]]; cbn [In]; [|tauto]. intros [H|[]]. discriminate.
  - reflexivity.
  - exact B1.
  - reflexivity.
  - reflexivity.
  - exists dv, bs. split; [exact D1|]. split; [|auto]. rewrite D3 by discriminate. reflexivity.
Qed.

Lemma root_plain rd : sget st 1 = Some rd -> dget k_stream rd = None.
Proof.
  intros Hr. destruct W as [_ E].
  pose (S := fun id => exists d, sget (d_st s) id = Some d /\ dget k_stream d <> None).
  assert (H : only S st) by (eapply output_only; [|exact E]; intros id d Hd Hk; exists d; auto).
  destruct (dget k_stream rd) eqn:Ek; [|reflexivity]. exfalso.
  destruct (H 1%nat rd Hr) as (d & D1 & D2); [congruence|].
  rewrite (bi_root _ (i_base _ _ _ _ _ _ _ _ _ doc_inv)) in D1. injection D1 as <-. apply D2. reflexivity.
Qed.
Lemma page_dict pg : In pg (d_pages s) -> exists d pv, sget st (pp_id pg) = Some d /\ dgood d /\ value_at file (pp_id pg) (VDict pv) /\
  (forall k, assoc k pv = match dget k d with Some o => denote o | None => None end) /\
  dget (lit "Type") d = Some (name "/Page") /\ dget (lit "Parent") d = Some (oref (S (List.length (d_st s)))) /\
  dget (lit "MediaBox") d = Some (media_box (num (pp_w pg)) (num (pp_h pg))) /\
  dget (lit "Contents") d = Some (oref (pp_stream pg)) /\
  (dget (lit "Annots") d = None \/ exists l, dget (lit "Annots") d = Some (OSeq l)).
Proof.
  intros Hin. destruct (o_page _ _ doc_oinv _ Hin) as (_ & d & D1 & D2 & D3). destruct doc_node as (_ & _ & N3 & _).
  specialize (N3 _ _ Hin D1). set (d' := dset _ _ _) in N3.
  destruct (bi_pages _ (i_base _ _ _ _ _ _ _ _ _ doc_inv) _ Hin) as (_ & d0 & H2 & H3 & _ & H4). rewrite D1 in H2. injection H2 as <-.
  destruct (doc_read _ _ N3) as (G & pv & V1 & V2).
  { unfold d'. now rewrite !dget_dset_other by discriminate. }
  exists d', pv. split; [exact N3|]. split; [exact G|]. split; [exact V1|]. split; [exact V2|]. unfold d'.
  split; [now rewrite !dget_dset_other by discriminate|]. split; [apply dget_dset_same|].
  split; [rewrite dget_dset_other by discriminate; apply dget_dset_same|].
  split; [now rewrite !dget_dset_other by discriminate|]. now rewrite !dget_dset_other by discriminate.
Qed.
Lemma doc_has_pages : has_pages file (map pp_id (d_pages s)).
Proof.
  destruct doc_node as ((rd & R1 & R2 & R3 & _) & N & _). destruct doc_file as (st' & b' & F & B).
  destruct (doc_read _ _ R1 (root_plain _ R1)) as (_ & rv & V1 & V2).
  destruct (trailer_found _ _ _ _ _ _ _ _ B small [(lit "Root", VRef 1 0)] hex1 hex2 eq_refl) as (tv & T1 & T2).
  exists rv, (S (List.length (d_st s))). split.
  - exists tv, 1%nat. split; [exact T1|]. split; [rewrite T2 by discriminate; reflexivity|]. split; [exact V1|].
    rewrite V2, R2. reflexivity.
  - split; [rewrite V2, R3; apply denote_oref|].
    destruct (doc_read _ _ N eq_refl) as (_ & nv & W1 & W2).
    assert (Hc : List.concat (map (fun pg => [pp_id pg]) (d_pages s)) = map pp_id (d_pages s)).
    { clear. induction (d_pages s) as [|pg l IH]; cbn [map List.concat app]; [reflexivity|now rewrite IH]. }
    rewrite <- Hc. eapply (at_node _ _ nv None (map pp_id (d_pages s))); [exact W1|rewrite W2; reflexivity|rewrite W2; reflexivity| | |].
    + rewrite W2. unfold node_dict. cbn [dget str_eqb]. change (denote (OSeq (map oref (map pp_id (d_pages s)))) = Some (VArr (map vref (map pp_id (d_pages s))))).
      rewrite denote_OSeq, (denote_seq_map oref vref); [reflexivity|]. intros id _. apply denote_oref.
    + rewrite W2, Hc, map_length. reflexivity.
    + assert (Hall : forall pg, In pg (d_pages s) -> pages_at file (pp_id pg) (Some (S (List.length (d_st s)))) [pp_id pg]).
      { intros pg Hin. destruct (page_dict _ Hin) as (d & pv & _ & _ & V & VA & P1 & P2 & _). econstructor; [exact V| |].
        - rewrite VA, P1. reflexivity.
        - rewrite VA, P2. apply denote_oref. }
      clear - Hall. induction (d_pages s) as [|pg l IH]; cbn [map]; constructor; [apply Hall; now left|apply IH; intros; apply Hall; now right].
Qed.

Lemma static_kept id d : static s id d -> sget st id = Some d.
Proof. apply doc_node. Qed.
Lemma doc_image n id o : dget n (d_images s) = Some id -> sget st id = Some o -> image_at file id o.
Proof.
  intros Hn Ho. split.
  - intros Hk. destruct (doc_read _ _ Ho Hk) as (_ & v & V1 & V2). exists v. split; [exact V1|exact V2].
  - intros data Hd Hs Hf. destruct (doc_stream id o data data Ho) as (v & V1 & V2 & V3).
    + apply (o_imgs _ _ doc_oinv _ _ Hn).
    + exact Hd.
    + exact Hs.
    + unfold stored_payload. change k_skip with (lit "__skip_filter__"). rewrite Hf. destruct (dget k_Filter o); reflexivity.
    + exists v. split; [exact V1|]. split; [exact V2|]. intros k K1 K2 K3. apply V3.
      unfold special. apply str_eqb_neq in K1, K2, K3. change k_stream with (lit "__stream__"). change k_skip with (lit "__skip_filter__").
      change k_Length with (lit "Length"). now rewrite K1, K2, K3.
Qed.
Lemma doc_link a av l : denote a = Some av ->
  link_ok num round3 st (fun u => dget u (d_uris s)) a l -> link_at num round3 file av l.
Proof.
  intros Ha. destruct l as [k [[x y] [[[x0 y0] x1] y1]]]. cbn [link_ok link_at].
  destruct (dn_some _ (num_ok (round3 (x + x0)%Q))) as [a0 A0]. destruct (dn_some _ (num_ok (round3 (y + y0)%Q))) as [b0 B0].
  destruct (dn_some _ (num_ok (round3 (x + x1)%Q))) as [a1 A1]. destruct (dn_some _ (num_ok (round3 (y + y1)%Q))) as [b1 B1].
  assert (HB : denote (OSeq [num (round3 (x + x0)%Q); num (round3 (y + y0)%Q); num (round3 (x + x1)%Q); num (round3 (y + y1)%Q)])
    = Some (VArr [a0; b0; a1; b1])).
  { rewrite denote_OSeq. cbn [denote_seq]. now rewrite A0, B0, A1, B1. }
  set (box := OSeq _) in *. clearbody box.
  destruct k as [l|u].
  - intros ->. assert (Hg : dgood [(lit "Type", name "/Annot"); (lit "Subtype", name "/Link"); (lit "Dest", OStr l); (lit "Rect", box)])
      by (apply dn_dict; eapply some_dn, Ha).
    destruct (dgood_denote _ Hg) as (vs & _ & E & V). rewrite E in Ha. injection Ha as <-.
    exists vs, a0, b0, a1, b1. split; [reflexivity|]. rewrite !V. cbn [dget].
    split; [reflexivity|]. split; [reflexivity|]. split; [exact HB|]. do 4 (split; [assumption|]).
    change (denote (OStr l) = Some (VStr l)). assert (dn (OStr l) = true) by (eapply (dgood_get (lit "Dest")); [exact Hg|reflexivity]).
    unfold dn in *. cbn [denote] in *. destruct (plain_text l); [reflexivity|discriminate].
  - intros (id & I1 & I2 & ->). assert (Hg : dgood [(lit "Type", name "/Annot"); (lit "Subtype", name "/Link"); (lit "A", oref id); (lit "H", name "/N"); (lit "Rect", box)])
      by (apply dn_dict; eapply some_dn, Ha).
    destruct (dgood_denote _ Hg) as (vs & _ & E & V). rewrite E in Ha. injection Ha as <-.
    exists vs, a0, b0, a1, b1. split; [reflexivity|]. rewrite !V. cbn [dget].
    split; [reflexivity|]. split; [reflexivity|]. split; [exact HB|]. do 4 (split; [assumption|]).
    destruct (doc_read _ _ I2 eq_refl) as (G & uv & U1 & U2). exists id, uv. split; [apply denote_oref|]. split; [exact U1|].
    rewrite !U2. split; [reflexivity|]. split; [reflexivity|]. change (denote (OStr u) = Some (VStr u)).
    assert (dn (OStr u) = true) by (eapply (dgood_get (lit "URI")); [exact G|reflexivity]).
    unfold dn in *. cbn [denote] in *. destruct (plain_text u); [reflexivity|discriminate].
Qed.
Lemma annotations_read d pv : dgood d -> (forall k, assoc k pv = match dget k d with Some o => denote o | None => None end) ->
  (dget (lit "Annots") d = None \/ exists l, dget (lit "Annots") d = Some (OSeq l)) ->
  denote_seq (annots d) = Some (annotations pv).
Proof.
  intros Hg HA Hl. unfold annots, annotations. rewrite HA. destruct Hl as [E|[l E]]; rewrite E; [reflexivity|].
  pose proof (dgood_get _ _ _ Hg E) as Hd. unfold dn in Hd. rewrite denote_OSeq in *. destruct (denote_seq l); [reflexivity|discriminate].
Qed.
Lemma doc_page i pg size : nth_error (d_pages s) i = Some pg -> size = (pp_w pg, pp_h pg) ->
  page_at num round3 txt flate file (history ops) i (pp_id pg) size.
Proof.
  intros Hi ->. assert (Hin : In pg (d_pages s)) by (eapply nth_error_In, Hi).
  destruct (page_dict _ Hin) as (d & pv & D1 & D2 & D3 & D4 & _ & _ & D5 & D6 & D7).
  destruct (doc_contents _ Hin) as (cv & bs & C1 & C2 & C3 & C4).
  destruct (dn_some _ (num_ok (pp_w pg))) as [a A0]. destruct (dn_some _ (num_ok (pp_h pg))) as [b B0].
  exists pv, a, b, (pp_stream pg), cv, bs. split; [exact D3|]. split.
  { rewrite D4, D5. unfold media_box. rewrite denote_OSeq. cbn [denote_seq denote]. now rewrite A0, B0. }
  split; [exact A0|]. split; [exact B0|]. split; [rewrite D4, D6; apply denote_oref|]. split; [exact C1|]. split; [exact C2|].
  split; [exact C3|]. assert (Hid : nth_error (map pp_id (d_pages s)) i = Some (pp_id pg)) by (rewrite nth_error_map, Hi; reflexivity). split.
  - destruct (doc_images_at _ _ _ _ _ _ _ _ _ _ W) as (_ & _ & H). destruct (H _ _ Hid) as (_ & _ & HD).
    unfold parts_of, page_get in HD. rewrite Hi in HD. clear - HD C4 D1 D2 D4 num_ok ttf_ok clear W O small hex1 hex2.
    revert bs C4. induction HD as [|pt e ps es Hpt HD IH]; intros bs C4; inversion C4 as [|? b ? bs' Hb Hbs]; subst; constructor; [|now apply IH].
    unfold portion in Hb. apply encode_latin_ok in Hb. destruct pt as [refs sm|nm w ht x y], e; cbn [draw_ok] in Hpt; try contradiction; cbn [drawn].
    + congruence.
    + destruct Hpt as (Eq & id & o & P1 & P2 & P3 & P4). injection Eq as -> -> -> ->. exists nm, id, o. split; [exact P3|].
      unfold odict in P2. rewrite D1 in P2.
      split; [eapply doc_image; eauto|]. split; [|split; [exact (resource_regular _ _ _ _ D2 P2)|exact Hb]].
      rewrite (resource_denote _ _ _ _ _ D2 D4 P2). apply denote_oref.
  - destruct (doc_links_at _ _ _ _ _ _ _ _ _ _ W) as (_ & H). specialize (H _ _ Hid).
    unfold odict in H. rewrite D1 in H. pose proof (annotations_read _ _ D2 D4 D7) as HA.
    clear - H HA num_ok ttf_ok clear W O small hex1 hex2. revert HA. generalize (annotations pv).
    induction H as [|x l xs ls Hx H IH]; intros vs HA; cbn [denote_seq] in HA; [injection HA as <-; constructor|].
    destruct (denote x) as [v|] eqn:Ev; [|discriminate]. destruct (denote_seq xs) as [r|]; [|discriminate].
    injection HA as <-. constructor; [eapply doc_link; eauto|now apply IH].
Qed.
Lemma font_stream id d data : sget st id = Some d -> NoDup (keys d) -> dget (lit "__skip_filter__") d = None ->
  dget (lit "__stream__") d = Some (OBytes data) -> dget (lit "Filter") d = Some (name "/FlateDecode") ->
  exists dv, stream_at file id dv (flate data) /\ assoc (lit "Filter") dv = Some (vname "FlateDecode") /\
    forall k, special k = false -> assoc k dv = match dget k d with Some o => denote o | None => None end.
Proof.
  intros Hd Hn Hk Hs Hf. destruct (doc_stream id d data (flate data) Hd) as (dv & V1 & V2 & V3).
  - eapply other_id; [exact Hd|]. intros ->. discriminate.
  - exact Hn.
  - exact Hs.
  - unfold stored_payload. change k_skip with (lit "__skip_filter__"). change k_Filter with (lit "Filter"). now rewrite Hf, Hk.
  - exists dv. split; [exact V1|]. split; [|exact V3]. rewrite V3, Hf; reflexivity.
Qed.
Lemma base_name b : dn (OBytes (lit "/" ++ b)) = true -> denote (OBytes (lit "/" ++ b)) = Some (VName b).
Proof.
  unfold dn. change (lit "/" ++ b) with (47 :: b). cbn [denote denote_bytes]. destruct (plain_name b); [reflexivity|discriminate].
Qed.
Lemma doc_font id d base t : sget st id = Some d -> (forall t', t = Some t' -> exists path, load_ttf path = Ok t') ->
  described num tt_descr tt_file (fun id e => sget st id = Some e) d base t -> font_at tt_descr tt_file flate file id base t.
Proof.
  intros Hd Ht (H0 & H1 & H2 & H3). destruct (doc_read _ _ Hd H0) as (G & v & V1 & V2). exists v. split; [exact V1|].
  assert (HB : forall d : dict, dgood d -> dget (lit "BaseFont") d = Some (OBytes (lit "/" ++ base)) -> denote (OBytes (lit "/" ++ base)) = Some (VName base)).
  { intros d0 G0 E0. apply base_name. eapply dgood_get; [exact G0|exact E0]. }
  rewrite !V2, H1, H2. split; [reflexivity|]. split; [eauto|]. destruct t as [t|].
  - destruct H3 as (A & B & cid & cd & fid & fd & eid & ed & uid & ud & text & C1 & C2 & C0 & C3 & C4 & C5 & C6 & C7 & C8 &
      D1 & D2 & D3 & D4 & D5 & D9 & D0 & D6 & D7 & D8 & E1 & E2 & E6 & E0 & E3 & E4 & E5).
    rewrite A, B. split; [reflexivity|]. split; [reflexivity|].
    destruct (Ht t eq_refl) as [path Hp]. destruct (ttf_ok _ _ Hp) as [_ Hdescr].
    destruct (doc_read _ _ C2 C0) as (Gc & cv & CV1 & CV2).
    destruct (doc_read _ _ D2) as (_ & fv & FV1 & FV2).
    { rewrite D3 by discriminate. destruct (dget k_stream (tt_descr t)) as [o|] eqn:Ek; [|reflexivity]. exfalso.
      apply dget_in in Ek. unfold dgood in Hdescr. rewrite Forall_forall in Hdescr. destruct (Hdescr _ Ek) as (_ & K & _). now apply K. }
    destruct (font_stream _ _ _ D5 D9 D0 D6 D7) as (ev & EV1 & EV2 & EV3).
    destruct (font_stream _ _ _ E2 E6 E0 E3 E4) as (uv & UV1 & UV2 & UV3).
    exists cid, cv, fid, fv, eid, ev, uid, uv, text. rewrite C1. split.
    { rewrite denote_OSeq. cbn [denote_seq]. now rewrite denote_oref. }
    split; [exact CV1|]. rewrite !CV2, C3, C4, C5, C6, D1. split; [reflexivity|]. split; [reflexivity|]. split; [eauto|]. split; [reflexivity|].
    split; [apply denote_oref|]. split; [exact FV1|]. split.
    { intros k Hk. unfold same_entry. now rewrite FV2, D3. }
    rewrite FV2, D4. split; [apply denote_oref|]. split; [exact EV1|]. split; [exact EV2|].
    rewrite EV3, D8 by reflexivity. split; [reflexivity|]. rewrite E1. split; [apply denote_oref|]. auto.
  - destruct H3 as [-> ->]. auto.
Qed.

(** ** Labels and outlines *)
Lemma node_plain id d k : sget st id = Some d -> In k [lit "Names"; lit "Kids"; lit "Title"; lit "First"] -> dget k d <> None ->
  dget k_stream d = None.
Proof.
  intros Hd Hk Hn. destruct W as [_ E].
  pose (S := fun id => exists d, sget (d_st s) id = Some d /\ dget k_stream d <> None).
  assert (H : only S st) by (eapply output_only; [|exact E]; intros i x Hx Hs; exists x; auto).
  destruct (dget k_stream d) eqn:Es; [|reflexivity]. exfalso.
  destruct (H id d Hd) as (d0 & D1 & D2); [congruence|].
  assert (Hst : static s id d0).
  { split; [exact D1|]. split.
    - intros ->. rewrite (bi_root _ (i_base _ _ _ _ _ _ _ _ _ doc_inv)) in D1. injection D1 as <-. now apply D2.
    - intros Hin. apply in_map_iff in Hin as (pg & <- & Hin). destruct (o_page _ _ doc_oinv _ Hin) as (_ & d1 & P1 & _ & P2). congruence. }
  pose proof (static_kept _ _ Hst) as E1. rewrite Hd in E1. injection E1 as ->.
  pose proof (o_inert _ _ doc_oinv) as HI. rewrite Forall_forall in HI. apply Hn. apply HI; [|exact D2|exact Hk].
  destruct id as [|i]; [discriminate|]. cbn [sget] in D1. eapply nth_error_In, D1.
Qed.
Definition pairs_as (kvs : dict) (l : list (bytes * pval)) : Prop := Forall2 (fun kv pv => fst kv = fst pv /\ denote (snd kv) = Some (snd pv)) kvs l.
Lemma pairs_keys kvs l : pairs_as kvs l -> map fst l = keys kvs.
Proof. induction 1 as [|kv pv kvs l [H _] _ IH]; cbn [map keys]; [reflexivity|]. unfold keys in *. cbn [map]. now rewrite IH, H. Qed.
Lemma pairs_names kvs : dn (OSeq (flat_map (fun kv => [OStr (fst kv); snd kv]) kvs)) = true -> exists l, pairs_as kvs l /\
  denote (OSeq (flat_map (fun kv => [OStr (fst kv); snd kv]) kvs)) = Some (VArr (flat_map (fun pv => [VStr (fst pv); snd pv]) l)).
Proof.
  rewrite dn_seq. induction kvs as [|[k v] kvs IH]; intros H; [exists []; split; [constructor|reflexivity]|].
  cbn [flat_map app fst snd] in H. inversion H as [|? ? H1 H2]; subst. inversion H2 as [|? ? H3 H4]; subst.
  destruct (IH H4) as (l & L1 & L2). destruct (dn_some _ H3) as [pv Hv]. exists ((k, pv) :: l). split; [constructor; [split; [reflexivity|exact Hv]|exact L1]|].
  rewrite denote_OSeq in L2 |- *. cbn [flat_map app fst snd denote_seq]. rewrite Hv.
  unfold dn in H1. cbn [denote] in H1 |- *. destruct (plain_text k); [|discriminate].
  destruct (denote_seq (flat_map _ kvs)); [|discriminate]. injection L2 as ->. reflexivity.
Qed.
Lemma limits_read rt (d : dict) vs (kvs : dict) l : dgood d -> (forall k, assoc k vs = match dget k d with Some o => denote o | None => None end) ->
  limits_ok rt d kvs -> pairs_as kvs l ->
  assoc (lit "Limits") vs = (if rt then None else Some (VArr [VStr (hd [] (map fst l)); VStr (last (map fst l) [])])).
Proof.
  intros G V L P. rewrite (pairs_keys _ _ P), V. destruct rt; cbn [limits_ok] in L; [now rewrite L|].
  destruct L as (lo & hi & L1 & L2 & L3). rewrite L1. pose proof (dgood_get _ _ _ G L1) as Hd.
  assert (E1 : lo = hd [] (keys kvs)) by (destruct (keys kvs); [discriminate|]; cbn in L2 |- *; congruence).
  assert (E2 : denote (OSeq [OStr lo; OStr hi]) = Some (VArr [VStr lo; VStr hi])).
  { apply dn_seq in Hd. inversion Hd as [|? ? H1 H2]. inversion H2 as [|? ? H3 _].
    rewrite denote_OSeq. cbn [denote_seq denote]. unfold dn in H1, H3. cbn [denote] in H1, H3.
    destruct (plain_text lo); [|discriminate]. destruct (plain_text hi); [reflexivity|discriminate]. }
  rewrite E2. f_equal. f_equal. f_equal; [now f_equal|]. f_equal. f_equal. now symmetry.
Qed.
Lemma doc_names rt id kvs : name_tree st rt id kvs -> exists l, pairs_as kvs l /\ names_at file rt id l.
Proof.
  intros H. induction H as [rt id d kvs Hd Hne HN Hk Hl|rt id d kids kvss Hd Hne HN Hk Hf IH Hl] using name_tree_nested.
  - destruct (doc_read _ _ Hd) as (G & v & V1 & V2); [eapply (node_plain id d (lit "Names")); [exact Hd|cbn; auto|congruence]|].
    destruct (pairs_names kvs (dgood_get _ _ _ G HN)) as (l & L1 & L2). exists l. split; [exact L1|].
    econstructor; [exact V1|rewrite V2, HN; exact L2|rewrite V2, Hk; reflexivity|eapply limits_read; eauto|].
    intros ->. inversion L1. now subst.
  - destruct (doc_read _ _ Hd) as (G & v & V1 & V2); [eapply (node_plain id d (lit "Kids")); [exact Hd|cbn; auto|congruence]|].
    assert (exists ls, Forall2 pairs_as kvss ls /\ Forall2 (fun k l => names_at file false k l) kids ls) as (ls & L1 & L2).
    { clear - IH. induction IH as [|k kvs kids kvss (l & P1 & P2) _ IH2]; [exists []; split; constructor|].
      destruct IH2 as (ls & A & B). exists (l :: ls). split; constructor; auto. }
    assert (LC : pairs_as (List.concat kvss) (List.concat ls)).
    { clear - L1. induction L1; cbn [List.concat]; [constructor|]. apply Forall2_app; assumption. }
    exists (List.concat ls). split; [exact LC|].
    eapply (names_node _ _ _ v kids ls); [exact V1|rewrite V2, HN; reflexivity| |eapply limits_read; eauto|exact L2|exact Hne].
    rewrite V2, Hk, denote_OSeq, (denote_seq_map oref vref); [reflexivity|]. intros x _. apply denote_oref.
Qed.
Lemma dn_text (d : dict) k t : dgood d -> dget k d = Some (OStr t) -> denote (OStr t) = Some (VStr t).
Proof. intros G E. pose proof (dgood_get _ _ _ G E) as H. unfold dn in H. cbn [denote] in *. destruct (plain_text t); [reflexivity|discriminate]. Qed.
Fixpoint item_of (t : otree) : item := match t with ONode title label ch => Item title label (map item_of ch) end.
Lemma listed_of n t : listed1 n (item_of t) = preorder1 n t.
Proof.
  revert n t. fix IH 2. intros n [title label ch]. cbn [item_of listed1 preorder1]. f_equal.
  induction ch as [|c ch IHc]; [reflexivity|]. cbn [map flat_map]. now rewrite IH, IHc.
Qed.
Lemma doc_items lv parent prev entry f last ids : chain st lv parent prev entry f last ids ->
  forall e, e = match entry with Some o => denote o | None => None end -> items_at file parent prev e (map item_of f) last.
Proof.
  induction 1 as [lv parent prev|lv parent prev id d title label ch rest clast cids last ids Hd H1 H2 H3 H4 H5 Hc IHc H6 Hr IHr]; intros e ->; [constructor|].
  destruct (doc_read _ _ Hd) as (G & v & V1 & V2); [eapply (node_plain id d (lit "Title")); [exact Hd|cbn; auto|congruence]|].
  cbn [map item_of]. rewrite denote_oref. eapply (items_cons file parent prev id v); [exact V1| | | | | | |].
  - rewrite V2, H1. eapply dn_text; eauto.
  - rewrite V2, H2. eapply dn_text; eauto.
  - rewrite V2, H3. apply denote_oref.
  - rewrite V2, H4. destruct prev; cbn [option_map]; [apply denote_oref|reflexivity].
  - apply IHc. now rewrite V2.
  - rewrite V2, H6. destruct clast; cbn [option_map]; [apply denote_oref|reflexivity].
  - apply IHr. now rewrite V2.
Qed.
Lemma doc_catalog : exists rd cat, sget st 1 = Some rd /\ dgood rd /\ catalog_is file cat /\
  (forall k, assoc k cat = match dget k rd with Some o => denote o | None => None end) /\
  (d_dests s = [] -> dget (lit "Names") rd = None).
Proof.
  destruct doc_node as ((rd & R1 & R2 & R3 & R4) & N & _). destruct doc_file as (st' & b' & F & B).
  destruct (doc_read _ _ R1 (root_plain _ R1)) as (G & rv & V1 & V2).
  destruct (trailer_found _ _ _ _ _ _ _ _ B small [(lit "Root", VRef 1 0)] hex1 hex2 eq_refl) as (tv & T1 & T2).
  exists rd, rv. split; [exact R1|]. split; [exact G|]. split; [|auto].
  exists tv, 1%nat. split; [exact T1|]. split; [rewrite T2 by discriminate; reflexivity|]. split; [exact V1|].
  rewrite V2, R2. reflexivity.
Qed.
Lemma doc_outline : exists cat items, catalog_is file cat /\ outline_is file cat items /\
  listed 1 items = map (fun o => (Z.to_nat (Z.max 1 (fst o)), snd o)) (outlines (history ops)).
Proof.
  destruct doc_catalog as (rd & cat & C1 & C2 & C3 & C4 & _). exists cat.
  destruct (doc_outlines _ _ _ _ _ _ _ _ _ _ W) as (forest & F1 & F2 & F3). exists (map item_of forest). split; [exact C3|]. split.
  - unfold out_outlines in F2, F3. rewrite C1 in F2, F3. destruct forest as [|t forest].
    + cbn [map outline_is]. rewrite C4, F2; reflexivity.
    + destruct F3 as (m & d & lst & M1 & M2 & M3 & M4 & M5 & M6); [discriminate|].
      destruct (doc_read _ _ M2) as (G & v & V1 & V2).
      { eapply (node_plain m d (lit "First")); [exact M2|cbn; auto|]. intros EF. rewrite EF in M6. inversion M6. }
      cbn [map outline_is]. exists m, v, lst. split; [rewrite C4, M1; apply denote_oref|]. split; [exact V1|].
      split; [rewrite V2, M3; reflexivity|]. split; [|rewrite V2, M5; apply denote_oref].
      change (item_of t :: map item_of forest) with (map item_of (t :: forest)). eapply doc_items; [exact M6|]. apply V2.
  - rewrite <- F1. unfold listed, preorder. clear. induction forest as [|t f IH]; [reflexivity|]. cbn [map flat_map]. now rewrite listed_of, IH.
Qed.
Lemma pairs_assoc kvs l : pairs_as kvs l -> forall k, assoc k l = match dget k kvs with Some o => denote o | None => None end.
Proof.
  induction 1 as [|[k v] [k' v'] kvs l [H1 H2] _ IH]; intros x; cbn [assoc dget]; [reflexivity|]. cbn [fst snd] in *. subst k'.
  rewrite IH. destruct (str_eqb x k); [now rewrite H2|reflexivity].
Qed.
Lemma doc_label_pairs : exists cat l, catalog_is file cat /\ names_are file cat l /\ Sorted.StronglySorted str_lt (map fst l) /\
  forall k, match last_label k (history ops) with
            | Some pl => exists v, assoc k l = Some v /\ place_at num round3 (map pp_id (d_pages s)) (page_sizes (history ops)) pl v
            | None => assoc k l = None
            end.
Proof.
  destruct doc_catalog as (rd & cat & C1 & C2 & C3 & C4 & C5). exists cat.
  destruct (written_spec _ _ _ _ _ _ _ _ _ _ W) as (I & _ & _ & _ & _ & H4 & _).
  assert (HL : exists l, names_are file cat l /\ Sorted.StronglySorted str_lt (map fst l) /\ forall k, assoc k l = match dget k (d_dests s) with Some o => denote o | None => None end).
  { destruct (d_dests s) as [|kv ds] eqn:Ed.
    - exists []. cbn [names_are map]. split; [rewrite C4, C5; reflexivity|]. split; [constructor|reflexivity].
    - destruct H4 as (m & M1 & M2 & M3). destruct (doc_names _ _ _ M2) as (l & L1 & L2). exists l.
      pose proof (i_dests_nodup _ _ _ _ _ _ _ _ _ I) as Hnd. rewrite Ed in Hnd.
      destruct (sort_keys_spec (kv :: ds) Hnd) as (_ & S2 & _ & _).
      split; [|split; [rewrite (pairs_keys _ _ L1); exact M3|intros k; now rewrite (pairs_assoc _ _ L1), S2]].
      unfold out_names in M1. rewrite C1 in M1. unfold dests_id in M1. destruct (dget (lit "Names") rd) as [o|] eqn:En; [|discriminate].
      destruct o as [| |nd| | | | | | |]; try discriminate. pose proof (dgood_get _ _ _ C2 En) as Gn. apply dn_dict in Gn.
      destruct (dgood_denote nd Gn) as (nv & _ & N1 & N2). unfold names_are. destruct l as [|pv l].
      { exfalso. pose proof (pairs_keys _ _ L1) as EE. specialize (S2 (fst kv)). clear - EE S2. destruct (sort_keys (kv :: ds)); [|discriminate]. destruct kv as [k0 v0]. cbn [dget fst] in S2. rewrite str_eqb_refl in S2. discriminate. }
      exists nv, m. rewrite C4, En, N2, M1. split; [exact N1|]. split; [apply denote_oref|exact L2]. }
  destruct HL as (l & L1 & L2 & L3). exists l. split; [exact C3|]. split; [exact L1|]. split; [exact L2|].
  intros k. rewrite L3. pose proof (i_dests _ _ _ _ _ _ _ _ _ I k) as H. destruct (last_label k (history ops)) as [[i [[x y] r]]|]; [|now rewrite H].
  destruct H as (pg & Hi & ->). destruct r as [[[a b] c] d]. cbn [dest_obj place_at].
  destruct (dn_some _ (num_ok (round3 (x + a)%Q))) as [a0 A0]. destruct (dn_some _ (num_ok (round3 (y + d)%Q))) as [b0 B0].
  destruct (dn_some _ (num_ok (round3 ((x + a) / pp_w pg)%Q + 1)%Q)) as [z0 Z0].
  exists (VArr [vref (pp_id pg); vname "XYZ"; a0; b0; z0]). split.
  { rewrite denote_OSeq. cbn [denote_seq]. rewrite denote_oref, A0, B0, Z0. reflexivity. }
  exists (pp_id pg), (pp_w pg), (pp_h pg), a0, b0, z0. rewrite <- (i_sizes _ _ _ _ _ _ _ _ _ I), !nth_error_map, Hi. auto 10.
Qed.
End Document.

Lemma Forall2_in_r {A B} (R : A -> B -> Prop) l m : Forall2 R l m -> forall y, In y m -> exists x, In x l /\ R x y.
Proof.
  induction 1 as [|a b l m H _ IH]; intros y; [intros []|]. intros [<-|Hy]; [exists a; split; [now left|exact H]|].
  destruct (IH _ Hy) as (x & X1 & X2). exists x. split; [now right|exact X2].
Qed.
(** The fonts need the history of a fresh process without added fonts. *)
Lemma doc_page_fonts load_ttf num round3 tt_descr tt_file txt flate u1 u2 version reg ops level s st file i id :
  (forall q, dn (num q) = true) ->
  (forall path t, load_ttf path = Ok t -> plain_name (tt_base t) = true /\ dgood (tt_descr t)) ->
  Forall clear_op ops -> Forall no_add_font ops ->
  written load_ttf num round3 tt_descr tt_file (mkProc reg []) ops level s st ->
  write_doc txt flate u1 u2 version s st = (file, Ok tt) -> blen file < 10 ^ 10 ->
  nth_error (map pp_id (d_pages s)) i = Some id ->
  fonts_at load_ttf tt_descr tt_file flate file reg (fun k => kget k (d_used s)) (history ops) i id.
Proof.
  intros Hnum Httf Hc Hf W O small Hi styles t sty H1 H2.
  destruct (doc_fonts_at _ _ _ _ _ _ _ _ _ _ Hf W) as (_ & _ & H). specialize (H _ _ Hi).
  assert (Hs : In (EText styles t) (shows (on i (history ops)))) by (apply filter_In; auto).
  destruct (Forall2_in_r _ _ _ H _ Hs) as (pt & _ & Hp). destruct pt as [refs sm|]; [|contradiction]. cbn [text_ok] in Hp.
  destruct (Forall2_in_r _ _ _ Hp _ H2) as (r & _ & fid & d & base & tf & P1 & P2 & P3 & P4 & P5).
  rewrite nth_error_map in Hi. destruct (nth_error (d_pages s) i) as [pg|] eqn:Ei; [|discriminate]. injection Hi as <-.
  destruct (page_dict load_ttf num round3 tt_descr tt_file Hnum Httf txt flate u1 u2 version _ _ _ _ _ _ Hc W O small pg) as (pd & pv & D1 & D2 & D3 & D4 & _);
    [eapply nth_error_In, Ei|].
  exists pv, r, fid, base, tf. split; [exact D3|]. split; [exact P1|]. split.
  { unfold odict in P2. rewrite D1 in P2. rewrite (resource_denote _ _ _ _ _ D2 D4 P2). apply denote_oref. }
  split; [exact P4|]. eapply doc_font; eauto. intros t' ->. unfold wanted_base in P4.
  destruct (dget (fst (style_key sty)) standard_fonts); [destruct P4; discriminate|].
  destruct P4 as (path & t0 & _ & L & _ & E). injection E as <-. eauto.
Qed.
