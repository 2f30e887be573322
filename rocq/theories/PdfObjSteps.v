(** Every operation keeps the invariant of the document object. *)
From Verif Require Import Py PyStr PdfSyntax Parser StreamProofs Store PageTree NameTree OutlineTree Fonts PdfObj PdfObjSpec PdfObjFonts PdfObjProofs.
From Coq Require Import String QArith.
Open Scope N_scope.
Open Scope list_scope.

Lemma kget_kset_same {V} k (v : V) d : kget k (kset k v d) = Some v.
Proof.
  induction d as [|[k' v'] d IH]; cbn [kset kget]; [now rewrite fkey_eqb_refl|].
  destruct (fkey_eqb k k') eqn:E; cbn [kget]; rewrite E; auto.
Qed.
Lemma kget_kset_other {V} k k2 (v : V) d : k2 <> k -> kget k2 (kset k v d) = kget k2 d.
Proof.
  intros H. assert (Hf : fkey_eqb k2 k = false).
  { destruct (fkey_eqb k2 k) eqn:E; [|reflexivity]. apply fkey_eqb_eq in E. contradiction. }
  induction d as [|[k' v'] d IH]; cbn [kset kget]; [now rewrite Hf|].
  destruct (fkey_eqb k k') eqn:E; cbn [kget].
  - apply fkey_eqb_eq in E. subst k'. now rewrite Hf.
  - now rewrite IH.
Qed.
Lemma kget_none {V} k (d : list (fkey * V)) : kget k d = None <-> ~ In k (map fst d).
Proof.
  induction d as [|[k' v'] d IH]; cbn [kget map fst In]; [tauto|].
  destruct (fkey_eqb k k') eqn:E.
  - apply fkey_eqb_eq in E. subst. split; [discriminate|tauto].
  - rewrite IH. split; [|tauto]. intros H [->|H']; [now rewrite fkey_eqb_refl in E|tauto].
Qed.
Lemma kset_absent {V} k (v : V) d : ~ In k (map fst d) -> kset k v d = d ++ [(k, v)].
Proof.
  induction d as [|[k' v'] d IH]; cbn [kset map fst In]; [reflexivity|]. intros H.
  destruct (fkey_eqb k k') eqn:E; [apply fkey_eqb_eq in E; subst; tauto|]. cbn [app]. rewrite IH; tauto.
Qed.
Lemma nodup_snoc {A} (l : list A) x : NoDup l -> ~ In x l -> NoDup (l ++ [x]).
Proof.
  intros H1 H2.
  induction H1 as [|y l Hy H IH]; cbn [app]; [constructor; [tauto|constructor]|].
  constructor; [|apply IH; intros H3; apply H2; now right].
  intros H3. apply in_app_or in H3 as [H3|[H3|[]]]; [tauto|]. subst. apply H2. now left.
Qed.

Section Steps.
Variable load_ttf : str -> res ttf.
Variable num : Q -> obj.
Variable round3 : Q -> Q.
Variable tt_descr : ttf -> dict.
Variable tt_file : ttf -> bytes.
Variable reg : list (fkey * str).
Variable fok : Prop.
Notation resolves := (resolves load_ttf reg).
Notation fonts_inv := (fonts_inv load_ttf reg).
Notation mono := (mono load_ttf reg fok).
Notation inv := (inv load_ttf num round3 tt_descr tt_file reg fok).

(** The pages are not touched. *)
Lemma inv_keep h s s' : inv h s -> mono s s' -> base_inv s' -> same_pages s s' ->
  d_dests s' = d_dests s -> d_outl s' = d_outl s -> (fok -> fonts_inv (d_fs s') (d_proc s')) ->
  (forall k r id, kget k (d_used s') = Some (r, id) -> kget k (d_used s) = Some (r, id) \/ exists d, static s' id d) ->
  (fok -> forall k r id, kget k (d_used s') = Some (r, id) -> kget k (d_used s) = Some (r, id) \/
     exists f j d, resolves (d_fs s') (d_proc s') k f j /\
             f_ref f = r /\ static s' id d /\
             described num tt_descr tt_file (static s') d (f_base f) (file_kind (f_kind f))) ->
  (forall k k' r r' id, kget k (d_used s') = Some (r, id) -> kget k' (d_used s') = Some (r', id) -> k = k') ->
  (d_images s' = d_images s) ->
  (forall u id, dget u (d_uris s') = Some id -> dget u (d_uris s) = Some id \/ static s' id (action u)) ->
  (NoDup (map fst (d_used s')) /\ NoDup (keys (d_uris s'))) ->
  (fok -> List.length (d_st s') + List.length (d_uris s) + total (map (fun u => key_size (fst u)) (d_used s)) =
   List.length (d_st s) + List.length (d_uris s') + total (map (fun u => key_size (fst u)) (d_used s')))%nat ->
  inv h s'.
Proof.
  intros I M B SP E1 E2 FI U0 U1 U2 Eim U3 ND CT. pose proof (same_views _ _ SP) as V. constructor.
  - exact B.
  - exact FI.
  - intros k r id H. destruct (U0 _ _ _ H) as [H'|H']; [|exact H']. eapply used_static_mono; eauto.
  - intros F k r id H. destruct (U1 F _ _ _ H) as [H'|H']; [|exact H']. eapply used_mono; eauto.
  - exact U2.
  - rewrite Eim. intros n id H. destruct (i_img _ _ _ _ _ _ _ _ _ I _ _ H) as (o & H1 & H2). exists o.
    split; [eapply mo_static; eauto|exact H2].
  - rewrite Eim. apply I.
  - rewrite Eim. apply I.
  - intros u id H. destruct (U3 _ _ H) as [H'|H']; [|exact H']. eapply mo_static; [exact M|]. eapply i_uri; eauto.
  - intros i pg H. destruct (V i) as (_ & V2 & _). rewrite V2. eapply i_x; [exact I|]. now rewrite <- (proj1 SP).
  - intros i. destruct (V i) as (_ & _ & _ & V4). rewrite V4. eapply Forall2_weaken; [|apply (i_parts _ _ _ _ _ _ _ _ _ I i)].
    intros p e He. eapply part_ok_mono; [exact M|exact He].
  - eapply use_mono; eauto.
  - intros i r v H. destruct (V i) as (V1 & _). rewrite V1 in H.
    destruct (i_fontres _ _ _ _ _ _ _ _ _ I _ _ _ H) as (k & id & H1 & H2). exists k, id. split; [eapply mo_used; eauto|exact H2].
  - intros i. destruct (V i) as (_ & _ & V3 & _). rewrite V3. eapply Forall2_weaken; [|apply (i_links _ _ _ _ _ _ _ _ _ I i)].
    intros a l Ha. eapply annot_ok_mono; [exact M|exact Ha].
  - eapply dest_mono; eauto.
  - rewrite E1. apply I.
  - rewrite E2. apply I.
  - rewrite (proj1 SP). apply I.
  - rewrite Eim. destruct ND. split; [|split]; auto. apply I.
  - intros F. rewrite (proj1 SP), Eim. pose proof (i_count _ _ _ _ _ _ _ _ _ I F). specialize (CT F). lia.
Qed.

(** A font request. *)
Lemma with_fonts_inv h s fs p : inv h s -> (fok -> fonts_inv fs p) ->
  (fok -> forall k0 f0 i0, resolves (d_fs s) (d_proc s) k0 f0 i0 -> resolves fs p k0 f0 i0) ->
  inv h (with_fonts s fs p) /\ mono s (with_fonts s fs p).
Proof.
  intros I F R. assert (M : mono s (with_fonts s fs p)) by (constructor; eauto).
  split; [|exact M]. apply (inv_keep h s); try reflexivity; try exact M; eauto.
  - destruct (i_base _ _ _ _ _ _ _ _ _ I) as [B1 B2 B3]. constructor; [exact B1|exact B2|exact B3].
  - split; [reflexivity|auto].
  - intros k k' r r' id. apply (i_used_inj _ _ _ _ _ _ _ _ _ I).
  - split; apply (i_keys _ _ _ _ _ _ _ _ _ I).
Qed.

Definition good_key (k : fkey) : Prop :=
  forall modes, dget (fst k) standard_fonts = Some modes -> dmem (snd k) modes = true.

Lemma font_objs_last st f : exists l d, font_objs num tt_descr tt_file st f = l ++ [d] /\
    (forall P : nat -> dict -> Prop, (forall id e, (List.length st < id)%nat ->
       sget (st ++ font_objs num tt_descr tt_file st f) id = Some e -> P id e) ->
     described num tt_descr tt_file P d (f_base f) (file_kind (f_kind f))) /\
    forall fs p k i, resolves fs p k f i -> List.length l = pred (key_size k).
Proof.
  assert (Hnew : forall ds i, sget (st ++ ds) (List.length st + S i) = nth_error ds i).
  { intros ds i. rewrite Nat.add_succ_r. cbn [sget]. rewrite nth_error_app2 by lia. f_equal. lia. }
  unfold font_objs. destruct (f_kind f) as [w|t] eqn:E.
  - exists []. eexists. split; [reflexivity|]. split.
    { intros P _. split; [reflexivity|]. split; [reflexivity|]. split; [reflexivity|]. split; reflexivity. }
    intros fs p k i (_ & _ & H). unfold key_size, is_standard, dmem. destruct (dget (fst k) standard_fonts); [reflexivity|].
    destruct H as (_ & _ & path & t & _ & _ & _ & E'). congruence.
  - exists (removelast (font_objs num tt_descr tt_file st f)). unfold font_objs. rewrite E. cbn [removelast].
    eexists. split; [reflexivity|]. split.
    { intros P HP. split; [reflexivity|]. split; [reflexivity|]. split; [reflexivity|]. cbn [file_kind]. split; [reflexivity|]. split; [reflexivity|].
      set (n := List.length st) in *.
      exists (n + 3)%nat. eexists. exists (n + 2)%nat. eexists. exists (n + 1)%nat. eexists. exists (n + 4)%nat. eexists. eexists.
      split; [reflexivity|]. split; [apply HP; [lia|etransitivity; [exact (Hnew _ 2%nat)|reflexivity]]|].
      do 7 (split; [reflexivity|]).
      split; [reflexivity|]. split; [apply HP; [lia|etransitivity; [exact (Hnew _ 1%nat)|reflexivity]]|].
      split; [intros k Hk; now rewrite dget_dset_other|]. split; [apply dget_dset_same|].
      split; [apply HP; [lia|etransitivity; [exact (Hnew _ 0%nat)|reflexivity]]|].
      split; [unfold keys; cbn [map fst]; repeat constructor; cbn [In]; intros F; repeat destruct F as [F|F]; try discriminate F; exact F|]. do 4 (split; [reflexivity|]).
      split; [reflexivity|]. split; [apply HP; [lia|etransitivity; [exact (Hnew _ 3%nat)|reflexivity]]|].
      split; [unfold keys; cbn [map fst]; repeat constructor; cbn [In]; intros F; repeat destruct F as [F|F]; try discriminate F; exact F|]. do 3 (split; [reflexivity|]).
      apply cmap_text_ok. }
    intros fs p k i (_ & _ & H). unfold key_size, is_standard, dmem. destruct (dget (fst k) standard_fonts); [|reflexivity].
    destruct H as (_ & _ & _ & w & _ & E'). congruence.
Qed.
Lemma key_size_pos k : (1 <= key_size k)%nat.
Proof. unfold key_size. destruct (is_standard _); lia. Qed.

Lemma total_app a b : total (a ++ b) = (total a + total b)%nat.
Proof. induction a; cbn; [reflexivity|]. unfold total in *. cbn. lia. Qed.

Lemma add_or_get_font_inv h s k v s' : inv h s -> (fok -> good_key k) ->
  add_or_get_font load_ttf num tt_descr tt_file k s = Ok (v, s') ->
  inv h s' /\ mono s s' /\ kget k (d_used s') = Some v /\ d_pages s' = d_pages s /\ d_cur s' = d_cur s.
Proof.
  intros I G. unfold add_or_get_font. destruct (kget k (d_used s)) as [v0|] eqn:Eu.
  { intros [= <- <-]. split; [exact I|]. split; [apply mono_refl|auto]. }
  destruct (get_font load_ttf k (d_fs s) (d_proc s)) as [[[f fs] p]|] eqn:Eg; [|discriminate].
  cbn [bind]. intros [= <- <-].
  assert (HF : fok -> fonts_inv fs p /\ (exists i, resolves fs p k f i) /\
                 (forall k0 f0 i0, resolves (d_fs s) (d_proc s) k0 f0 i0 -> resolves fs p k0 f0 i0)).
  { intros F. exact (get_font_inv _ _ _ _ _ _ _ _ (i_fonts _ _ _ _ _ _ _ _ _ I F) (G F) Eg). }
  set (ds := font_objs num tt_descr tt_file (d_st s) f).
  destruct (font_objs_last (d_st s) f) as (l & d & El & T1 & Ell). fold ds in El, T1.
  set (id := List.length (d_st s ++ ds)).
  set (s' := with_used (with_st (with_fonts s fs p) (d_st s ++ ds)) (kset k (f_ref f, id) (d_used s))).
  assert (Hid : fok -> id = (List.length (d_st s) + key_size k)%nat).
  { intros F. destruct (HF F) as (_ & (j & R) & _).
    unfold id. rewrite app_length, El, app_length, (Ell _ _ _ _ R). cbn [List.length]. pose proof (key_size_pos k). lia. }
  assert (Hlt : (List.length (d_st s) < id)%nat).
  { unfold id. rewrite app_length, El, app_length. cbn [List.length]. lia. }
  destruct (grow_base s s' ds (i_base _ _ _ _ _ _ _ _ _ I) eq_refl eq_refl) as (B & SP & ST).
  pose proof (same_views _ _ SP) as V.
  assert (Hsame : kset k (f_ref f, id) (d_used s) = d_used s ++ [(k, (f_ref f, id))]).
  { apply kset_absent. now apply kget_none. }
  assert (Hst : static s' id d).
  { eapply (static_new s s' ds); try reflexivity; [apply I| |].
    - cbn [s' with_used with_st d_st]. unfold id. rewrite El, app_assoc.
      assert (E : List.length ((d_st s ++ l) ++ [d]) = S (List.length (d_st s ++ l))) by (rewrite !app_length; cbn; lia).
      rewrite E. apply sadd_new.
    - exact Hlt. }
  assert (M : mono s s').
  { constructor; try (intros *; exact (fun H => H)); try (intros F k0 f0 i0 H0; exact H0).
    - exact ST.
    - intros k0 v0 H. cbn [s' with_used d_used]. rewrite kget_kset_other; [exact H|]. intros ->. congruence.
    - intros F i r v. now rewrite (proj1 (V i)).
    - intros i r v. now rewrite (proj1 (proj2 (V i))).
    - intros i pg H. exists pg. auto.
    - intros F. apply (HF F). }
  split; [|split; [exact M|split; [|split; reflexivity]]].
  2:{ cbn [s' with_used d_used]. apply kget_kset_same. }
  apply (inv_keep h s); try exact M; try exact B; try exact SP; try reflexivity; eauto.
  - intros F. apply (HF F).
  - intros k0 r0 id0. cbn [s' with_used d_used]. destruct (fkey_eqb k0 k) eqn:E.
    + apply fkey_eqb_eq in E. subst k0. rewrite kget_kset_same. intros [= <- <-]. right. eauto.
    + rewrite kget_kset_other; [auto|]. intros ->. now rewrite fkey_eqb_refl in E.
  - intros F k0 r0 id0. cbn [s' with_used d_used]. destruct (fkey_eqb k0 k) eqn:E.
    + apply fkey_eqb_eq in E. subst k0. rewrite kget_kset_same. intros [= <- <-]. right.
      destruct (HF F) as (_ & (j & R) & _). exists f, j, d. split; [exact R|]. split; [reflexivity|]. split; [exact Hst|].
      apply T1. intros id0 e Hl He. eapply (static_new s s' ds); try reflexivity; [apply I|exact He|exact Hl].
    + rewrite kget_kset_other; [auto|]. intros ->. now rewrite fkey_eqb_refl in E.
  - assert (Hold : forall k0 r0, kget k0 (d_used s) = Some (r0, id) -> False).
    { intros k0 r0 H. destruct (i_used_static _ _ _ _ _ _ _ _ _ I _ _ _ H) as (d0 & H1 & _).
      apply sget_some_lt in H1. lia. }
    intros k1 k2 r1 r2 id0. cbn [s' with_used d_used].
    destruct (fkey_eqb k1 k) eqn:E1, (fkey_eqb k2 k) eqn:E2; try apply fkey_eqb_eq in E1; try apply fkey_eqb_eq in E2.
    + congruence.
    + subst k1. rewrite kget_kset_same, kget_kset_other by (intros ->; now rewrite fkey_eqb_refl in E2).
      intros [= <- <-] H. destruct (Hold _ _ H).
    + subst k2. rewrite kget_kset_same, kget_kset_other by (intros ->; now rewrite fkey_eqb_refl in E1).
      intros H [= <- <-]. destruct (Hold _ _ H).
    + rewrite !kget_kset_other by (intros ->; rewrite ?fkey_eqb_refl in *; discriminate).
      apply (i_used_inj _ _ _ _ _ _ _ _ _ I).
  - cbn [s' with_used d_used d_uris with_st with_fonts]. rewrite Hsame, map_app. split; [|apply (i_keys _ _ _ _ _ _ _ _ _ I)].
    apply nodup_snoc; [apply (i_keys _ _ _ _ _ _ _ _ _ I)|now apply kget_none].
  - intros F. cbn [s' with_used d_used d_uris with_st with_fonts d_st]. fold id. rewrite Hsame, map_app, total_app, (Hid F).
    cbn [map fst total fold_right]. lia.
Qed.

(** [r] names one font only. *)
Lemma ref_key h s k k' r id id' : inv h s -> fok -> kget k (d_used s) = Some (r, id) -> kget k' (d_used s) = Some (r, id') ->
  k = k' /\ id = id'.
Proof.
  intros I F H1 H2. destruct (i_used _ _ _ _ _ _ _ _ _ I F _ _ _ H1) as (f & j & _ & R & E & _).
  destruct (i_used _ _ _ _ _ _ _ _ _ I F _ _ _ H2) as (f' & j' & _ & R' & E' & _).
  assert (j = j').
  { destruct R as [R _], R' as [R' _]. rewrite E in R. rewrite E', R in R'. unfold font_ref in R'.
    now apply app_inv_head, dec_inj in R'. }
  subst j'. pose proof (fi_inj _ _ _ _ (i_fonts _ _ _ _ _ _ _ _ _ I F) _ _ _ _ _ R R'). subst k'. split; congruence.
Qed.

Ltac hist := intros; rewrite ?on_snoc, ?shows_app, ?links_app, ?outlines_snoc, ?page_sizes_snoc, ?first_image_snoc, ?last_label_snoc;
  repeat match goal with |- context [if (?a =? ?b)%nat then _ else _] => destruct (a =? b)%nat end;
  cbn [shows links filter flat_map app]; rewrite ?app_nil_r.

(** A font is listed in the resources of a page. *)
Lemma set_font_inv h s i pg sty k r id : inv h s -> nth_error (d_pages s) i = Some pg ->
  kget k (d_used s) = Some (r, id) -> (fok -> k = style_key sty) ->
  let s' := with_st s (supd (d_st s) (pp_id pg)
        (fun d => res_set (lit "Font") r (oref id) (res_default (lit "Font") d))) in
  inv (h ++ [(i, EUse sty)]) s' /\ mono s s'.
Proof.
  intros I Hi Hk Hsty. cbv zeta. set (f := fun d => _). set (s' := with_st s _).
  destruct (page_change s i pg f (i_base _ _ _ _ _ _ _ _ _ I) Hi) as (B & (d & Hd & Hl & P1 & P2) & Po & ST).
  { intros d Hd. unfold f. apply res_set_like. now apply res_default_like. }
  fold s' in B, P2, Po, ST.
  destruct (res_default_like (lit "Font") d Hl) as (L1 & L2 & L3 & _).
  destruct (res_set_like (lit "Font") r (oref id) _ L1) as (_ & S2 & S3 & S4).
  assert (Vi : fonts_of s' i = dset r (oref id) (fonts_of s i) /\ xobjs_of s' i = xobjs_of s i /\
               annots_of s' i = annots_of s i /\ parts_of s' i = parts_of s i).
  { unfold fonts_of, xobjs_of, annots_of, parts_of, page_get. cbn [s' with_st d_pages]. rewrite Hi. fold s'.
    rewrite P1, P2. unfold f. rewrite S2, S3, S4, L3, !L2 by discriminate. auto. }
  assert (Vj : forall j, j <> i -> fonts_of s' j = fonts_of s j /\ xobjs_of s' j = xobjs_of s j /\
               annots_of s' j = annots_of s j /\ parts_of s' j = parts_of s j).
  { intros j Hj. unfold fonts_of, xobjs_of, annots_of, parts_of, page_get. cbn [s' with_st d_pages]. fold s'.
    destruct (nth_error (d_pages s) j) as [pg'|] eqn:E; [|auto]. rewrite (Po _ _ Hj E). auto. }
  assert (V : forall j, xobjs_of s' j = xobjs_of s j /\ annots_of s' j = annots_of s j /\ parts_of s' j = parts_of s j).
  { intros j. destruct (Nat.eq_dec j i) as [->|Hj]; [apply Vi|apply Vj; exact Hj]. }
  assert (M : mono s s').
  { constructor; try (intros *; exact (fun H => H)); try (intros F k0 f0 i0 H0; exact H0).
    - exact ST.
    - intros F j r0 v0 H. destruct (Nat.eq_dec j i) as [->|Hj]; [|now rewrite (proj1 (Vj _ Hj))].
      rewrite (proj1 Vi). destruct (str_eq_dec r0 r) as [->|Hr].
      + rewrite dget_dset_same. destruct (i_fontres _ _ _ _ _ _ _ _ _ I _ _ _ H) as (k' & id' & H1 & ->).
        destruct (ref_key _ _ _ _ _ _ _ I F Hk H1) as [_ ->]. reflexivity.
      + rewrite dget_dset_other by exact Hr. exact H.
    - intros j r0 v0. now rewrite (proj1 (V j)).
    - intros j pg' H. exists pg'. auto. }
  split; [|exact M]. constructor; try exact B; try (apply I).
  - intros. eapply used_static_mono; eauto.
  - intros F. intros. eapply used_mono; eauto.
  - hist. destruct (i_img _ _ _ _ _ _ _ _ _ I _ _ H) as (o & H1 & H2). exists o. rewrite H2. split; [eapply mo_static; eauto|reflexivity].
  - hist. now rewrite (i_img_none _ _ _ _ _ _ _ _ _ I _ H).
  - intros u id0 H. eapply mo_static; [exact M|]. eapply i_uri; eauto.
  - intros j pg' H. rewrite (proj1 (V j)). eapply i_x; [exact I|exact H].
  - intros j. destruct (V j) as (_ & _ & V4). rewrite V4.
    replace (shows (on j (h ++ [(i, EUse sty)]))) with (shows (on j h)) by (hist; reflexivity).
    eapply Forall2_weaken; [|apply (i_parts _ _ _ _ _ _ _ _ _ I j)]. intros p e He. eapply part_ok_mono; [exact M|exact He].
  - intros F j sty' H. apply in_app_or in H as [H|[H|[]]]; [eapply use_mono; eauto|].
    injection H as <- <-. exists r, id. rewrite <- (Hsty F). split; [exact Hk|]. rewrite (proj1 Vi). apply dget_dset_same.
  - intros j r0 v0 H. destruct (Nat.eq_dec j i) as [->|Hj].
    + rewrite (proj1 Vi) in H. destruct (str_eq_dec r0 r) as [->|Hr].
      * rewrite dget_dset_same in H. injection H as <-. eauto.
      * rewrite dget_dset_other in H by exact Hr. exact (i_fontres _ _ _ _ _ _ _ _ _ I _ _ _ H).
    + rewrite (proj1 (Vj _ Hj)) in H. exact (i_fontres _ _ _ _ _ _ _ _ _ I _ _ _ H).
  - intros j. destruct (V j) as (_ & V3 & _). rewrite V3.
    replace (links (on j (h ++ [(i, EUse sty)]))) with (links (on j h)) by (hist; reflexivity).
    eapply Forall2_weaken; [|apply (i_links _ _ _ _ _ _ _ _ _ I j)]. intros a l Ha. eapply annot_ok_mono; [exact M|exact Ha].
  - hist. eapply dest_mono; eauto.
  - hist. apply I.
  - hist. apply I.
  - cbn [s' with_st d_st]. rewrite supd_length. apply I.
Qed.

(** A page's record and dictionary are changed. *)
Lemma map_upd_nth {A B} (F : A -> B) i g l : (forall x, F (g x) = F x) -> map F (upd_nth i g l) = map F l.
Proof. intros H. revert i. induction l as [|x l IH]; intros [|i]; cbn; rewrite ?H, ?IH; auto. Qed.

Lemma page_update s i pg f g cur : base_inv s -> nth_error (d_pages s) i = Some pg ->
  (forall d, page_like d -> page_like (f d)) ->
  (forall p, pp_id (g p) = pp_id p /\ pp_w (g p) = pp_w p /\ pp_h (g p) = pp_h p) ->
  let s' := with_pages (with_st s (supd (d_st s) (pp_id pg) f)) (upd_nth i g (d_pages s)) cur in
  base_inv s' /\ (forall id d, static s id d -> static s' id d) /\
  (exists d, page_like d /\ fonts_of s i = res_of (lit "Font") d /\ xobjs_of s i = res_of (lit "XObject") d /\
     annots_of s i = annots d /\ parts_of s i = pp_parts pg /\
     fonts_of s' i = res_of (lit "Font") (f d) /\ xobjs_of s' i = res_of (lit "XObject") (f d) /\
     annots_of s' i = annots (f d) /\ parts_of s' i = pp_parts (g pg)) /\
  (forall j, j <> i -> fonts_of s' j = fonts_of s j /\ xobjs_of s' j = xobjs_of s j /\
               annots_of s' j = annots_of s j /\ parts_of s' j = parts_of s j) /\
  nth_error (d_pages s') i = Some (g pg) /\
  (forall j, j <> i -> nth_error (d_pages s') j = nth_error (d_pages s) j) /\
  map (fun pg => (pp_w pg, pp_h pg)) (d_pages s') = map (fun pg => (pp_w pg, pp_h pg)) (d_pages s) /\
  List.length (d_pages s') = List.length (d_pages s).
Proof.
  intros B Hi Hf Hg. cbv zeta. set (s1 := with_st s (supd (d_st s) (pp_id pg) f)).
  destruct (page_change s i pg f B Hi Hf) as (B1 & (d & Hd & Hl & P1 & P2) & Po & ST). fold s1 in B1, P2, Po, ST.
  assert (Hids : map pp_id (upd_nth i g (d_pages s)) = map pp_id (d_pages s)).
  { apply map_upd_nth. intros x. apply Hg. }
  assert (Hsame : nth_error (upd_nth i g (d_pages s)) i = Some (g pg)) by now apply upd_nth_same.
  assert (Hoth : forall j, j <> i -> nth_error (upd_nth i g (d_pages s)) j = nth_error (d_pages s) j).
  { intros j Hj. apply upd_nth_other. congruence. }
  split; [|split; [|split; [|split; [|split; [exact Hsame|split; [exact Hoth|split]]]]]].
  - destruct B1 as [C1 C2 C3]. constructor; cbn [with_pages d_st d_pages]; [exact C1|now rewrite Hids|].
    intros pg' Hin. apply In_nth_error in Hin as [j Hj]. destruct (Nat.eq_dec j i) as [->|Hn].
    + rewrite Hsame in Hj. injection Hj as <-. rewrite (proj1 (Hg pg)). apply C3. eapply nth_error_In, Hi.
    + rewrite Hoth in Hj by exact Hn. apply C3. eapply nth_error_In, Hj.
  - intros id d' H. destruct (ST _ _ H) as (H1 & H2 & H3). split; [exact H1|]. split; [exact H2|].
    cbn [with_pages d_pages]. rewrite Hids. exact H3.
  - exists d. unfold fonts_of, xobjs_of, annots_of, parts_of, page_get. cbn [with_pages d_pages].
    rewrite Hi, Hsame, P1. unfold pdict at 1 2 3. rewrite (proj1 (Hg pg)). cbn [with_pages d_st s1 with_st].
    rewrite (supd_same _ _ _ _ Hd). auto 10.
  - intros j Hj. unfold fonts_of, xobjs_of, annots_of, parts_of, page_get. cbn [with_pages d_pages].
    rewrite (Hoth _ Hj). destruct (nth_error (d_pages s) j) as [pg'|] eqn:E; [|auto].
    rewrite <- (Po _ _ Hj E). auto.
  - cbn [with_pages d_pages]. apply map_upd_nth. intros x. destruct (Hg x) as (_ & -> & ->). reflexivity.
  - cbn [with_pages d_pages]. apply upd_nth_length.
Qed.

Definition page_event (e : event) : bool :=
  match e with EText _ _ | EDraw _ _ _ _ _ | ELink _ _ _ _ => true | _ => false end.

Lemma inv_page h s i pg f g e : inv h s -> nth_error (d_pages s) i = Some pg ->
  (forall d, page_like d -> page_like (f d)) ->
  (forall p, pp_id (g p) = pp_id p /\ pp_w (g p) = pp_w p /\ pp_h (g p) = pp_h p) ->
  page_event e = true ->
  let s' := with_pages (with_st s (supd (d_st s) (pp_id pg) f)) (upd_nth i g (d_pages s)) (d_cur s) in
  fonts_of s' i = fonts_of s i ->
  (forall r v, dget r (xobjs_of s i) = Some v -> dget r (xobjs_of s' i) = Some v) ->
  (xobjs_of s' i = map (fun p => (snd p, oref (fst p))) (pp_xobjs (g pg)) /\
   map snd (pp_xobjs (g pg)) = image_names (List.length (pp_xobjs (g pg))) /\ NoDup (map fst (pp_xobjs (g pg)))) ->
  ((forall p ev, part_ok load_ttf reg fok s i p ev -> part_ok load_ttf reg fok s' i p ev) ->
    Forall2 (part_ok load_ttf reg fok s' i) (parts_of s' i) (shows (on i h ++ [e]))) ->
  Forall2 (annot_ok num round3 s') (annots_of s' i) (links (on i h ++ [e])) ->
  inv (h ++ [(i, e)]) s' /\ mono s s'.
Proof.
  intros I Hi Hf Hg He. cbv zeta. set (s' := with_pages _ _ _).
  destruct (page_update s i pg f g (d_cur s) (i_base _ _ _ _ _ _ _ _ _ I) Hi Hf Hg)
    as (B & ST & _ & Vj & Hsame & Hoth & Hsz & Hlen). fold s' in B, ST, Vj, Hsame, Hoth, Hsz, Hlen.
  intros C1 C2 C3 C4 C5.
  assert (M : mono s s').
  { constructor; try (intros *; exact (fun H => H)); try (intros F k0 f0 i0 H0; exact H0).
    - exact ST.
    - intros F j r0 v0. destruct (Nat.eq_dec j i) as [->|Hj]; [now rewrite C1|now rewrite (proj1 (Vj _ Hj))].
    - intros j r0 v0. destruct (Nat.eq_dec j i) as [->|Hj]; [apply C2|now rewrite (proj1 (proj2 (Vj _ Hj)))].
    - intros j pg' H. destruct (Nat.eq_dec j i) as [->|Hj].
      + exists (g pg). rewrite H in Hi. injection Hi as <-. split; [exact Hsame|]. split; apply Hg.
      + exists pg'. rewrite Hoth by exact Hj. auto. }
  split; [|exact M].
  assert (Ho : forall j, j <> i -> on j (h ++ [(i, e)]) = on j h).
  { intros j Hj. rewrite on_snoc. replace (i =? j)%nat with false by lia. apply app_nil_r. }
  assert (Hii : on i (h ++ [(i, e)]) = on i h ++ [e]).
  { rewrite on_snoc. now rewrite Nat.eqb_refl. }
  constructor; try exact B; try (apply I).
  - intros. eapply used_static_mono; eauto.
  - intros F. intros. eapply used_mono; eauto.
  - hist. destruct (i_img _ _ _ _ _ _ _ _ _ I _ _ H) as (o & H1 & H2). exists o. rewrite H2. split; [eapply mo_static; eauto|reflexivity].
  - hist. rewrite (i_img_none _ _ _ _ _ _ _ _ _ I _ H). destruct e; try discriminate; reflexivity.
  - intros u id0 H. eapply mo_static; [exact M|]. eapply i_uri; eauto.
  - intros j pg' H. destruct (Nat.eq_dec j i) as [->|Hj].
    + rewrite Hsame in H. injection H as <-. exact C3.
    + rewrite (proj1 (proj2 (Vj _ Hj))). eapply i_x; [exact I|]. now rewrite <- Hoth.
  - intros j. destruct (Nat.eq_dec j i) as [->|Hj].
    + rewrite Hii. apply C4. intros p ev. apply part_ok_mono. exact M.
    + rewrite (Ho _ Hj). destruct (Vj _ Hj) as (_ & _ & _ & V4). rewrite V4.
      eapply Forall2_weaken; [|apply (i_parts _ _ _ _ _ _ _ _ _ I j)]. intros p ev. apply part_ok_mono. exact M.
  - intros F j sty' H. apply in_app_or in H as [H|[H|[]]]; [eapply use_mono; eauto|].
    injection H as <- ->. discriminate.
  - intros j r0 v0 H. assert (E : fonts_of s' j = fonts_of s j).
    { destruct (Nat.eq_dec j i) as [->|Hj]; [exact C1|apply (Vj _ Hj)]. }
    rewrite E in H. exact (i_fontres _ _ _ _ _ _ _ _ _ I _ _ _ H).
  - intros j. destruct (Nat.eq_dec j i) as [->|Hj].
    + rewrite Hii. exact C5.
    + rewrite (Ho _ Hj). destruct (Vj _ Hj) as (_ & _ & V3 & _). rewrite V3.
      eapply Forall2_weaken; [|apply (i_links _ _ _ _ _ _ _ _ _ I j)]. intros a l Ha. eapply annot_ok_mono; [exact M|exact Ha].
  - hist. destruct e; try discriminate; eapply dest_mono; eauto.
  - rewrite outlines_snoc. destruct e; try discriminate; rewrite app_nil_r; apply I.
  - rewrite page_sizes_snoc, Hsz. destruct e; try discriminate; rewrite app_nil_r; apply I.
  - rewrite Hlen. cbn [s' with_pages with_st d_st d_images d_uris d_used]. rewrite supd_length. apply I.
Qed.

Lemma cur_page_nth s pg : cur_page s = Ok pg -> exists i, d_cur s = Some i /\ nth_error (d_pages s) i = Some pg.
Proof.
  unfold cur_page. destruct (d_cur s) as [i|]; [|discriminate]. destruct (nth_error _ i) eqn:E; [|discriminate].
  intros [= <-]. eauto.
Qed.
Lemma supd_id st id : supd st id (fun d => d) = st.
Proof.
  destruct id as [|i]; [reflexivity|]. cbn. revert i. induction st as [|x st IH]; intros [|i]; cbn; congruence.
Qed.
Lemma upd_nth_id {A} i (l : list A) : upd_nth i (fun x => x) l = l.
Proof. revert i. induction l as [|x l IH]; intros [|i]; cbn; congruence. Qed.
Lemma pdf_eta s st : with_pages (with_st s st) (d_pages s) (d_cur s) = with_st s st.
Proof. reflexivity. Qed.
Lemma with_st_id s : with_st s (d_st s) = s.
Proof. destruct s; reflexivity. Qed.

(** One annotation. *)
Lemma page_annot_inv h s extra r s' k x y rc :
  inv h s -> page_annot extra r s = Ok s' ->
  annot_ok num round3 s (ODict (dset (lit "Rect") r (fold_left (fun a kv => dset (fst kv) (snd kv) a) extra
                [(lit "Type", name "/Annot"); (lit "Subtype", name "/Link")]))) (k, (x, y, rc)) ->
  exists i, d_cur s = Some i /\ inv (h ++ [(i, ELink k x y rc)]) s' /\ mono s s' /\ d_cur s' = d_cur s.
Proof.
  intros I. unfold page_annot. destruct (cur_page s) as [pg|] eqn:Ec; [|discriminate]. cbn [bind]. intros [= <-] Ha.
  destruct (cur_page_nth _ _ Ec) as (i & Hc & Hi). exists i. split; [exact Hc|].
  set (f := add_annot extra r).
  pose proof (inv_page h s i pg f (fun p => p) (ELink k x y rc) I Hi) as L. cbv zeta in L. rewrite upd_nth_id, pdf_eta in L.
  set (s' := with_st s (supd (d_st s) (pp_id pg) f)) in *.
  destruct (page_update s i pg f (fun p => p) (d_cur s) (i_base _ _ _ _ _ _ _ _ _ I) Hi) as (_ & _ & (d & Hl & V1 & V2 & V3 & V4 & W1 & W2 & W3 & W4) & _).
  { intros d Hd. now apply add_annot_like. } { auto. }
  cbv zeta in W1, W2, W3, W4. rewrite upd_nth_id, pdf_eta in W1, W2, W3, W4. fold s' in W1, W2, W3, W4.
  destruct (add_annot_like extra r d Hl) as (_ & A2 & A3). fold f in A2, A3.
  rewrite A2, <- V1 in W1. rewrite A2, <- V2 in W2. rewrite A3, <- V3 in W3. rewrite <- V4 in W4.
  destruct L as [L1 L2]; try (split; [exact L1|split; [exact L2|reflexivity]]).
  - intros d' Hd'. now apply add_annot_like.
  - auto.
  - reflexivity.
  - exact W1.
  - now rewrite W2.
  - rewrite W2. eapply i_x; eauto.
  - intros Hm. rewrite W4, shows_app. cbn [shows filter]. rewrite app_nil_r.
    eapply Forall2_weaken; [|apply (i_parts _ _ _ _ _ _ _ _ _ I i)]. exact Hm.
  - rewrite W3, links_app. cbn [links flat_map app]. apply Forall2_app; [apply I|]. constructor; [exact Ha|constructor].
Qed.

(** One text stream. *)
Lemma add_part_inv h s refs st styles s' : inv h s -> add_part (PText refs st) s = Ok s' -> List.length refs = List.length styles ->
  (fok -> Forall2 (fun r sty => exists f j, resolves (d_fs s) (d_proc s) (style_key sty) f j /\ f_ref f = r) refs styles) ->
  exists i, d_cur s = Some i /\ inv (h ++ [(i, EText styles st)]) s' /\ mono s s' /\ d_cur s' = d_cur s.
Proof.
  intros I. unfold add_part. destruct (d_cur s) as [i|] eqn:Hc; [|discriminate].
  destruct (nth_error (d_pages s) i) as [pg|] eqn:Hi; [|discriminate]. intros [= <-] Hlen Hr.
  exists i. split; [reflexivity|]. set (g := fun pg => _).
  pose proof (inv_page h s i pg (fun d => d) g (EText styles st) I Hi) as L. cbv zeta in L.
  rewrite supd_id, with_st_id, Hc in L. set (s' := with_pages s _ _) in *.
  destruct (page_update s i pg (fun d => d) g (Some i) (i_base _ _ _ _ _ _ _ _ _ I) Hi)
    as (_ & _ & (d & Hl & V1 & V2 & V3 & V4 & W1 & W2 & W3 & W4) & _).
  { auto. } { intros p. cbn. auto. }
  cbv zeta in W1, W2, W3, W4. rewrite supd_id, with_st_id in W1, W2, W3, W4. fold s' in W1, W2, W3, W4.
  rewrite <- V1 in W1. rewrite <- V2 in W2. rewrite <- V3 in W3. cbn [g pp_parts] in W4. rewrite <- V4 in W4.
  destruct L as [L1 L2]; try (split; [exact L1|split; [exact L2|reflexivity]]).
  - auto.
  - intros p. cbn. auto.
  - reflexivity.
  - exact W1.
  - now rewrite W2.
  - rewrite W2. cbn [g pp_xobjs]. eapply i_x; eauto.
  - intros Hm. rewrite W4, shows_app. cbn [shows filter]. apply Forall2_app.
    + eapply Forall2_weaken; [|apply (i_parts _ _ _ _ _ _ _ _ _ I i)]. exact Hm.
    + constructor; [|constructor]. split; [reflexivity|]. split; [exact Hlen|exact Hr].
  - rewrite W3, links_app. cbn [links flat_map app]. rewrite app_nil_r. apply I.
Qed.
End Steps.
