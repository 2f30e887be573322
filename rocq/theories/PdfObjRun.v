(** Histories of operations keep the invariant, and its consequences. *)
From Verif Require Import Py PyStr PdfSyntax Parser StreamProofs Store PageTree NameTree OutlineTree Fonts PdfObj PdfObjSpec PdfObjFonts PdfObjProofs PdfObjSteps.
From Coq Require Import String QArith FinFun.
Open Scope N_scope.
Open Scope list_scope.

Lemma Ok_inj {A} (a b : A) : Ok a = Ok b -> a = b.
Proof. congruence. Qed.
Lemma dset_len {V} k (v : V) d : ~ In k (keys d) -> List.length (dset k v d) = S (List.length d).
Proof. intros H. rewrite dset_absent by exact H. rewrite app_length. cbn. lia. Qed.
Lemma xget_in id l nm : xget id l = Some nm -> In (id, nm) l.
Proof.
  induction l as [|[k v] l IH]; cbn [xget]; [discriminate|]. destruct (Nat.eqb_spec id k) as [->|]; [intros [= ->]; now left|].
  intros H. right. auto.
Qed.
Lemma xget_none id l : xget id l = None -> ~ In id (map fst l).
Proof.
  induction l as [|[k v] l IH]; cbn [xget map fst In]; [tauto|]. destruct (Nat.eqb_spec id k); [discriminate|].
  intros H [->|H']; [congruence|]. now apply IH.
Qed.
Lemma image_names_nodup n : NoDup (image_names n).
Proof.
  unfold image_names. apply Injective_map_NoDup; [|apply seq_NoDup].
  intros i j H. apply app_inv_head, dec_inj in H. lia.
Qed.
Lemma image_names_S n : image_names (S n) = image_names n ++ [lit "Im" ++ dec (N.of_nat n)].
Proof. unfold image_names. rewrite seq_S, map_app. reflexivity. Qed.
Lemma dget_nodup_in {V} k (v : V) d : NoDup (keys d) -> In (k, v) d -> dget k d = Some v.
Proof.
  induction d as [|[k' v'] d IH]; cbn [keys map fst dget In]; [tauto|]. intros Hn [E|E].
  - injection E as -> ->. now rewrite str_eqb_refl.
  - inversion Hn; subst. destruct (str_eqb k k') eqn:Ek; [|auto].
    apply str_eqb_eq in Ek. subst k'. exfalso. apply H1. apply in_map_iff. exists (k, v). auto.
Qed.

Section Run.
Variable load_ttf : str -> res ttf.
Variable num : Q -> obj.
Variable round3 : Q -> Q.
Variable tt_descr : ttf -> dict.
Variable tt_file : ttf -> bytes.
Variable reg : list (fkey * str).
Variable fok : Prop.
Notation resolves := (resolves load_ttf reg).
Notation fonts_inv := (fonts_inv load_ttf reg).
Notation mono := (mono load_ttf reg fok).
Notation inv := (inv load_ttf num round3 tt_descr tt_file reg fok).

Lemma get_uri_inv h s u id s' : inv h s -> get_uri u s = (id, s') ->
  inv h s' /\ mono s s' /\ dget u (d_uris s') = Some id /\ d_pages s' = d_pages s /\ d_cur s' = d_cur s.
Proof.
  intros I. unfold get_uri. destruct (dget u (d_uris s)) as [id0|] eqn:Eu.
  { intros [= <- <-]. split; [exact I|]. split; [apply mono_refl|auto]. }
  intros [= <- <-]. fold (action u). set (id := S _). set (s' := with_uris _ _).
  destruct (grow_base s s' [action u] (i_base _ _ _ _ _ _ _ _ _ I) eq_refl eq_refl) as (B & SP & ST).
  pose proof (same_views _ _ SP) as V. pose proof (proj1 (dget_none _ _) Eu) as Hnk.
  assert (Hst : static s' id (action u)).
  { eapply (static_new s s' [action u]); try reflexivity; [apply I|apply sadd_new|]. unfold id. lia. }
  assert (M : mono s s').
  { constructor; try (intros *; exact (fun H => H)); try (intros F k0 f0 i0 H0; exact H0).
    - exact ST.
    - intros n id0 H. cbn [s' with_uris d_uris]. rewrite dget_dset_other; [exact H|]. intros ->. congruence.
    - intros F i r v. now rewrite (proj1 (V i)).
    - intros i r v. now rewrite (proj1 (proj2 (V i))).
    - intros i pg H. exists pg. auto. }
  split; [|split; [exact M|split; [apply dget_dset_same|auto]]].
  apply (inv_keep load_ttf num round3 tt_descr tt_file reg fok h s); try exact M; try exact B; try exact SP; try reflexivity; try (apply I); auto.
  - intros u0 id0. cbn [s' with_uris d_uris]. destruct (str_eq_dec u0 u) as [->|Hn].
    + rewrite dget_dset_same. intros [= <-]. right. exact Hst.
    + rewrite dget_dset_other by exact Hn. auto.
  - split; [apply (i_keys _ _ _ _ _ _ _ _ _ I)|]. cbn [s' with_uris d_uris]. apply nodup_dset. apply (i_keys _ _ _ _ _ _ _ _ _ I).
  - intros F. cbn [s' with_uris d_uris with_st d_st d_used]. rewrite (dset_len _ _ _ Hnk), app_length. cbn. lia.
Qed.

(** An event that changes neither pages nor objects. *)
Lemma inv_plain h s s' j e : inv h s -> mono s s' -> base_inv s' -> same_pages s s' -> d_st s' = d_st s ->
  d_fs s' = d_fs s -> d_proc s' = d_proc s -> d_used s' = d_used s -> d_uris s' = d_uris s -> d_images s' = d_images s ->
  match e with ELabel _ _ _ _ | EOutline _ _ _ => True | _ => False end ->
  (forall l, match last_label l (h ++ [(j, e)]) with
   | None => dget l (d_dests s') = None
   | Some (i, (x, y, r)) => exists pg, nth_error (d_pages s') i = Some pg /\
                          dget l (d_dests s') = Some (dest_obj num round3 pg x y r)
                      end) ->
  NoDup (keys (d_dests s')) ->
  fold_left (fun f o => match f with
                                 | Ok f => add_outline (fst o) (fst (snd o)) (snd (snd o)) f
                                 | Err e => Err e end) (outlines (h ++ [(j, e)])) (Ok []) = Ok (d_outl s') ->
  inv (h ++ [(j, e)]) s'.
Proof.
  intros I M B SP E1 E2 E3 E4 E5 E6 He HD ND HO. pose proof (same_views _ _ SP) as V.
  assert (Hs : forall i, shows (on i (h ++ [(j, e)])) = shows (on i h) /\ links (on i (h ++ [(j, e)])) = links (on i h)).
  { intros i. rewrite on_snoc, shows_app, links_app. destruct (j =? i)%nat; destruct e; try contradiction;
      cbn [shows links filter flat_map app]; rewrite !app_nil_r; auto. }
  constructor; rewrite ?E1, ?E2, ?E3, ?E4, ?E5, ?E6; try exact B; try (apply I); auto.
  - intros k r id H. eapply used_static_mono; eauto.
  - intros F k r id H. rewrite <- E2, <- E3. eapply used_mono; eauto.
  - intros n id H. rewrite first_image_snoc. destruct (i_img _ _ _ _ _ _ _ _ _ I _ _ H) as (o & H1 & H2). exists o. rewrite H2.
    split; [eapply mo_static; eauto|reflexivity].
  - intros n H. rewrite first_image_snoc, (i_img_none _ _ _ _ _ _ _ _ _ I _ H). destruct e; try contradiction; reflexivity.
  - intros u id0 H. eapply mo_static; [exact M|]. eapply i_uri; eauto.
  - intros i pg' H. rewrite (proj1 (proj2 (V i))). eapply i_x; [exact I|]. now rewrite <- (proj1 SP).
  - intros i. rewrite (proj1 (Hs i)). destruct (V i) as (_ & _ & _ & V4). rewrite V4.
    eapply Forall2_weaken; [|apply (i_parts _ _ _ _ _ _ _ _ _ I i)]. intros p ev. apply part_ok_mono. exact M.
  - intros F i sty' H. apply in_app_or in H as [H|[H|[]]]; [|injection H as <- ->; contradiction].
    rewrite <- E4. eapply use_mono; eauto.
  - intros i r0 v0 H. rewrite (proj1 (V i)) in H. exact (i_fontres _ _ _ _ _ _ _ _ _ I _ _ _ H).
  - intros i. rewrite (proj2 (Hs i)). destruct (V i) as (_ & _ & V3 & _). rewrite V3.
    eapply Forall2_weaken; [|apply (i_links _ _ _ _ _ _ _ _ _ I i)]. intros a l Ha. eapply annot_ok_mono; [exact M|exact Ha].
  - rewrite page_sizes_snoc, (proj1 SP). destruct e; try contradiction; rewrite app_nil_r; apply I.
  - rewrite (proj1 SP). apply I.
Qed.

Lemma each_rect_inv h s i k x y extra rs s' : inv h s -> d_cur s = Some i ->
  (forall s0 r, mono s s0 -> annot_ok num round3 s0
      (ODict (dset (lit "Rect") (rect_obj num round3 x y r) (fold_left (fun a kv => dset (fst kv) (snd kv) a) extra
                [(lit "Type", name "/Annot"); (lit "Subtype", name "/Link")]))) (k, (x, y, r))) ->
  each_rect (fun r => page_annot extra (rect_obj num round3 x y r)) rs s = Ok s' ->
  inv (h ++ map (pair i) (map (ELink k x y) rs)) s' /\ mono s s' /\ d_cur s' = d_cur s.
Proof.
  revert h s. induction rs as [|r rs IH]; intros h s I Hc Ha; cbn [each_rect map].
  - intros [= <-]. rewrite app_nil_r. split; [exact I|]. split; [apply mono_refl|reflexivity].
  - destruct (page_annot extra (rect_obj num round3 x y r) s) as [s1|] eqn:E; [|discriminate]. cbn [bind]. intros H.
    destruct (page_annot_inv load_ttf num round3 tt_descr tt_file reg fok h s _ _ _ k x y r I E (Ha _ r (mono_refl _ _ _ s))) as (i' & Hi' & I1 & M1 & C1).
    rewrite Hc in Hi'. injection Hi' as <-.
    destruct (IH _ s1 I1) as (I2 & M2 & C2); [congruence| |exact H|].
    + intros s0 r0 M. apply Ha. eapply mono_trans; eauto.
    + rewrite <- app_assoc in I2. split; [exact I2|]. split; [eapply mono_trans; eauto|congruence].
Qed.

Lemma text_id_inv h s i x y k rs s' : inv h s -> d_cur s = Some i ->
  text_id num round3 x y k rs s = Ok s' ->
  inv (h ++ map (pair i) (id_events x y k rs)) s' /\ mono s s' /\ d_cur s' = d_cur s.
Proof.
  intros I Hc. unfold text_id, id_events. destruct rs as [|d rs].
  { intros [= <-]. cbn [map]. rewrite app_nil_r. split; [exact I|]. split; [apply mono_refl|reflexivity]. }
  destruct k as [l|l|u|lv t l].
  - destruct (cur_page s) as [pg|] eqn:Ec; [|discriminate]. cbn [bind]. intros [= <-].
    destruct (cur_page_nth _ _ Ec) as (i' & Hc' & Hi). rewrite Hc in Hc'. injection Hc' as <-.
    set (s' := with_dests _ _).
    assert (M : mono s s') by (constructor; eauto).
    split; [|split; [exact M|reflexivity]]. cbn [map].
    apply (inv_plain h s s'); try reflexivity; try exact I; try exact M.
    + destruct (i_base _ _ _ _ _ _ _ _ _ I) as [B1 B2 B3]. constructor; [exact B1|exact B2|exact B3].
    + split; [reflexivity|auto].
    + intros l0. rewrite last_label_snoc. cbn [s' with_dests d_dests d_pages].
      destruct (str_eqb l0 l) eqn:E.
      * apply str_eqb_eq in E. subst l0. exists pg. split; [exact Hi|]. apply dget_dset_same.
      * apply str_eqb_neq in E. rewrite dget_dset_other by exact E. apply I.
    + cbn [s' with_dests d_dests]. apply nodup_dset. apply I.
    + rewrite outlines_snoc, app_nil_r. apply I.
  - intros H. eapply each_rect_inv; [exact I|exact Hc| |exact H]. intros s0 r M. reflexivity.
  - destruct (get_uri u s) as [id s1] eqn:Eu. intros H.
    destruct (get_uri_inv _ _ _ _ _ I Eu) as (I1 & M1 & U1 & _ & C1).
    destruct (each_rect_inv h s1 i (LUri u) x y [(lit "A", oref id); (lit "H", name "/N")] (d :: rs) s' I1) as (I2 & M2 & C2).
    + congruence.
    + intros s0 r M. cbn [annot_ok]. exists id. split; [eapply mo_uris; eauto|reflexivity].
    + exact H.
    + split; [exact I2|]. split; [eapply mono_trans; eauto|congruence].
  - destruct (add_outline lv t l (d_outl s)) as [o|] eqn:Eo; [|discriminate]. cbn [bind]. intros [= <-].
    set (s' := with_outl _ _). assert (M : mono s s') by (constructor; eauto).
    split; [|split; [exact M|reflexivity]]. cbn [map].
    apply (inv_plain h s s'); try reflexivity; try exact I; try exact M.
    + destruct (i_base _ _ _ _ _ _ _ _ _ I) as [B1 B2 B3]. constructor; [exact B1|exact B2|exact B3].
    + split; [reflexivity|auto].
    + intros l0. rewrite last_label_snoc. apply I.
    + apply I.
    + rewrite outlines_snoc, fold_left_app, (i_outl _ _ _ _ _ _ _ _ _ I). cbn [fold_left fst snd]. exact Eo.
Qed.

Lemma text_ids_inv ids : forall h s i x y s', inv h s -> d_cur s = Some i ->
  text_ids num round3 x y ids s = Ok s' ->
  inv (h ++ map (pair i) (flat_map (fun kr => id_events x y (fst kr) (snd kr)) ids)) s' /\ mono s s' /\ d_cur s' = d_cur s.
Proof.
  induction ids as [|[k rs] ids IH]; intros h s i x y s' I Hc; cbn [text_ids flat_map fst snd].
  - intros [= <-]. cbn [map]. rewrite app_nil_r. split; [exact I|]. split; [apply mono_refl|reflexivity].
  - destruct (text_id num round3 x y k rs s) as [s1|] eqn:E; [|discriminate]. cbn [bind]. intros H.
    destruct (text_id_inv _ _ _ _ _ _ _ _ I Hc E) as (I1 & M1 & C1).
    destruct (IH _ s1 i x y s' I1) as (I2 & M2 & C2); [congruence|exact H|].
    rewrite map_app, app_assoc. split; [exact I2|]. split; [eapply mono_trans; eauto|congruence].
Qed.

Lemma layout_inv styles : forall h s l s', inv h s -> layout load_ttf styles s = Ok (l, s') ->
  inv h s' /\ mono s s' /\ d_cur s' = d_cur s /\ List.length l = List.length styles /\ (fok -> map fst l = map style_key styles) /\
  (fok -> forall sty, In sty styles -> good_key (style_key sty)) /\
  (fok -> Forall2 (fun r sty => exists f j, resolves (d_fs s') (d_proc s') (style_key sty) f j /\ f_ref f = r) (map snd l) styles).
Proof.
  induction styles as [|[[fam b] i] styles IH]; intros h s l s' I; cbn [layout].
  - intros [= <- <-]. split; [exact I|]. split; [apply mono_refl|]. split; [reflexivity|]. split; [reflexivity|].
    split; [reflexivity|]. split; [intros F sty []|intros F; constructor].
  - destruct (state_mode (d_fs s) fam b i) as [mode|] eqn:Em; [|discriminate]. cbn [bind].
    destruct (get_font load_ttf (fam, mode) (d_fs s) (d_proc s)) as [[[f fs] p]|] eqn:Eg; [|discriminate]. cbn [bind].
    destruct (layout load_ttf styles (with_fonts s fs p)) as [[l1 s1]|] eqn:El; [|discriminate]. cbn [bind].
    intros [= <- <-].
    assert (HK : fok -> (fam, mode) = style_key (fam, b, i) /\ good_key (fam, mode)).
    { intros F. exact (state_mode_key _ _ _ _ _ _ _ _ (i_fonts _ _ _ _ _ _ _ _ _ I F) Em). }
    assert (HF : fok -> fonts_inv fs p /\ (exists i, resolves fs p (fam, mode) f i) /\
                 (forall k0 f0 i0, resolves (d_fs s) (d_proc s) k0 f0 i0 -> resolves fs p k0 f0 i0)).
    { intros F. exact (get_font_inv load_ttf reg _ _ (fam, mode) _ _ _ (i_fonts _ _ _ _ _ _ _ _ _ I F) (proj2 (HK F)) Eg). }
    destruct (with_fonts_inv load_ttf num round3 tt_descr tt_file reg fok h s fs p I) as [I1 M1].
    { intros F. apply (HF F). } { intros F. apply (HF F). }
    destruct (IH _ _ _ _ I1 El) as (I2 & M2 & C2 & L2 & K2 & G2 & R2).
    split; [exact I2|]. split; [eapply mono_trans; eauto|]. split; [exact C2|]. split; [cbn; congruence|].
    cbn [map fst snd]. split; [|split].
    + intros F. rewrite (K2 F). now rewrite (proj1 (HK F)).
    + intros F sty [<-|H]; [|auto]. rewrite <- (proj1 (HK F)). apply (HK F).
    + intros F. constructor; [|auto]. destruct (HF F) as (_ & (j & R) & _). exists f, j. rewrite <- (proj1 (HK F)).
      split; [|reflexivity]. eapply mo_res; [exact M2|exact F|exact R].
Qed.

(** Events for keys: [f] maps the event's style to the key used. *)
Lemma used_fonts_inv ks : forall styles h s i s', inv h s -> d_cur s = Some i ->
  List.length ks = List.length styles -> (fok -> ks = map style_key styles) ->
  (fok -> forall sty, In sty styles -> good_key (style_key sty)) ->
  used_fonts load_ttf num tt_descr tt_file ks s = Ok s' ->
  inv (h ++ map (pair i) (map EUse styles)) s' /\ mono s s' /\ d_cur s' = d_cur s.
Proof.
  induction ks as [|k ks IH]; intros [|sty styles] h s i s' I Hc Hlen HK G; try discriminate; cbn [map used_fonts].
  - intros [= <-]. rewrite app_nil_r. split; [exact I|]. split; [apply mono_refl|reflexivity].
  - unfold used_font at 1. destruct (add_or_get_font load_ttf num tt_descr tt_file k s) as [[v s1]|] eqn:E; [|discriminate].
    assert (Hk : fok -> k = style_key sty) by (intros F; specialize (HK F); cbn in HK; congruence).
    cbn [bind]. destruct (add_or_get_font_inv load_ttf num round3 tt_descr tt_file reg fok h s k v s1 I) as (I1 & M1 & U1 & P1 & C1).
    { intros F. rewrite (Hk F). apply (G F). now left. } { exact E. }
    destruct (cur_page s1) as [pg|] eqn:Ec; [|discriminate]. cbn [bind]. destruct v as [r id]. cbn [fst snd].
    destruct (cur_page_nth _ _ Ec) as (i' & Hc' & Hi). assert (i' = i) by congruence. subst i'.
    destruct (set_font_inv load_ttf num round3 tt_descr tt_file reg fok h s1 i pg sty k r id I1 Hi U1 Hk) as [I2 M2]. intros H.
    destruct (IH styles _ _ i s' I2) as (I3 & M3 & C3).
    + cbn. congruence.
    + now injection Hlen.
    + intros F. specialize (HK F). cbn in HK. congruence.
    + intros F. intros. apply (G F). now right.
    + exact H.
    + rewrite <- app_assoc in I3. split; [exact I3|]. split; [eapply mono_trans; [exact M1|eapply mono_trans; eauto]|].
      rewrite C3. exact C1.
Qed.

Lemma add_text_inv h s i t s' : inv h s -> d_cur s = Some i ->
  add_text load_ttf num round3 tt_descr tt_file t s = Ok s' ->
  inv (h ++ map (pair i) (text_events t)) s' /\ d_cur s' = d_cur s.
Proof.
  intros I Hc. unfold add_text.
  destruct (layout load_ttf (tx_styles t) s) as [[l s1]|] eqn:El; [|discriminate]. cbn [bind].
  destruct (layout_inv _ _ _ _ _ I El) as (I1 & M1 & C1 & L1 & K1 & G1 & R1).
  destruct (add_part (PText (map snd l) (tx_stream t)) s1) as [s2|] eqn:Ep; [|discriminate]. cbn [bind].
  destruct (add_part_inv load_ttf num round3 tt_descr tt_file reg fok h s1 _ _ (tx_styles t) _ I1 Ep ltac:(now rewrite map_length) R1) as (i' & Hi' & I2 & M2 & C2).
  assert (i' = i) by congruence. subst i'.
  destruct (used_fonts load_ttf num tt_descr tt_file (map fst l) s2) as [s3|] eqn:Eu; [|discriminate]. cbn [bind].
  destruct (used_fonts_inv (map fst l) (tx_styles t) _ _ i _ I2 ltac:(congruence) ltac:(now rewrite map_length) K1 G1 Eu) as (I3 & M3 & C3). intros H.
  destruct (text_ids_inv _ _ _ i _ _ _ I3 ltac:(congruence) H) as (I4 & M4 & C4).
  split; [|congruence]. unfold text_events. cbn [map]. rewrite map_app, <- !app_assoc in *. exact I4.
Qed.

(** No page: nothing can be drawn. *)
Lemma add_text_cur t s s' : add_text load_ttf num round3 tt_descr tt_file t s = Ok s' -> exists i, d_cur s = Some i.
Proof.
  unfold add_text. destruct (layout load_ttf (tx_styles t) s) as [[l s1]|] eqn:El; [|discriminate]. cbn [bind].
  assert (C : d_cur s1 = d_cur s).
  { clear - El. revert s l s1 El. induction (tx_styles t) as [|[[fam b] i] st IH]; intros s l s1; cbn [layout].
    - intros [= <- <-]. reflexivity.
    - destruct (state_mode _ _ _ _); [|discriminate]. cbn [bind].
      destruct (get_font _ _ _ _) as [[[f fs] p]|]; [|discriminate]. cbn [bind].
      destruct (layout _ _ _) as [[l2 s2]|] eqn:E; [|discriminate]. cbn [bind]. intros [= <- <-].
      now rewrite (IH _ _ _ E). }
  rewrite <- C. unfold add_part. destruct (d_cur s1); [eauto|discriminate].
Qed.

(** ** Images *)
Lemma get_image_inv h s n o id s' i : inv h s -> get_image n o s = (id, s') ->
  inv (h ++ [(i, EImage n o)]) s' /\ mono s s' /\ dget n (d_images s') = Some id /\
  d_pages s' = d_pages s /\ d_cur s' = d_cur s.
Proof.
  intros I. unfold get_image.
  assert (Hs : forall j, shows (on j (h ++ [(i, EImage n o)])) = shows (on j h) /\ links (on j (h ++ [(i, EImage n o)])) = links (on j h)).
  { intros j. rewrite on_snoc, shows_app, links_app. destruct (i =? j)%nat; cbn [shows links filter flat_map app]; rewrite !app_nil_r; auto. }
  destruct (dget n (d_images s)) as [id0|] eqn:Eu.
  { intros [= <- <-]. split; [|split; [apply mono_refl|auto]]. destruct (i_img _ _ _ _ _ _ _ _ _ I _ _ Eu) as (o0 & _ & F0).
    constructor; try (apply I).
    - intros n1 id1 H. destruct (i_img _ _ _ _ _ _ _ _ _ I _ _ H) as (o1 & S1 & F1). exists o1. rewrite first_image_snoc, F1. auto.
    - intros n1 H. rewrite first_image_snoc, (i_img_none _ _ _ _ _ _ _ _ _ I _ H).
      destruct (str_eqb n1 n) eqn:E; [apply str_eqb_eq in E; congruence|reflexivity].
    - intros j. rewrite (proj1 (Hs j)). apply I.
    - intros F j sty H. apply in_app_or in H as [H|[H|[]]]; [|discriminate]. eapply i_use; eauto.
    - intros j. rewrite (proj2 (Hs j)). apply I.
    - intros l. rewrite last_label_snoc. apply I.
    - rewrite outlines_snoc, app_nil_r. apply I.
    - rewrite page_sizes_snoc, app_nil_r. apply I. }
  intros [= <- <-]. set (id := S _). set (s' := with_images _ _).
  destruct (grow_base s s' [o] (i_base _ _ _ _ _ _ _ _ _ I) eq_refl eq_refl) as (B & SP & ST).
  pose proof (same_views _ _ SP) as V. pose proof (proj1 (dget_none _ _) Eu) as Hnk.
  assert (Hst : static s' id o).
  { eapply (static_new s s' [o]); try reflexivity; [apply I|apply sadd_new|]. unfold id. lia. }
  assert (M : mono s s').
  { constructor; try (intros *; exact (fun H => H)); try (intros F k0 f0 i0 H0; exact H0).
    - exact ST.
    - intros n0 id0 H. cbn [s' with_images d_images]. rewrite dget_dset_other; [exact H|]. intros ->. congruence.
    - intros F j r v. now rewrite (proj1 (V j)).
    - intros j r v. now rewrite (proj1 (proj2 (V j))).
    - intros j pg H. exists pg. auto. }
  assert (Hold : forall n0, dget n0 (d_images s) = Some id -> False).
  { intros n0 H. destruct (i_img _ _ _ _ _ _ _ _ _ I _ _ H) as (o0 & (S0 & _) & _). apply sget_some_lt in S0. unfold id in S0. lia. }
  split; [|split; [exact M|split; [apply dget_dset_same|auto]]].
  constructor; try exact B; try (apply I).
  - intros k r id0 H. eapply used_static_mono; eauto.
  - intros F k r id0 H. eapply used_mono; eauto.
  - intros n1 id1. cbn [s' with_images d_images]. rewrite first_image_snoc. destruct (str_eq_dec n1 n) as [->|Hn].
    + rewrite dget_dset_same. intros [= <-]. exists o. split; [exact Hst|]. now rewrite (i_img_none _ _ _ _ _ _ _ _ _ I _ Eu), str_eqb_refl.
    + rewrite dget_dset_other by exact Hn. intros H. destruct (i_img _ _ _ _ _ _ _ _ _ I _ _ H) as (o1 & S1 & F1). exists o1.
      split; [eapply mo_static; eauto|]. now rewrite F1.
  - intros n1. cbn [s' with_images d_images]. rewrite first_image_snoc. destruct (str_eq_dec n1 n) as [->|Hn].
    + rewrite dget_dset_same. discriminate.
    + rewrite dget_dset_other by exact Hn. intros H. rewrite (i_img_none _ _ _ _ _ _ _ _ _ I _ H).
      apply str_eqb_neq in Hn. now rewrite Hn.
  - intros n1 n2 id1. cbn [s' with_images d_images].
    destruct (str_eq_dec n1 n) as [->|H1], (str_eq_dec n2 n) as [->|H2]; rewrite ?dget_dset_same, ?dget_dset_other by assumption.
    + auto.
    + intros [= <-] H. destruct (Hold _ H).
    + intros H [= <-]. destruct (Hold _ H).
    + apply I.
  - intros u id0 H. eapply mo_static; [exact M|]. eapply i_uri; eauto.
  - intros j pg' H. rewrite (proj1 (proj2 (V j))). eapply i_x; [exact I|exact H].
  - intros j. rewrite (proj1 (Hs j)). destruct (V j) as (_ & _ & _ & V4). rewrite V4.
    eapply Forall2_weaken; [|apply (i_parts _ _ _ _ _ _ _ _ _ I j)]. intros p ev. apply part_ok_mono. exact M.
  - intros F j sty' H. apply in_app_or in H as [H|[H|[]]]; [|discriminate]. eapply use_mono; eauto.
  - intros j r0 v0 H. rewrite (proj1 (V j)) in H. exact (i_fontres _ _ _ _ _ _ _ _ _ I _ _ _ H).
  - intros j. rewrite (proj2 (Hs j)). destruct (V j) as (_ & _ & V3 & _). rewrite V3.
    eapply Forall2_weaken; [|apply (i_links _ _ _ _ _ _ _ _ _ I j)]. intros a l Ha. eapply annot_ok_mono; [exact M|exact Ha].
  - intros l. rewrite last_label_snoc. apply I.
  - rewrite outlines_snoc, app_nil_r. apply I.
  - rewrite page_sizes_snoc, app_nil_r. apply I.
  - split; [apply I|]. split; [|apply I]. cbn [s' with_images d_images]. apply nodup_dset. apply I.
  - intros F. cbn [s' with_images d_images with_st d_st d_pages d_uris d_used]. rewrite (dset_len _ _ _ Hnk), app_length.
    pose proof (i_count _ _ _ _ _ _ _ _ _ I F). cbn [List.length]. lia.
Qed.

Lemma page_image_inv h s n id w hh x y s' : inv h s -> dget n (d_images s) = Some id ->
  page_image id w hh x y s = Ok s' ->
  exists i, d_cur s = Some i /\ inv (h ++ [(i, EDraw n w hh x y)]) s' /\ d_cur s' = d_cur s.
Proof.
  intros I Hn. unfold page_image. destruct (d_cur s) as [i|] eqn:Hc; [|discriminate].
  destruct (nth_error (d_pages s) i) as [pg|] eqn:Hi; [|discriminate].
  destruct (bi_pages _ (i_base _ _ _ _ _ _ _ _ _ I) _ (nth_error_In _ _ Hi)) as (_ & d & Hd & Hl).
  rewrite (supd_same _ _ _ _ Hd).
  destruct (res_default_like (lit "XObject") d Hl) as (L1 & L2 & L3 & _).
  destruct (i_x _ _ _ _ _ _ _ _ _ I _ _ Hi) as (X1 & X2 & X3).
  assert (Hx : xobjs_of s i = res_of (lit "XObject") d).
  { unfold xobjs_of, page_get, pdict. now rewrite Hi, Hd. }
  rewrite L2, <- Hx, X1, map_length.
  intros H. exists i. split; [reflexivity|].
  destruct (xget id (pp_xobjs pg)) as [nm|] eqn:Ex; apply Ok_inj in H; subst s'.
  - (* the image is already named on the page *)
    set (g := fun pg0 => _). set (f := res_default (lit "XObject")).
    pose proof (inv_page load_ttf num round3 tt_descr tt_file reg fok h s i pg f g (EDraw n w hh x y) I Hi) as L. cbv zeta in L. rewrite Hc in L.
    set (s' := with_pages _ _ _) in *.
    assert (Gok : forall p, pp_id (g p) = pp_id p /\ pp_w (g p) = pp_w p /\ pp_h (g p) = pp_h p) by (intros p; cbn; auto).
    destruct (page_update s i pg f g (Some i) (i_base _ _ _ _ _ _ _ _ _ I) Hi)
      as (_ & _ & (d' & Hl' & V1 & V2 & V3 & V4 & W1 & W2 & W3 & W4) & _); [intros d0 H0; now apply res_default_like|exact Gok|].
    cbv zeta in W1, W2, W3, W4. fold s' in W1, W2, W3, W4.
    destruct (res_default_like (lit "XObject") d' Hl') as (_ & M2 & M3 & _). fold f in M2, M3.
    rewrite M2, <- V1 in W1. rewrite M2, <- V2 in W2. rewrite M3, <- V3 in W3. cbn [g pp_parts] in W4. rewrite <- V4 in W4.
    destruct L as [L4 L5]; try (split; [exact L4|reflexivity]).
    + intros d0 H0. now apply res_default_like.
    + exact Gok.
    + reflexivity.
    + exact W1.
    + now rewrite W2.
    + rewrite W2. cbn [g pp_xobjs]. eapply i_x; eauto.
    + intros Hm. rewrite W4, shows_app. cbn [shows filter]. apply Forall2_app.
      * eapply Forall2_weaken; [|apply (i_parts _ _ _ _ _ _ _ _ _ I i)]. exact Hm.
      * constructor; [|constructor]. split; [reflexivity|]. exists id. split; [exact Hn|]. rewrite W2, X1.
        apply dget_nodup_in.
        -- unfold keys. rewrite map_map. cbn [fst]. change (NoDup (map snd (pp_xobjs pg))); rewrite X2. apply image_names_nodup.
        -- apply xget_in in Ex. apply in_map_iff. exists (id, nm). auto.
    + rewrite W3, links_app. cbn [links flat_map app]. rewrite app_nil_r. apply I.
  - set (nm := lit "Im" ++ dec (N.of_nat (List.length (pp_xobjs pg)))).
    set (g := fun pg0 => _). set (f := fun d => res_set (lit "XObject") nm (oref id) (res_default (lit "XObject") d)).
    assert (Est : supd (supd (d_st s) (pp_id pg) (res_default (lit "XObject"))) (pp_id pg) (res_set (lit "XObject") nm (oref id))
                  = supd (d_st s) (pp_id pg) f).
    { unfold supd. destruct (pp_id pg) as [|q]; [reflexivity|]. generalize (d_st s) as st. clear. induction q as [|q IH]; intros [|d st]; cbn [upd_nth]; auto.
      now rewrite IH. }
    rewrite Est.
    pose proof (inv_page load_ttf num round3 tt_descr tt_file reg fok h s i pg f g (EDraw n w hh x y) I Hi) as L. cbv zeta in L. rewrite Hc in L.
    set (s' := with_pages _ _ _) in *.
    assert (Gok : forall p, pp_id (g p) = pp_id p /\ pp_w (g p) = pp_w p /\ pp_h (g p) = pp_h p) by (intros p; cbn; auto).
    assert (Fok : forall d0, page_like d0 -> page_like (f d0)) by (intros d0 H0; apply res_set_like; now apply res_default_like).
    destruct (page_update s i pg f g (Some i) (i_base _ _ _ _ _ _ _ _ _ I) Hi Fok Gok)
      as (_ & _ & (d' & Hl' & V1 & V2 & V3 & V4 & W1 & W2 & W3 & W4) & _).
    cbv zeta in W1, W2, W3, W4. fold s' in W1, W2, W3, W4.
    destruct (res_default_like (lit "XObject") d' Hl') as (N1 & M2 & M3 & _).
    destruct (res_set_like (lit "XObject") nm (oref id) _ N1) as (_ & R2 & R3 & R4).
    unfold f in W1, W2, W3. rewrite R3, M2, <- V1 in W1 by discriminate. rewrite R2, M2, <- V2 in W2.
    rewrite R4, M3, <- V3 in W3. cbn [g pp_parts] in W4. rewrite <- V4 in W4.
    assert (Hnm : ~ In nm (keys (xobjs_of s i))).
    { rewrite X1. unfold keys. rewrite map_map. cbn [fst]. change (~ In nm (map snd (pp_xobjs pg))). rewrite X2. intros H.
      pose proof (image_names_nodup (S (List.length (pp_xobjs pg)))) as Hd'. rewrite image_names_S in Hd'. fold nm in Hd'.
      apply NoDup_remove_2 in Hd'. apply Hd'. now rewrite app_nil_r. }
    rewrite (dset_absent _ _ _ Hnm) in W2.
    destruct L as [L4 L5]; try (split; [exact L4|reflexivity]).
    + exact Fok.
    + exact Gok.
    + reflexivity.
    + exact W1.
    + intros r v H. rewrite W2, dget_app, H. reflexivity.
    + rewrite W2, X1. cbn [g pp_xobjs]. rewrite app_length, !map_app. cbn [map fst snd List.length].
      split; [reflexivity|]. split.
      * rewrite X2. rewrite Nat.add_1_r, image_names_S. reflexivity.
      * apply nodup_snoc; [exact X3|]. now apply xget_none.
    + intros Hm. rewrite W4, shows_app. cbn [shows filter]. apply Forall2_app.
      * eapply Forall2_weaken; [|apply (i_parts _ _ _ _ _ _ _ _ _ I i)]. exact Hm.
      * constructor; [|constructor]. split; [reflexivity|]. exists id. split; [exact Hn|]. rewrite W2, dget_app.
        rewrite (proj2 (dget_none _ _) Hnm). cbn [dget]. now rewrite str_eqb_refl.
    + rewrite W3, links_app. cbn [links flat_map app]. rewrite app_nil_r. apply I.
Qed.

(** ** A new page *)
Lemma add_page_inv h s w hh s' : inv h s -> add_page w hh s = Ok s' ->
  inv (h ++ [(List.length (d_pages s), EPage w hh)]) s' /\ d_cur s' = Some (List.length (d_pages s)) /\
  List.length (d_pages s') = S (List.length (d_pages s)).
Proof.
  intros I. unfold add_page. set (n := List.length (d_pages s)). set (m := List.length (d_st s)).
  set (d1 := [(lit "Filter", name "/FlateDecode"); (lit "__stream__", ODict [])]).
  set (d2 := [(lit "Type", name "/Page"); (lit "Contents", oref (S m)); (lit "Resources", ODict [])]).
  set (pg0 := mkPP (S (S m)) (S m) w hh [] []). intros [= <-]. set (s' := with_pages _ _ _).
  assert (B := i_base _ _ _ _ _ _ _ _ _ I).
  assert (Hst : d_st s' = d_st s ++ [d1; d2]) by reflexivity.
  assert (Hpg : d_pages s' = d_pages s ++ [pg0]) by reflexivity.
  assert (H2 : sget (d_st s') (S (S m)) = Some d2).
  { rewrite Hst. cbn [sget]. rewrite nth_error_app2 by (unfold m; lia). now replace (S m - List.length (d_st s))%nat with 1%nat by (unfold m; lia). }
  assert (Hold : forall pg, In pg (d_pages s) -> (pp_id pg <= m)%nat /\ pdict s' pg = pdict s pg).
  { intros pg H. destruct (bi_pages _ B _ H) as (_ & d & Hd & _). pose proof (sget_some_lt _ _ _ Hd). split; [unfold m; lia|].
    unfold pdict. rewrite Hst, (sget_app_old _ _ _ _ Hd), Hd. reflexivity. }
  assert (Hroot := sget_some_lt _ _ _ (bi_root _ B)).
  assert (B' : base_inv s').
  { constructor.
    - rewrite Hst. apply sget_app_old, B.
    - rewrite Hpg, map_app. apply nodup_snoc; [apply B|]. cbn [pg0 pp_id]. intros H. apply in_map_iff in H as (pg & E & H).
      apply Hold in H as [H _]. lia.
    - intros pg. rewrite Hpg, in_app_iff. intros [H|[<-|[]]].
      + destruct (bi_pages _ B _ H) as (H1 & d & Hd & Hl). split; [exact H1|]. exists d. split; [|exact Hl].
        rewrite Hst. now apply sget_app_old.
      + cbn [pg0 pp_id]. split; [unfold m; lia|]. exists d2. split; [exact H2|].
        split; [reflexivity|]. split; [|left; reflexivity]. exists []. split; [reflexivity|discriminate]. }
  assert (Hv : forall i, fonts_of s' i = fonts_of s i /\ xobjs_of s' i = xobjs_of s i /\
                         annots_of s' i = annots_of s i /\ parts_of s' i = parts_of s i).
  { intros i. unfold fonts_of, xobjs_of, annots_of, parts_of, page_get. rewrite Hpg.
    destruct (nth_error (d_pages s) i) as [pg|] eqn:En.
    - rewrite nth_error_app1 by (apply nth_error_Some; congruence). rewrite En.
      rewrite (proj2 (Hold _ (nth_error_In _ _ En))). auto.
    - apply nth_error_None in En. rewrite nth_error_app2 by exact En.
      destruct (i - List.length (d_pages s))%nat as [|[|q]]; cbn [nth_error]; auto.
      unfold pdict. cbn [pg0 pp_id]. rewrite H2. auto. }
  assert (M : mono s s').
  { constructor; try (intros *; exact (fun H => H)); try (intros F k0 f0 i0 H0; exact H0).
    - intros id d (S1 & S2 & S3). split; [rewrite Hst; now apply sget_app_old|]. split; [exact S2|].
      rewrite Hpg, map_app, in_app_iff. intros [H|[H|[]]]; [auto|]. apply sget_some_lt in S1. cbn [pg0 pp_id] in H. unfold m in H. lia.
    - intros F i r v. now rewrite (proj1 (Hv i)).
    - intros i r v. now rewrite (proj1 (proj2 (Hv i))).
    - intros i pg H. exists pg. rewrite Hpg, nth_error_app1 by (apply nth_error_Some; congruence). auto. }
  assert (Hs : forall i, shows (on i (h ++ [(n, EPage w hh)])) = shows (on i h) /\ links (on i (h ++ [(n, EPage w hh)])) = links (on i h)).
  { intros i. rewrite on_snoc, shows_app, links_app. destruct (n =? i)%nat; cbn [shows links filter flat_map app]; rewrite !app_nil_r; auto. }
  split; [|split; [reflexivity|rewrite Hpg, app_length; cbn; unfold n; lia]].
  constructor; try exact B'; try (apply I).
  - intros k r id0 H. eapply used_static_mono; eauto.
  - intros F k r id0 H. eapply used_mono; eauto.
  - intros n1 id1 H. destruct (i_img _ _ _ _ _ _ _ _ _ I _ _ H) as (o1 & S1 & F1). exists o1.
    rewrite first_image_snoc, F1. split; [eapply mo_static; eauto|reflexivity].
  - intros n1 H. rewrite first_image_snoc, (i_img_none _ _ _ _ _ _ _ _ _ I _ H). reflexivity.
  - intros u id0 H. eapply mo_static; [exact M|]. eapply i_uri; eauto.
  - intros j pg H. rewrite (proj1 (proj2 (Hv j))). rewrite Hpg in H.
    destruct (Nat.lt_ge_cases j (List.length (d_pages s))) as [Hj|Hj].
    + rewrite nth_error_app1 in H by exact Hj. eapply i_x; [exact I|exact H].
    + rewrite nth_error_app2 in H by exact Hj. destruct (j - List.length (d_pages s))%nat as [|[|q]]; cbn [nth_error] in H; try discriminate.
      injection H as <-. cbn [pg0 pp_xobjs map List.length]. split; [|split; [reflexivity|constructor]].
      unfold xobjs_of, page_get. now rewrite (proj2 (nth_error_None (d_pages s) j) Hj).
  - intros j. rewrite (proj1 (Hs j)). destruct (Hv j) as (_ & _ & _ & V4). rewrite V4.
    eapply Forall2_weaken; [|apply (i_parts _ _ _ _ _ _ _ _ _ I j)]. intros p ev. apply part_ok_mono. exact M.
  - intros F j sty' H. apply in_app_or in H as [H|[H|[]]]; [|discriminate]. eapply use_mono; eauto.
  - intros j r0 v0 H. rewrite (proj1 (Hv j)) in H. exact (i_fontres _ _ _ _ _ _ _ _ _ I _ _ _ H).
  - intros j. rewrite (proj2 (Hs j)). destruct (Hv j) as (_ & _ & V3 & _). rewrite V3.
    eapply Forall2_weaken; [|apply (i_links _ _ _ _ _ _ _ _ _ I j)]. intros a l Ha. eapply annot_ok_mono; [exact M|exact Ha].
  - intros l. rewrite last_label_snoc. eapply dest_mono; [exact M|exact I|reflexivity].
  - rewrite outlines_snoc, app_nil_r. apply I.
  - rewrite page_sizes_snoc, Hpg, map_app. f_equal. apply I.
  - intros F. rewrite Hst, Hpg, !app_length. pose proof (i_count _ _ _ _ _ _ _ _ _ I F). cbn [List.length s' with_pages with_st d_images d_uris d_used]. lia.
Qed.

Lemma select_inv h s i : inv h s -> inv h (with_pages s (d_pages s) (Some i)).
Proof.
  intros I. assert (M : mono s (with_pages s (d_pages s) (Some i))) by (constructor; eauto).
  destruct I as [[B1 B2 B3]]. constructor; auto. constructor; auto.
Qed.

(** ** The start *)
Lemma init_inv p : (fok -> p = mkProc reg []) -> inv [] (mkPdf [catalog] [] None init_fonts p [] [] [] [] []).
Proof.
  intros Hp.
  constructor; cbn [d_st d_pages d_used d_images d_uris d_dests d_outl]; try (intros; discriminate); try reflexivity.
  - constructor; [reflexivity|constructor|intros pg []].
  - intros F. rewrite (Hp F). apply init_fonts_inv.
  - intros [|i] pg H; discriminate.
  - intros [|i]; constructor.
  - intros F i sty [].
  - intros [|i] r v H; discriminate.
  - intros [|i]; constructor.
  - constructor.
  - repeat split; constructor.
Qed.

Lemma new_pdf_inv p s : (fok -> p = mkProc reg []) -> new_pdf load_ttf num tt_descr tt_file p = Ok s -> inv [] s /\ d_pages s = [] /\ d_cur s = None.
Proof.
  intros Hp. unfold new_pdf. destruct (add_or_get_font _ _ _ _ _ _) as [[v s1]|] eqn:E; [|discriminate]. cbn [bind]. intros [= <-].
  destruct (add_or_get_font_inv load_ttf num round3 tt_descr tt_file reg fok [] _ (lit "Helvetica", lit "n") v s1 (init_inv p Hp)) as (I1 & M1 & U1 & P1 & C1).
  - intros F modes H. injection H as <-. reflexivity.
  - exact E.
  - auto.
Qed.

(** No [add_font] call. *)
Definition no_add_font (o : op) : Prop := match o with OpAddFont _ _ => False | _ => True end.

Lemma step_inv h s o s' : inv h s -> (fok -> no_add_font o) -> step load_ttf num round3 tt_descr tt_file o s = Ok s' ->
  exists es, (forall ops, events (d_cur s) (List.length (d_pages s)) (o :: ops) =
              es ++ events (d_cur s') (List.length (d_pages s')) ops) /\ inv (h ++ es) s'.
Proof.
  intros I Ho. destruct o as [w hh|i|t|n o w hh x y|path k]; cbn [step].
  - intros H. destruct (add_page_inv _ _ _ _ _ I H) as (I1 & C1 & L1). rewrite C1, L1.
    exists [(List.length (d_pages s), EPage w hh)]. split; [reflexivity|exact I1].
  - intros [= <-]. exists []. split; [reflexivity|]. rewrite app_nil_r. now apply select_inv.
  - intros H. destruct (add_text_cur _ _ _ H) as [i Hc].
    destruct (add_text_inv _ _ _ _ _ I Hc H) as (I1 & C1).
    exists (map (pair i) (text_events t)). split; [|exact I1]. intros ops. rewrite C1, Hc. cbn [events].
    do 2 f_equal. pose proof (f_equal (@List.length _) (i_sizes _ _ _ _ _ _ _ _ _ I)) as E1.
    pose proof (f_equal (@List.length _) (i_sizes _ _ _ _ _ _ _ _ _ I1)) as E2. rewrite map_length in E1, E2.
    rewrite E1, E2. f_equal. unfold page_sizes. rewrite flat_map_app.
    assert (H0 : forall es, (forall e, In e es -> match e with EPage _ _ => False | _ => True end) ->
             flat_map (fun e : nat * event => match snd e with EPage w h => [(w, h)] | _ => [] end) (map (pair i) es) = []).
    { clear. induction es as [|e es IH]; [reflexivity|]. intros H. cbn [map flat_map snd].
      rewrite IH by (intros; apply H; now right). specialize (H e (or_introl eq_refl)). destruct e; try contradiction; reflexivity. }
    rewrite H0; [now rewrite app_nil_r|]. unfold text_events. intros e [<-|He]; [exact Coq.Init.Logic.I|].
    apply in_app_iff in He as [He|He].
    + apply in_map_iff in He as (sty & <- & _). exact Coq.Init.Logic.I.
    + apply in_flat_map in He as ([k rs] & _ & He). cbn [fst snd] in He. destruct rs as [|r rs]; [destruct He|].
      destruct k; cbn [id_events] in He.
      * destruct He as [<-|[]]; exact Coq.Init.Logic.I.
      * apply in_map_iff in He as (r0 & <- & _). exact Coq.Init.Logic.I.
      * apply in_map_iff in He as (r0 & <- & _). exact Coq.Init.Logic.I.
      * destruct He as [<-|[]]; exact Coq.Init.Logic.I.
  - unfold add_image. destruct (get_image n o s) as [id s1] eqn:E. intros H.
    destruct (d_cur s) as [i|] eqn:Hc.
    + destruct (get_image_inv _ _ _ _ _ _ i I E) as (I1 & M1 & D1 & P1 & C1).
      destruct (page_image_inv _ _ _ _ _ _ _ _ _ I1 D1 H) as (i' & Hi' & I2 & C2). assert (i' = i) by congruence. subst i'.
      exists [(i, EImage n o); (i, EDraw n w hh x y)]. split; [|now rewrite <- app_assoc in I2].
      intros ops. cbn [events map]. rewrite C2, C1. cbn [app]. do 3 f_equal.
      * congruence.
      * pose proof (f_equal (@List.length _) (i_sizes _ _ _ _ _ _ _ _ _ I2)) as E2. pose proof (f_equal (@List.length _) (i_sizes _ _ _ _ _ _ _ _ _ I1)) as E1.
        rewrite map_length in E1, E2. rewrite page_sizes_snoc, app_nil_r in E2. rewrite <- P1, E1, E2. reflexivity.
    + exfalso. destruct (get_image_inv _ _ _ _ _ _ 0%nat I E) as (I1 & M1 & D1 & P1 & C1).
      unfold page_image in H. rewrite C1, Hc in H. discriminate.
  - destruct (load_font load_ttf path k (d_fs s)) as [fs|] eqn:E; [|discriminate]. cbn [bind]. intros [= <-].
    exists []. split; [reflexivity|]. rewrite app_nil_r. apply (with_fonts_inv load_ttf num round3 tt_descr tt_file reg fok h s fs (d_proc s) I).
    + intros F. destruct (Ho F).
    + intros F. destruct (Ho F).
Qed.

Lemma run_inv ops : forall h s s', inv h s -> (fok -> Forall no_add_font ops) ->
  run load_ttf num round3 tt_descr tt_file ops s = Ok s' ->
  inv (h ++ events (d_cur s) (List.length (d_pages s)) ops) s'.
Proof.
  induction ops as [|o ops IH]; intros h s s' I Hf; cbn [run].
  - intros [= <-]. cbn [events]. rewrite app_nil_r. exact I.
  - destruct (step load_ttf num round3 tt_descr tt_file o s) as [s1|] eqn:E; [|discriminate]. cbn [bind]. intros H.
    destruct (step_inv _ _ _ _ I (fun F => Forall_inv (Hf F)) E) as (es & He & I1). rewrite He, app_assoc.
    eapply IH; [exact I1|intros F; exact (Forall_inv_tail (Hf F))|exact H].
Qed.

Theorem history_inv p ops s0 s : (fok -> p = mkProc reg []) -> (fok -> Forall no_add_font ops) ->
  new_pdf load_ttf num tt_descr tt_file p = Ok s0 ->
  run load_ttf num round3 tt_descr tt_file ops s0 = Ok s -> inv (history ops) s.
Proof.
  intros Hp Hf H0 H. destruct (new_pdf_inv _ _ Hp H0) as (I0 & P0 & C0). pose proof (run_inv _ _ _ _ I0 Hf H) as I.
  rewrite P0, C0 in I. exact I.
Qed.
End Run.
