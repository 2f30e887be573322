(** Invariant of the document object (C10-C13, C20-C22). *)
From Verif Require Import Py PyStr PdfSyntax Parser StreamProofs Store PageTree NameTree OutlineTree Fonts PdfObj PdfObjSpec PdfObjFonts.
From Coq Require Import String QArith.
Open Scope N_scope.
Open Scope list_scope.

(** ** Page dictionaries *)
Definition page_like (d : dict) : Prop :=
  dget (lit "Type") d = Some (name "/Page") /\
  (exists r, dget (lit "Resources") d = Some (ODict r) /\ forall k v, dget k r = Some v -> exists m, v = ODict m) /\
  (dget (lit "Annots") d = None \/ exists l, dget (lit "Annots") d = Some (OSeq l)).

Ltac dother := repeat match goal with
  | |- context [dget ?k (dset ?k2 ?v ?d)] => rewrite (dget_dset_other k2 k v d) by (assumption || discriminate)
  end.

Lemma res_default_like sub d : page_like d -> page_like (res_default sub d) /\
  (forall sub', res_of sub' (res_default sub d) = res_of sub' d) /\ annots (res_default sub d) = annots d /\
  exists r, dget (lit "Resources") (res_default sub d) = Some (ODict r).
Proof.
  intros (H1 & (r & H2 & H3) & H4). unfold res_default. rewrite H2. unfold dmem.
  destruct (dget sub r) as [v|] eqn:E; [split; [split; [exact H1|split; [eauto|exact H4]]|eauto]|].
  unfold page_like, res_of, annots. rewrite !dget_dset_same. dother. rewrite H2.
  split; [split; [exact H1|split; [|exact H4]]|split; [|split; [reflexivity|eauto]]].
  - eexists. split; [reflexivity|]. intros k v. destruct (str_eq_dec k sub) as [->|Hn].
    + rewrite dget_dset_same. intros [= <-]. eauto.
    + rewrite dget_dset_other by exact Hn. apply H3.
  - intros sub'. destruct (str_eq_dec sub' sub) as [->|Hn]; [now rewrite dget_dset_same, E|].
    now rewrite dget_dset_other by exact Hn.
Qed.

Lemma res_set_like sub k v d : page_like d -> page_like (res_set sub k v d) /\
  res_of sub (res_set sub k v d) = dset k v (res_of sub d) /\
  (forall sub', sub' <> sub -> res_of sub' (res_set sub k v d) = res_of sub' d) /\
  annots (res_set sub k v d) = annots d.
Proof.
  intros (H1 & (r & H2 & H3) & H4). unfold res_set. rewrite H2.
  unfold page_like, annots. dother. split; [|split; [|split; [|reflexivity]]].
  - split; [exact H1|]. split; [|exact H4]. rewrite dget_dset_same. eexists. split; [reflexivity|].
    intros k' v'. destruct (str_eq_dec k' sub) as [->|Hn].
    + rewrite dget_dset_same. intros [= <-]. eauto.
    + rewrite dget_dset_other by exact Hn. apply H3.
  - unfold res_of at 1. now rewrite !dget_dset_same.
  - intros sub' Hn. unfold res_of. rewrite dget_dset_same, dget_dset_other by exact Hn. now rewrite H2.
Qed.

Lemma add_annot_like extra r d : page_like d -> page_like (add_annot extra r d) /\
  (forall sub, res_of sub (add_annot extra r d) = res_of sub d) /\
  annots (add_annot extra r d) = annots d ++
    [ODict (dset (lit "Rect") r (fold_left (fun a kv => dset (fst kv) (snd kv) a) extra
                [(lit "Type", name "/Annot"); (lit "Subtype", name "/Link")]))].
Proof.
  intros (H1 & H2 & H4). unfold add_annot. set (a := ODict _). clearbody a. unfold dmem.
  destruct H4 as [H4|[l H4]]; rewrite H4.
  - unfold dappend. rewrite dget_dset_same. unfold page_like, res_of, annots. rewrite dget_dset_same. dother.
    rewrite H4. split; [split; [exact H1|split; [exact H2|right; eauto]]|]. split; [|reflexivity].
    intros sub. dother. reflexivity.
  - unfold dappend. rewrite H4. unfold page_like, res_of, annots. rewrite dget_dset_same. dother. rewrite H4.
    split; [split; [exact H1|split; [exact H2|right; eauto]]|]. split; [|reflexivity].
    intros sub. dother. reflexivity.
Qed.

(** ** Histories *)
Lemma on_snoc i h j e : on i (h ++ [(j, e)]) = on i h ++ (if (j =? i)%nat then [e] else []).
Proof. unfold on. rewrite filter_app, map_app. cbn [filter fst]. destruct (j =? i)%nat; reflexivity. Qed.
Lemma shows_app a b : shows (a ++ b) = shows a ++ shows b.
Proof. apply filter_app. Qed.
Lemma links_app a b : links (a ++ b) = links a ++ links b.
Proof. apply flat_map_app. Qed.
Lemma outlines_snoc h j e : outlines (h ++ [(j, e)]) = outlines h ++
  match e with EOutline lv t l => [(lv, (t, l))] | _ => [] end.
Proof. unfold outlines. rewrite flat_map_app. cbn [flat_map snd]. now rewrite app_nil_r. Qed.
Lemma page_sizes_snoc h j e : page_sizes (h ++ [(j, e)]) = page_sizes h ++
  match e with EPage w h => [(w, h)] | _ => [] end.
Proof. unfold page_sizes. rewrite flat_map_app. cbn [flat_map snd]. now rewrite app_nil_r. Qed.
Lemma first_image_snoc n h j e : first_image n (h ++ [(j, e)]) =
  match first_image n h, e with
  | None, EImage n' o => if str_eqb n n' then Some o else None
  | x, _ => x
  end.
Proof. unfold first_image. rewrite fold_left_app. cbn [fold_left snd]. destruct (fold_left _ h None), e; reflexivity. Qed.
Lemma last_label_snoc l h j e : last_label l (h ++ [(j, e)]) =
  match e with
  | ELabel l' x y r => if str_eqb l l' then Some (j, (x, y, r)) else last_label l h
  | _ => last_label l h
  end.
Proof. unfold last_label. rewrite fold_left_app. reflexivity. Qed.

Lemma described_mono num descr file (P R : nat -> dict -> Prop) d base t : (forall id e, P id e -> R id e) ->
  described num descr file P d base t -> described num descr file R d base t.
Proof.
  intros H (H0 & H1 & H2 & H3). split; [exact H0|]. split; [exact H1|]. split; [exact H2|]. destruct t as [t|]; [|exact H3].
  destruct H3 as (A & B & cid & cd & fid & fd & eid & ed & uid & ud & text & C1 & C2 & C0 & C3 & C4 & C5 & C6 & C7 & C8 &
    D1 & D2 & D3 & D4 & D5 & D9 & D0 & D6 & D7 & D8 & E1 & E2 & E6 & E0 & E3 & E4 & E5).
  split; [exact A|]. split; [exact B|]. exists cid, cd, fid, fd, eid, ed, uid, ud, text. auto 40.
Qed.

Section Proofs.
Variable load_ttf : str -> res ttf.
Variable num : Q -> obj.
Variable round3 : Q -> Q.
Variable tt_descr : ttf -> dict.
Variable tt_file : ttf -> bytes.
Variable reg : list (fkey * str).
(** The facts that do not hold when the user adds fonts to the document. *)
Variable fok : Prop.
Notation resolves := (resolves load_ttf reg).
Notation fonts_inv := (fonts_inv load_ttf reg).

Record base_inv (s : pdf) : Prop := {
  bi_root : sget (d_st s) 1 = Some catalog;
  bi_nodup : NoDup (map pp_id (d_pages s));
  bi_pages : forall pg, In pg (d_pages s) -> pp_id pg <> 1%nat /\
               exists d, sget (d_st s) (pp_id pg) = Some d /\ page_like d }.

(** An object that no page operation touches. *)
Definition static (s : pdf) (id : nat) (d : dict) : Prop :=
  sget (d_st s) id = Some d /\ id <> 1%nat /\ ~ In id (map pp_id (d_pages s)).

Record mono (s s' : pdf) : Prop := {
  mo_static : forall id d, static s id d -> static s' id d;
  mo_images : forall n id, dget n (d_images s) = Some id -> dget n (d_images s') = Some id;
  mo_uris : forall n id, dget n (d_uris s) = Some id -> dget n (d_uris s') = Some id;
  mo_used : forall k v, kget k (d_used s) = Some v -> kget k (d_used s') = Some v;
  mo_fonts : fok -> forall i r v, dget r (fonts_of s i) = Some v -> dget r (fonts_of s' i) = Some v;
  mo_xobjs : forall i r v, dget r (xobjs_of s i) = Some v -> dget r (xobjs_of s' i) = Some v;
  mo_pages : forall i pg, nth_error (d_pages s) i = Some pg -> exists pg', nth_error (d_pages s') i = Some pg' /\
               pp_id pg' = pp_id pg /\ pp_w pg' = pp_w pg;
  mo_res : fok -> forall k f i, resolves (d_fs s) (d_proc s) k f i -> resolves (d_fs s') (d_proc s') k f i }.

Lemma mono_refl s : mono s s.
Proof. constructor; eauto. Qed.
Lemma mono_trans a b c : mono a b -> mono b c -> mono a c.
Proof.
  intros [A1 A2 A3 A4 A5 A6 A7 A8] [B1 B2 B3 B4 B5 B6 B7 B8]. constructor; auto.
  intros i pg H. destruct (A7 _ _ H) as (pg1 & H1 & H2 & H3). destruct (B7 _ _ H1) as (pg2 & H4 & H5 & H6).
  exists pg2. split; [exact H4|]. split; congruence.
Qed.

(** ** The invariant *)
Definition action (u : str) : dict := [(lit "Type", name "/Action"); (lit "S", name "/URI"); (lit "URI", OStr u)].
Definition part_ok (s : pdf) (i : nat) (p : part) (e : event) : Prop :=
  match p, e with
  | PText refs st, EText styles st' => st = st' /\ List.length refs = List.length styles /\ (fok ->
      Forall2 (fun r sty => exists f j, resolves (d_fs s) (d_proc s) (style_key sty) f j /\ f_ref f = r) refs styles)
  | PImage nm w h x y, EDraw n w' h' x' y' => (w, h, x, y) = (w', h', x', y') /\
      exists id, dget n (d_images s) = Some id /\ dget nm (xobjs_of s i) = Some (oref id)
  | _, _ => False
  end.
Definition annot_ok (s : pdf) (a : obj) (l : link * (Q * Q * rect)) : Prop :=
  let '(k, (x, y, r)) := l in
  match k with
  | LRef l => a = ODict [(lit "Type", name "/Annot"); (lit "Subtype", name "/Link"); (lit "Dest", OStr l);
                         (lit "Rect", rect_obj num round3 x y r)]
  | LUri u => exists id, dget u (d_uris s) = Some id /\
      a = ODict [(lit "Type", name "/Annot"); (lit "Subtype", name "/Link"); (lit "A", oref id); (lit "H", name "/N");
                 (lit "Rect", rect_obj num round3 x y r)]
  end.
Definition image_names (n : nat) : list str := map (fun i => lit "Im" ++ dec (N.of_nat i)) (seq 0 n).
Definition font_size (f : font) : nat := match f_kind f with FStd _ => 1 | FTT _ => 5 end.
Definition key_size (k : fkey) : nat := if is_standard (fst k) then 1 else 5.
Definition total (l : list nat) : nat := fold_right Nat.add 0%nat l.

Record inv (h : list (nat * event)) (s : pdf) : Prop := {
  i_base : base_inv s;
  i_fonts : fok -> fonts_inv (d_fs s) (d_proc s);
  i_used_static : forall k r id, kget k (d_used s) = Some (r, id) -> exists d, static s id d;
  i_used : fok -> forall k r id, kget k (d_used s) = Some (r, id) -> exists f j d, resolves (d_fs s) (d_proc s) k f j /\
             f_ref f = r /\ static s id d /\
             described num tt_descr tt_file (static s) d (f_base f) (file_kind (f_kind f));
  i_used_inj : forall k k' r r' id, kget k (d_used s) = Some (r, id) -> kget k' (d_used s) = Some (r', id) -> k = k';
  i_img : forall n id, dget n (d_images s) = Some id -> exists o, static s id o /\ first_image n h = Some o;
  i_img_none : forall n, dget n (d_images s) = None -> first_image n h = None;
  i_img_inj : forall n n' id, dget n (d_images s) = Some id -> dget n' (d_images s) = Some id -> n = n';
  i_uri : forall u id, dget u (d_uris s) = Some id -> static s id (action u);
  i_x : forall i pg, nth_error (d_pages s) i = Some pg ->
          xobjs_of s i = map (fun p => (snd p, oref (fst p))) (pp_xobjs pg) /\
          map snd (pp_xobjs pg) = image_names (List.length (pp_xobjs pg)) /\ NoDup (map fst (pp_xobjs pg));
  i_parts : forall i, Forall2 (part_ok s i) (parts_of s i) (shows (on i h));
  i_use : fok -> forall i sty, In (i, EUse sty) h -> exists r id, kget (style_key sty) (d_used s) = Some (r, id) /\
            dget r (fonts_of s i) = Some (oref id);
  i_fontres : forall i r v, dget r (fonts_of s i) = Some v ->
                exists k id, kget k (d_used s) = Some (r, id) /\ v = oref id;
  i_links : forall i, Forall2 (annot_ok s) (annots_of s i) (links (on i h));
  i_dests : forall l, match last_label l h with
                      | None => dget l (d_dests s) = None
                      | Some (i, (x, y, r)) => exists pg, nth_error (d_pages s) i = Some pg /\
                          dget l (d_dests s) = Some (dest_obj num round3 pg x y r)
                      end;
  i_dests_nodup : NoDup (keys (d_dests s));
  i_outl : fold_left (fun f o => match f with
                                 | Ok f => add_outline (fst o) (fst (snd o)) (snd (snd o)) f
                                 | Err e => Err e end) (outlines h) (Ok []) = Ok (d_outl s);
  i_sizes : map (fun pg => (pp_w pg, pp_h pg)) (d_pages s) = page_sizes h;
  i_keys : NoDup (map fst (d_used s)) /\ NoDup (keys (d_images s)) /\ NoDup (keys (d_uris s));
  i_count : fok -> List.length (d_st s) =
    (1 + 2 * List.length (d_pages s) + List.length (d_images s) + List.length (d_uris s)
     + total (map (fun u => key_size (fst u)) (d_used s)))%nat }.

Lemma part_ok_mono s s' i p e : mono s s' -> part_ok s i p e -> part_ok s' i p e.
Proof.
  intros M. destruct p, e; cbn [part_ok]; auto.
  - intros (-> & Hl & H). split; [reflexivity|]. split; [exact Hl|]. intros F. eapply Forall2_weaken; [|exact (H F)].
    intros r sty (f & j & H1 & H2). exists f, j. split; [eapply mo_res; eauto|exact H2].
  - intros [E (id & H1 & H2)]. split; [exact E|]. exists id. split; [eapply mo_images; eauto|eapply mo_xobjs; eauto].
Qed.
Lemma annot_ok_mono s s' a l : mono s s' -> annot_ok s a l -> annot_ok s' a l.
Proof.
  intros M. destruct l as [k [[x y] r]]. destruct k; cbn [annot_ok]; auto.
  intros (id & H1 & H2). exists id. split; [eapply mo_uris; eauto|exact H2].
Qed.
Lemma dest_mono h s s' : mono s s' -> inv h s -> d_dests s' = d_dests s -> forall l,
  match last_label l h with
  | None => dget l (d_dests s') = None
  | Some (i, (x, y, r)) => exists pg, nth_error (d_pages s') i = Some pg /\
      dget l (d_dests s') = Some (dest_obj num round3 pg x y r)
  end.
Proof.
  intros M I E l. rewrite E. pose proof (i_dests _ _ I l) as H. destruct (last_label l h) as [[i [[x y] r]]|]; [|exact H].
  destruct H as (pg & H1 & H2). destruct (mo_pages _ _ M _ _ H1) as (pg' & H3 & H4 & H5).
  exists pg'. split; [exact H3|]. rewrite H2. unfold dest_obj. destruct r as [[[a b] c] d]. now rewrite H4, H5.
Qed.
Lemma use_mono h s s' : mono s s' -> inv h s -> fok -> forall i sty, In (i, EUse sty) h ->
  exists r id, kget (style_key sty) (d_used s') = Some (r, id) /\ dget r (fonts_of s' i) = Some (oref id).
Proof.
  intros M I F i sty H. destruct (i_use _ _ I F _ _ H) as (r & id & H1 & H2). exists r, id.
  split; [eapply mo_used; eauto|eapply mo_fonts; eauto].
Qed.
Lemma used_static_mono h s s' : mono s s' -> inv h s -> forall k r id, kget k (d_used s) = Some (r, id) -> exists d, static s' id d.
Proof. intros M I k r id H. destruct (i_used_static _ _ I _ _ _ H) as [d Hd]. exists d. eapply mo_static; eauto. Qed.
Lemma used_mono h s s' : mono s s' -> inv h s -> fok -> forall k r id, kget k (d_used s) = Some (r, id) ->
  exists f j d, resolves (d_fs s') (d_proc s') k f j /\
             f_ref f = r /\ static s' id d /\
             described num tt_descr tt_file (static s') d (f_base f) (file_kind (f_kind f)).
Proof.
  intros M I F k r id H. destruct (i_used _ _ I F _ _ _ H) as (f & j & d & H1 & H2 & H3 & H4).
  exists f, j, d. split; [eapply mo_res; eauto|]. split; [exact H2|]. split; [eapply mo_static; eauto|].
  eapply described_mono; [|exact H4]. intros; eapply mo_static; eauto.
Qed.

(** ** Changes of the store *)
Lemma sget_app_old st ds id d : sget st id = Some d -> sget (st ++ ds) id = Some d.
Proof. intros H. destruct id as [|i]; [discriminate|]. cbn in *. rewrite nth_error_app1; [exact H|]. apply nth_error_Some. congruence. Qed.
Lemma pdict_app s ds pg : base_inv s -> In pg (d_pages s) -> pdict (with_st s (d_st s ++ ds)) pg = pdict s pg.
Proof.
  intros B H. destruct (bi_pages _ B _ H) as (_ & d & Hd & _). unfold pdict. cbn [with_st d_st].
  now rewrite (sget_app_old _ _ _ _ Hd), Hd.
Qed.

(** Everything a page shows, in terms of its record and dictionary. *)
Definition same_pages (s s' : pdf) : Prop := d_pages s' = d_pages s /\
  forall pg, In pg (d_pages s) -> pdict s' pg = pdict s pg.
Lemma same_views s s' : same_pages s s' -> forall i,
  fonts_of s' i = fonts_of s i /\ xobjs_of s' i = xobjs_of s i /\
  annots_of s' i = annots_of s i /\ parts_of s' i = parts_of s i.
Proof.
  intros [E H] i. unfold fonts_of, xobjs_of, annots_of, parts_of, page_get. rewrite E.
  destruct (nth_error (d_pages s) i) as [pg|] eqn:En; [|auto].
  apply nth_error_In in En. rewrite (H _ En). auto.
Qed.

(** Objects are appended, the pages stay: the parts of the invariant about
    pages stay. *)
Lemma grow_base s s' ds : base_inv s -> d_st s' = d_st s ++ ds -> d_pages s' = d_pages s ->
  base_inv s' /\ same_pages s s' /\ (forall id d, static s id d -> static s' id d).
Proof.
  intros B E1 E2. split; [|split].
  - destruct B as [B1 B2 B3]. constructor; rewrite ?E1, ?E2; auto.
    + now apply sget_app_old.
    + intros pg H. destruct (B3 _ H) as (H1 & d & H2 & H3). split; [exact H1|]. exists d.
      split; [now apply sget_app_old|exact H3].
  - split; [exact E2|]. intros pg H. destruct (bi_pages _ B _ H) as (_ & d & Hd & _). unfold pdict.
    now rewrite E1, (sget_app_old _ _ _ _ Hd), Hd.
  - intros id d (H1 & H2 & H3). split; [|split; [exact H2|now rewrite E2]]. rewrite E1. now apply sget_app_old.
Qed.
Lemma static_new s s' ds id d : base_inv s -> d_st s' = d_st s ++ ds -> d_pages s' = d_pages s ->
  sget (d_st s') id = Some d -> (List.length (d_st s) < id)%nat -> static s' id d.
Proof.
  intros B E1 E2 H Hlt. split; [exact H|]. pose proof (sget_some_lt _ _ _ (bi_root _ B)). split; [lia|].
  rewrite E2. intros Hin. apply in_map_iff in Hin as (pg & Hp & Hin).
  destruct (bi_pages _ B _ Hin) as (_ & d' & Hd & _). apply sget_some_lt in Hd. lia.
Qed.

(** One page's dictionary is changed. *)
Lemma nth_error_nodup {A B} (f : A -> B) l i j x y : NoDup (map f l) -> nth_error l i = Some x -> nth_error l j = Some y ->
  f x = f y -> i = j.
Proof.
  intros Hn Hi Hj E. eapply (proj1 (NoDup_nth_error (map f l)) Hn).
  - rewrite map_length. apply nth_error_Some. congruence.
  - rewrite !nth_error_map, Hi, Hj. cbn. now rewrite E.
Qed.
Lemma page_change s i pg f : base_inv s -> nth_error (d_pages s) i = Some pg ->
  (forall d, page_like d -> page_like (f d)) ->
  let s' := with_st s (supd (d_st s) (pp_id pg) f) in
  base_inv s' /\ (exists d, sget (d_st s) (pp_id pg) = Some d /\ page_like d /\ pdict s pg = d /\ pdict s' pg = f d) /\
  (forall j pg', j <> i -> nth_error (d_pages s) j = Some pg' -> pdict s' pg' = pdict s pg') /\
  (forall id d, static s id d -> static s' id d).
Proof.
  intros B Hi Hf. cbv zeta. pose proof (nth_error_In _ _ Hi) as Hin.
  destruct (bi_pages _ B _ Hin) as (N1 & d & Hd & Hl). split; [|split; [|split]].
  - destruct B as [B1 B2 B3]. constructor; cbn [with_st d_st d_pages]; auto.
    + now rewrite supd_other.
    + intros pg' H. destruct (B3 _ H) as (H1 & d' & H2 & H3). split; [exact H1|].
      destruct (Nat.eq_dec (pp_id pg) (pp_id pg')) as [E|E].
      * rewrite <- E in *. exists (f d). split; [now apply supd_same|auto].
      * exists d'. split; [now rewrite supd_other|exact H3].
  - exists d. split; [exact Hd|]. split; [exact Hl|]. unfold pdict. cbn [with_st d_st]. rewrite Hd.
    now rewrite (supd_same _ _ _ _ Hd).
  - intros j pg' Hj Hn. unfold pdict. cbn [with_st d_st]. rewrite supd_other; [reflexivity|].
    intros E. apply Hj. symmetry. eapply nth_error_nodup; [apply (bi_nodup _ B)|exact Hi|exact Hn|exact E].
  - intros id d' (H1 & H2 & H3). split; [|split; [exact H2|exact H3]]. cbn [with_st d_st].
    rewrite supd_other; [exact H1|]. intros E. apply H3. rewrite <- E. now apply in_map.
Qed.
End Proofs.
