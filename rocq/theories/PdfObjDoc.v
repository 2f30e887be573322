(** What a reader finds in the written objects, in terms of the history of
    operations: core lemmas of C10-C13 and C20-C22. *)
From Coq Require Import String QArith Sorted FinFun.
From Verif Require Import Py PyStr PdfSyntax Parser StreamProofs Store PageTree NameTree OutlineTree Fonts PdfObj PdfObjSpec PdfObjFonts PdfObjProofs PdfObjSteps PdfObjRun PdfObjOut.
Open Scope N_scope.
Open Scope list_scope.

(** The look-up of a label by a reader, from the catalog. *)
Definition find_label (st : store) (fuel : nat) (l : str) : option obj :=
  match out_names st with Some (ORef z) => name_lookup fuel st (Z.to_nat z) l | _ => None end.

Section Doc.
Variable load_ttf : str -> res ttf.
Variable num : Q -> obj.
Variable round3 : Q -> Q.
Variable tt_descr : ttf -> dict.
Variable tt_file : ttf -> bytes.

(** The document [s] made by [ops] in the process [p], and the objects [st]
    written for it. *)
Definition made (p : process) (ops : list op) (s : pdf) : Prop :=
  exists s0, new_pdf load_ttf num tt_descr tt_file p = Ok s0 /\ run load_ttf num round3 tt_descr tt_file ops s0 = Ok s.
Definition written (p : process) (ops : list op) (level : Z) (s : pdf) (st : store) : Prop :=
  made p ops s /\ output_objects num level s = Ok st.

(** The destination of a place: page, left, top and zoom (pdf.py 599-604). *)
Definition place_obj (ids : list nat) (sizes : list (Q * Q)) (pl : nat * (Q * Q * rect)) : option obj :=
  let '(i, (x, y, r)) := pl in
  let '(a, b, c, d) := r in
  match nth_error ids i, nth_error sizes i with
  | Some id, Some (w, _) =>
      Some (OSeq [oref id; name "/XYZ"; num (round3 (x + a)); num (round3 (y + d));
                  num (round3 ((x + a) / w) + 1)%Q])
  | _, _ => None
  end.

Notation inv0 := (inv load_ttf num round3 tt_descr tt_file [] False).
Lemma made_inv p ops s : made p ops s -> inv0 (history ops) s.
Proof. intros (s0 & H0 & H). eapply history_inv; [| |exact H0|exact H]; intros []. Qed.


Lemma written_spec p ops level s st : written p ops level s st ->
  let h := history ops in
  inv0 h s /\ d_pages s <> [] /\
  out_pages st (map pp_id (d_pages s)) /\
  (forall i pg, nth_error (d_pages s) i = Some pg -> exists d, sget st (pp_id pg) = Some d /\
       dget (lit "MediaBox") d = Some (OSeq [OInt 0; OInt 0; num (pp_w pg); num (pp_h pg)]) /\
       (forall sub, res_of sub d = res_of sub (pdict s pg)) /\ annots d = annots (pdict s pg)) /\
  (forall id d, static s id d -> sget st id = Some d) /\
    match d_dests s with
    | [] => out_names st = None
    | _ => exists m, out_names st = Some (oref m) /\ name_tree st true m (sort_keys (d_dests s)) /\
             StronglySorted str_lt (keys (sort_keys (d_dests s)))
    end /\
    match d_outl s with
    | [] => out_outlines st = None
    | _ => exists m d lst, out_outlines st = Some (oref m) /\ sget st m = Some d /\
             dget (lit "Type") d = Some (name "/Outlines") /\
             dget (lit "Count") d = Some (OInt (visible level (d_outl s))) /\
             dget (lit "Last") d = Some (oref lst) /\
             chain st level m None (dget (lit "First") d) (d_outl s) (Some lst) (seq (S m) (size (d_outl s)))
    end.
Proof.
  intros [Hm Ho]. cbv zeta. pose proof (made_inv _ _ _ Hm) as I. split; [exact I|].
  assert (Hne : d_pages s <> []) by (intros E; unfold output_objects in Ho; rewrite E in Ho; discriminate).
  split; [exact Hne|]. destruct (output_spec load_ttf num round3 tt_descr tt_file [] False _ s level I Hne) as (st' & E & H1 & H2 & H3 & H4 & H5).
  rewrite Ho in E. injection E as <-. split; [exact H1|]. split; [|auto].
  intros i pg Hi. destruct (H2 _ _ Hi) as (d & D1 & D2 & D3 & D4 & _). eauto 8.
Qed.

(** ** Pages *)
Lemma doc_pages p ops level s st : written p ops level s st ->
  exists ids, out_pages st ids /\ NoDup ids /\
    Forall2 (fun id wh => exists d, sget st id = Some d /\
       dget (lit "MediaBox") d = Some (OSeq [OInt 0; OInt 0; num (fst wh); num (snd wh)])) ids (page_sizes (history ops)).
Proof.
  intros W. destruct (written_spec _ _ _ _ _ W) as (I & Hne & H1 & H2 & _).
  exists (map pp_id (d_pages s)). split; [exact H1|]. split; [apply I|]. rewrite <- (i_sizes _ _ _ _ _ _ _ _ _ I).
  assert (H3 : forall pg, In pg (d_pages s) -> exists d, sget st (pp_id pg) = Some d /\
       dget (lit "MediaBox") d = Some (OSeq [OInt 0; OInt 0; num (pp_w pg); num (pp_h pg)])).
  { intros pg Hin. apply In_nth_error in Hin as [i Hi]. destruct (H2 _ _ Hi) as (d & D1 & D2 & _). eauto. }
  clear - H3. induction (d_pages s) as [|pg l IH]; cbn [map]; constructor.
  - cbn [fst snd]. apply H3. now left.
  - apply IH. intros. apply H3. now right.
Qed.
Lemma doc_output p ops level s : made p ops s ->
  (page_sizes (history ops) <> [] -> exists st, output_objects num level s = Ok st) /\
  (page_sizes (history ops) = [] -> output_objects num level s = Err PyException).
Proof.
  intros Hm. pose proof (made_inv _ _ _ Hm) as I. rewrite <- (i_sizes _ _ _ _ _ _ _ _ _ I). split.
  - intros H. destruct (output_spec load_ttf num round3 tt_descr tt_file [] False _ s level I) as (st & E & _); [|eauto].
    intros E. apply H. now rewrite E.
  - intros H. apply map_eq_nil in H. unfold output_objects. now rewrite H.
Qed.

(** ** Labels *)
Lemma doc_labels p ops level s st : written p ops level s st ->
  exists ids, out_pages st ids /\
    forall l, exists n, forall fuel, (n <= fuel)%nat -> find_label st fuel l =
      match last_label l (history ops) with
      | Some pl => place_obj ids (page_sizes (history ops)) pl
      | None => None
      end.
Proof.
  intros W. destruct (written_spec _ _ _ _ _ W) as (I & Hne & H1 & _ & _ & H4 & _).
  exists (map pp_id (d_pages s)). split; [exact H1|]. intros l.
  assert (HD : match last_label l (history ops) with
      | Some pl => place_obj (map pp_id (d_pages s)) (page_sizes (history ops)) pl
      | None => None
      end = dget l (d_dests s)).
  { pose proof (i_dests _ _ _ _ _ _ _ _ _ I l) as H. destruct (last_label l (history ops)) as [[i [[x y] r]]|].
    - destruct H as (pg & Hi & ->). rewrite <- (i_sizes _ _ _ _ _ _ _ _ _ I). unfold place_obj, dest_obj.
      destruct r as [[[a b] c] d]. rewrite !nth_error_map, Hi. reflexivity.
    - now rewrite H. }
  rewrite HD. unfold find_label. destruct (d_dests s) as [|kv ds] eqn:Ed.
  - exists O. intros fuel _. now rewrite H4.
  - destruct H4 as (m & M1 & M2 & M3). destruct (name_lookup_spec _ _ _ _ l M2 M3) as [n Hn]. exists n.
    intros fuel Hf. rewrite M1. unfold oref. rewrite Nat2Z.id, (Hn fuel Hf).
    pose proof (i_dests_nodup _ _ _ _ _ _ _ _ _ I) as Hnd. rewrite Ed in Hnd.
    destruct (sort_keys_spec (kv :: ds) Hnd) as (S1 & S2 & S3 & S4). apply S2.
Qed.

(** ** Outlines *)
Lemma outlines_fold_err l e : fold_left (fun f (o : Z * (str * str)) => match f with
                                 | Ok f => add_outline (fst o) (fst (snd o)) (snd (snd o)) f
                                 | Err e => Err e end) l (Err e) = Err e.
Proof. induction l; cbn; auto. Qed.
Lemma outlines_fold_preorder l : forall f f', fold_left (fun f (o : Z * (str * str)) => match f with
                                 | Ok f => add_outline (fst o) (fst (snd o)) (snd (snd o)) f
                                 | Err e => Err e end) l (Ok f) = Ok f' ->
  preorder 1 f' = preorder 1 f ++ map (fun o => (Z.to_nat (Z.max 1 (fst o)), snd o)) l.
Proof.
  induction l as [|[lv [t lb]] l IH]; intros f f'; cbn [fold_left map fst snd].
  - intros [= <-]. now rewrite app_nil_r.
  - destruct (add_outline_spec lv t lb f) as [(H & _)|(f1 & H & _ & H2)]; rewrite H; [now rewrite outlines_fold_err|].
    intros E. rewrite (IH _ _ E), H2, <- app_assoc. reflexivity.
Qed.

Lemma doc_outlines p ops level s st : written p ops level s st ->
  exists forest,
    preorder 1 forest = map (fun o => (Z.to_nat (Z.max 1 (fst o)), snd o)) (outlines (history ops)) /\
    (forest = [] -> out_outlines st = None) /\
    (forest <> [] -> exists m d lst, out_outlines st = Some (oref m) /\ sget st m = Some d /\
             dget (lit "Type") d = Some (name "/Outlines") /\
             dget (lit "Count") d = Some (OInt (visible level forest)) /\
             dget (lit "Last") d = Some (oref lst) /\
             chain st level m None (dget (lit "First") d) forest (Some lst) (seq (S m) (size forest))).
Proof.
  intros W. destruct (written_spec _ _ _ _ _ W) as (I & Hne & _ & _ & _ & _ & H5).
  exists (d_outl s). split; [|split].
  - rewrite (outlines_fold_preorder _ _ _ (i_outl _ _ _ _ _ _ _ _ _ I)). reflexivity.
  - intros E. now rewrite E in H5.
  - intros Hn. destruct (d_outl s); [congruence|exact H5].
Qed.

(** ** Images *)
Definition draw_ok (st : store) (h : list (nat * event)) (obj_of : str -> option nat) (pid : nat) (p : part) (e : event) : Prop :=
  match p, e with
  | PImage nm w ht x y, EDraw n w' ht' x' y' => (w, ht, x, y) = (w', ht', x', y') /\
      exists id o, obj_of n = Some id /\ dget nm (res_of (lit "XObject") (odict st pid)) = Some (oref id) /\
        first_image n h = Some o /\ sget st id = Some o
  | PText _ s, EText _ s' => s = s'
  | _, _ => False
  end.
Lemma doc_images_at p ops level s st : written p ops level s st ->
  let ids := map pp_id (d_pages s) in let obj_of n := dget n (d_images s) in
  out_pages st ids /\
    (forall n n' id, obj_of n = Some id -> obj_of n' = Some id -> n = n') /\
    forall i pid, nth_error ids i = Some pid ->
      NoDup (keys (res_of (lit "XObject") (odict st pid))) /\
      NoDup (map snd (res_of (lit "XObject") (odict st pid))) /\
      Forall2 (draw_ok st (history ops) obj_of pid) (parts_of s i) (shows (on i (history ops))).
Proof.
  intros W. destruct (written_spec _ _ _ _ _ W) as (I & Hne & H1 & H2 & H3 & _).
  cbv zeta. split; [exact H1|]. split; [apply I|].
  intros i pid Hp. rewrite nth_error_map in Hp. destruct (nth_error (d_pages s) i) as [pg|] eqn:Hi; [|discriminate].
  cbn in Hp. injection Hp as <-. destruct (H2 _ _ Hi) as (d & D1 & D2 & D3 & D4).
  assert (Hx : res_of (lit "XObject") (odict st (pp_id pg)) = xobjs_of s i).
  { unfold odict. rewrite D1, D3. unfold xobjs_of, page_get. now rewrite Hi. }
  destruct (i_x _ _ _ _ _ _ _ _ _ I _ _ Hi) as (X1 & X2 & X3). split; [|split].
  - rewrite Hx, X1. unfold keys. rewrite map_map. cbn [fst]. change (NoDup (map snd (pp_xobjs pg))). rewrite X2. apply image_names_nodup.
  - rewrite Hx, X1, map_map. cbn [snd]. rewrite <- (map_map fst oref). apply Injective_map_NoDup; [|exact X3].
    intros a b. unfold oref. intros [= E]. lia.
  - eapply Forall2_weaken; [|apply (i_parts _ _ _ _ _ _ _ _ _ I i)]. intros [refs sm|nm w ht x y] e; destruct e; cbn [part_ok draw_ok]; try tauto.
    intros [E (id & E1 & E2)]. split; [exact E|]. destruct (i_img _ _ _ _ _ _ _ _ _ I _ _ E1) as (o & O1 & O2).
    exists id, o. rewrite Hx. auto.
Qed.
Lemma doc_images p ops level s st : written p ops level s st ->
  exists ids obj_of, out_pages st ids /\
    (forall n n' id, obj_of n = Some id -> obj_of n' = Some id -> n = n') /\
    forall i pid, nth_error ids i = Some pid ->
      NoDup (keys (res_of (lit "XObject") (odict st pid))) /\
      NoDup (map snd (res_of (lit "XObject") (odict st pid))) /\
      Forall2 (draw_ok st (history ops) obj_of pid) (parts_of s i) (shows (on i (history ops))).
Proof.
  intros W. exists (map pp_id (d_pages s)), (fun n => dget n (d_images s)). exact (doc_images_at _ _ _ _ _ W).
Qed.

(** ** Links *)
Definition link_ok (st : store) (action_of : str -> option nat) (a : obj) (l : link * (Q * Q * rect)) : Prop :=
  let '(k, (x, y, (x0, y0, x1, y1))) := l in
  let box := OSeq [num (round3 (x + x0)); num (round3 (y + y0)); num (round3 (x + x1)); num (round3 (y + y1))] in
  match k with
  | LRef l => a = ODict [(lit "Type", name "/Annot"); (lit "Subtype", name "/Link"); (lit "Dest", OStr l); (lit "Rect", box)]
  | LUri u => exists id, action_of u = Some id /\
      sget st id = Some [(lit "Type", name "/Action"); (lit "S", name "/URI"); (lit "URI", OStr u)] /\
      a = ODict [(lit "Type", name "/Annot"); (lit "Subtype", name "/Link"); (lit "A", oref id); (lit "H", name "/N"); (lit "Rect", box)]
  end.
Lemma doc_links_at p ops level s st : written p ops level s st ->
  let ids := map pp_id (d_pages s) in let action_of n := dget n (d_uris s) in
  out_pages st ids /\
    forall i pid, nth_error ids i = Some pid ->
      Forall2 (link_ok st action_of) (annots (odict st pid)) (links (on i (history ops))).
Proof.
  intros W. destruct (written_spec _ _ _ _ _ W) as (I & Hne & H1 & H2 & H3 & _).
  cbv zeta. split; [exact H1|].
  intros i pid Hp. rewrite nth_error_map in Hp. destruct (nth_error (d_pages s) i) as [pg|] eqn:Hi; [|discriminate].
  cbn in Hp. injection Hp as <-. destruct (H2 _ _ Hi) as (d & D1 & D2 & D3 & D4).
  replace (annots (odict st (pp_id pg))) with (annots_of s i).
  2:{ unfold odict, annots_of, page_get. now rewrite D1, D4, Hi. }
  eapply Forall2_weaken; [|apply (i_links _ _ _ _ _ _ _ _ _ I i)]. intros a [k [[x y] [[[x0 y0] x1] y1]]].
  destruct k; cbn [annot_ok link_ok rect_obj]; [auto|]. intros (id & E1 & E2). exists id. split; [exact E1|]. split; [|exact E2].
  apply H3. exact (i_uri _ _ _ _ _ _ _ _ _ I _ _ E1).
Qed.
Lemma doc_links p ops level s st : written p ops level s st ->
  exists ids action_of, out_pages st ids /\
    forall i pid, nth_error ids i = Some pid ->
      Forall2 (link_ok st action_of) (annots (odict st pid)) (links (on i (history ops))).
Proof.
  intros W. exists (map pp_id (d_pages s)), (fun n => dget n (d_uris s)). exact (doc_links_at _ _ _ _ _ W).
Qed.

(** ** Fonts *)
Lemma in_events_text cur n ops i styles st sty : In (i, EText styles st) (events cur n ops) -> In sty styles ->
  In (i, EUse sty) (events cur n ops).
Proof.
  intros H Hs. revert cur n H. induction ops as [|o ops IH]; intros cur n; [tauto|].
  destruct o; cbn [events].
  - intros [H|H]; [discriminate|]. right. auto.
  - auto.
  - rewrite !in_app_iff. intros [H|H]; [left|right; auto]. destruct cur as [c|]; [|destruct H].
    apply in_map_iff in H as (e & E & H). injection E as -> ->. apply in_map_iff. exists (EUse sty). split; [reflexivity|].
    unfold text_events in *. destruct H as [H|H].
    + injection H as H1 H2. right. apply in_or_app. left. apply in_map. now rewrite H1.
    + apply in_app_iff in H as [H|H]; [apply in_map_iff in H as (? & H & _); discriminate|].
      apply in_flat_map in H as ([k rs] & _ & H). cbn [fst snd] in H. destruct rs as [|r rs]; [destruct H|].
      destruct k; cbn [id_events] in H.
      * destruct H as [H|[]]; discriminate.
      * apply in_map_iff in H as (? & H & _); discriminate.
      * apply in_map_iff in H as (? & H & _); discriminate.
      * destruct H as [H|[]]; discriminate.
  - rewrite !in_app_iff. intros [H|H]; [left|right; auto]. destruct cur as [c|]; [|destruct H].
    destruct H as [H|[H|[]]]; discriminate.
  - auto.
Qed.

Definition text_ok (st : store) (reg : list (fkey * str)) (font_of : fkey -> option (str * nat)) (pid : nat) (p : part) (e : event) : Prop :=
  match p, e with
  | PText refs _, EText styles _ =>
      Forall2 (fun r sty => exists id d base t, font_of (style_key sty) = Some (r, id) /\
        dget r (res_of (lit "Font") (odict st pid)) = Some (oref id) /\
        sget st id = Some d /\ wanted_base load_ttf reg (style_key sty) base t /\
        described num tt_descr tt_file (fun id e => sget st id = Some e) d base t) refs styles
  | PImage _ _ _ _ _, EDraw _ _ _ _ _ => True
  | _, _ => False
  end.
Lemma doc_fonts_at reg ops level s st : Forall no_add_font ops -> written (mkProc reg []) ops level s st ->
  let ids := map pp_id (d_pages s) in let font_of k := kget k (d_used s) in
  out_pages st ids /\
    (forall k k' r id r' id', font_of k = Some (r, id) -> font_of k' = Some (r', id') -> r = r' \/ id = id' -> k = k') /\
    forall i pid, nth_error ids i = Some pid ->
      Forall2 (text_ok st reg font_of pid) (parts_of s i) (shows (on i (history ops))).
Proof.
  intros Hf W. destruct (written_spec _ _ _ _ _ W) as (_ & Hne & H1 & H2 & H3 & _).
  destruct W as [(s0 & W0 & W1) _].
  assert (I : inv load_ttf num round3 tt_descr tt_file reg True (history ops) s).
  { eapply history_inv; [| |exact W0|exact W1]; auto. }
  cbv zeta. split; [exact H1|]. split.
  { intros k k' r id r' id' E1 E2 [<-|<-].
    - exact (proj1 (ref_key _ _ _ _ _ _ _ _ _ _ _ _ _ _ I Logic.I E1 E2)).
    - exact (i_used_inj _ _ _ _ _ _ _ _ _ I _ _ _ _ _ E1 E2). }
  intros i pid Hp. rewrite nth_error_map in Hp. destruct (nth_error (d_pages s) i) as [pg|] eqn:Hi; [|discriminate].
  cbn in Hp. injection Hp as <-. destruct (H2 _ _ Hi) as (d & D1 & D2 & D3 & D4).
  assert (Hx : res_of (lit "Font") (odict st (pp_id pg)) = fonts_of s i).
  { unfold odict. rewrite D1, D3. unfold fonts_of, page_get. now rewrite Hi. }
  assert (Hall : forall e, In e (shows (on i (history ops))) -> In (i, e) (history ops)).
  { intros e He. apply filter_In in He as [He _]. unfold on in He. apply in_map_iff in He as ([j e'] & E & He).
    apply filter_In in He as [He Ej]. cbn in *. apply Nat.eqb_eq in Ej. now subst. }
  pose proof (i_parts _ _ _ _ _ _ _ _ _ I i) as HP. revert Hall HP. generalize (shows (on i (history ops))) as es, (parts_of s i) as ps.
  intros es ps Hall HP. induction HP as [|pt e ps es Hpt HP IH]; constructor; [|apply IH; intros; apply Hall; now right].
  specialize (Hall e (or_introl eq_refl)). destruct pt as [refs sm|nm w ht x y], e; cbn [part_ok text_ok] in *; try tauto.
  destruct Hpt as (_ & _ & Hpt). specialize (Hpt Logic.I).
  assert (Hu : forall sty, In sty styles -> In (i, EUse sty) (history ops)) by (intros sty; eapply in_events_text; exact Hall).
  clear Hall. induction Hpt as [|r sty refs styles Hr Hpt IH2]; constructor; [|apply IH2; intros; apply Hu; now right].
  destruct Hr as (f & j & R & <-). destruct (i_use _ _ _ _ _ _ _ _ _ I Logic.I _ _ (Hu sty (or_introl eq_refl))) as (r & id & U1 & U2).
  destruct (i_used _ _ _ _ _ _ _ _ _ I Logic.I _ _ _ U1) as (f' & j' & d' & R' & E & Hst & T1).
  assert (f' = f).
  { destruct R as (_ & (m & M1 & M2) & _), R' as (_ & (m' & M1' & M2') & _). congruence. }
  subst f'. exists id, d', (f_base f), (file_kind (f_kind f)). rewrite Hx, E. split; [exact U1|]. split; [exact U2|].
  split; [auto|]. split; [eapply resolves_wanted, R|]. eapply described_mono; [|exact T1]. exact H3.
Qed.
Lemma doc_fonts reg ops level s st : Forall no_add_font ops -> written (mkProc reg []) ops level s st ->
  exists ids font_of, out_pages st ids /\
    (forall k k' r id r' id', font_of k = Some (r, id) -> font_of k' = Some (r', id') -> r = r' \/ id = id' -> k = k') /\
    forall i pid, nth_error ids i = Some pid ->
      Forall2 (text_ok st reg font_of pid) (parts_of s i) (shows (on i (history ops))).
Proof.
  intros Hf W. exists (map pp_id (d_pages s)), (fun k => kget k (d_used s)). exact (doc_fonts_at _ _ _ _ _ Hf W).
Qed.
End Doc.
