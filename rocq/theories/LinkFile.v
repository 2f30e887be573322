(** Specification of C87, and the links of the paragraphs of a page. *)
From Coq Require Import String QArith Lia List Permutation.
From Verif Require Import Py PyStr PdfSyntax Parser Denote StreamProofs Gfx TextLayout TextProofs TextOrder TextPaint PText PText2 Alone PageText PPageText WholeFile Links.
From Verif Require PdfObj PdfObjSpec PdfObjProofs PdfObjRun PdfReader FileSpec Whole WholeProofs WholeMade.
Import ListNotations.
Open Scope N_scope.
Open Scope list_scope.

(** ** Specification *)

(** What follows a prefix. *)
Fixpoint after (p s : str) : option str :=
  match p, s with
  | [], _ => Some s
  | a :: p, b :: s => if a =? b then after p s else None
  | _ :: _, [] => None
  end.
(** The link that an id stands for: to a label, or to an address. *)
Definition link_of (id : str) : option PdfObjSpec.link :=
  match after (lit "$ref:") id, after (lit "$uri:") id with
  | Some l, _ => Some (PdfObjSpec.LRef l)
  | _, Some u => Some (PdfObjSpec.LUri u)
  | _, _ => None
  end.

Section Spec.
Variable round3 : Q -> Q.
Variable text_w : fkey -> str -> Q.
Variable space_w : fkey -> Q.
(** The parts of a paragraph that show something, where they lie in it, with
    the place of the paragraph. *)
Definition par_spots (it : Whole.drawn) : list (Q * Q * spot) :=
  match it with
  | Whole.DPar c x y d => map (fun s => (x, y, s)) (line_spots text_w space_w c [] (combine (d_lines d) (d_marks d)))
  | _ => []
  end.
(** The parts with a link, for each link. *)
Definition spot_links (p : Q * Q * spot) : list (PdfObjSpec.link * (Q * Q * spot)) :=
  flat_map (fun id => match link_of id with Some k => [(k, p)] | None => [] end) (lp_ids (sp_of (snd p))).
Definition wanted_links (its : list Whole.drawn) : list (PdfObjSpec.link * (Q * Q * spot)) :=
  flat_map (fun it => flat_map spot_links (par_spots it)) its.
(** The annotation [a] of the file is the link, and its area is that of the
    part. *)
Definition covers (num : Q -> obj) (file : bytes) (w : PdfObjSpec.link * (Q * Q * spot)) (a : pval) : Prop :=
  let '(k, (x, y, s)) := w in exists r, is_box round3 s r /\ FileSpec.link_at num round3 file a (k, (x, y, r)).
(** The first part of a paragraph with the label [l]. *)
Definition label_spot (l : str) (it : Whole.drawn) : option (Q * Q * spot) :=
  find (fun p => existsb (str_eqb (lit "$label:" ++ l)) (lp_ids (sp_of (snd p)))) (par_spots it).

(** The thing [p] is put on the current page by the operation [o]: a
    paragraph with the text of its operators, its fonts and its ids; graphics
    with the text of their operators; an image. *)
Variable loads : str -> res (Z * str * str).
Definition adds (p : piece) (o : PdfObj.op) : Prop :=
  match p, o with
  | Paragraph x y d, PdfObj.OpText t =>
      PdfObj.tx_x t = x /\ PdfObj.tx_y t = y /\ paragraph_ids loads d = Ok (PdfObj.tx_ids t) /\
      (exists ops, piece_ops round3 p = Ok ops /\ writes_all (fun _ => False) ops (PdfObj.tx_stream t)) /\
      forall k, In k (d_used d) -> exists sty, In sty (PdfObj.tx_styles t) /\ PdfObjSpec.style_key sty = k
  | Graphics _, PdfObj.OpText t =>
      PdfObj.tx_ids t = [] /\ exists ops, piece_ops round3 p = Ok ops /\ writes_all (fun _ => False) ops (PdfObj.tx_stream t)
  | Picture nm w h x y, PdfObj.OpImage nm' _ w' h' x' y' => nm = nm' /\ w = w' /\ h = h' /\ x = x' /\ y = y'
  | _, _ => False
  end.
End Spec.

(** The texts and images that operations put on page [i]: [cur] is the
    current page and [n] the number of pages. *)
Fixpoint ops_from (cur : option nat) (n i : nat) (ops : list PdfObj.op) : list PdfObj.op :=
  let here o := match cur with Some j => if (j =? i)%nat then [o] else [] | None => [] end in
  match ops with
  | [] => []
  | PdfObj.OpPage w h :: r => ops_from (Some n) (S n) i r
  | PdfObj.OpSelect j :: r => ops_from (Some j) n i r
  | PdfObj.OpText t :: r => here (PdfObj.OpText t) ++ ops_from cur n i r
  | PdfObj.OpImage nm o w h x y :: r => here (PdfObj.OpImage nm o w h x y) ++ ops_from cur n i r
  | PdfObj.OpAddFont _ _ :: r => ops_from cur n i r
  end.
Definition ops_on (i : nat) (ops : list PdfObj.op) : list PdfObj.op := ops_from None 0 i ops.

(** ** Operations and events *)
Definition op_events (o : PdfObj.op) : list PdfObjSpec.event :=
  match o with
  | PdfObj.OpText t => PdfObjSpec.text_events t
  | PdfObj.OpImage nm o w h x y => [PdfObjSpec.EImage nm o; PdfObjSpec.EDraw nm w h x y]
  | _ => []
  end.
Definition not_page (e : PdfObjSpec.event) : bool := match e with PdfObjSpec.EPage _ _ => false | _ => true end.
Lemma on_app i a b : PdfObjSpec.on i (a ++ b) = PdfObjSpec.on i a ++ PdfObjSpec.on i b.
Proof. unfold PdfObjSpec.on. now rewrite filter_app, map_app. Qed.
Lemma on_here i j es : PdfObjSpec.on i (map (pair j) es) = if (j =? i)%nat then es else [].
Proof.
  unfold PdfObjSpec.on. induction es as [|e es IH]; cbn [map filter fst]; [now destruct (j =? i)%nat|]. destruct (j =? i)%nat; [cbn [map snd]; now f_equal|exact IH].
Qed.
Lemma filter_all {A} (f : A -> bool) l : (forall x, In x l -> f x = true) -> filter f l = l.
Proof. induction l as [|a l IH]; intros H; [reflexivity|]. cbn [filter]. rewrite (H a (or_introl eq_refl)). f_equal. apply IH. intros x Hx. apply H. now right. Qed.
Lemma filter_none {A} (f : A -> bool) l : (forall x, In x l -> f x = false) -> filter f l = [].
Proof. induction l as [|a l IH]; intros H; [reflexivity|]. cbn [filter]. rewrite (H a (or_introl eq_refl)). apply IH. intros x Hx. apply H. now right. Qed.
Lemma id_event x y k rs e : In e (PdfObjSpec.id_events x y k rs) ->
  match e with PdfObjSpec.ELabel _ _ _ _ | PdfObjSpec.ELink _ _ _ _ | PdfObjSpec.EOutline _ _ _ => True | _ => False end.
Proof.
  destruct rs as [|r rs]; [intros []|]. destruct k; cbn [PdfObjSpec.id_events]; intros H; try (apply in_map_iff in H as (q & <- & _); exact I); destruct H as [<-|[]]; exact I.
Qed.
Lemma text_event t e : In e (map PdfObjSpec.EUse (PdfObj.tx_styles t) ++ flat_map (fun kr => PdfObjSpec.id_events (PdfObj.tx_x t) (PdfObj.tx_y t) (fst kr) (snd kr)) (PdfObj.tx_ids t)) ->
  match e with PdfObjSpec.EUse _ | PdfObjSpec.ELabel _ _ _ _ | PdfObjSpec.ELink _ _ _ _ | PdfObjSpec.EOutline _ _ _ => True | _ => False end.
Proof.
  intros H. apply in_app_or in H as [H|H]; [apply in_map_iff in H as (q & <- & _); exact I|]. apply in_flat_map in H as (k & _ & H). apply id_event in H. destruct e; tauto.
Qed.
Lemma text_events_pages t : filter not_page (PdfObjSpec.text_events t) = PdfObjSpec.text_events t.
Proof. unfold PdfObjSpec.text_events. cbn [filter not_page]. f_equal. apply filter_all. intros e He. apply text_event in He. destruct e; tauto. Qed.
Lemma on_ops i : forall ops cur n, filter not_page (PdfObjSpec.on i (PdfObjSpec.events cur n ops)) = flat_map op_events (ops_from cur n i ops).
Proof.
  induction ops as [|o ops IH]; intros cur n; [reflexivity|]. destruct o as [w h|j|t|nm o w h x y|path k]; cbn [PdfObjSpec.events ops_from].
  - change ((n, PdfObjSpec.EPage w h) :: PdfObjSpec.events (Some n) (S n) ops) with (map (pair n) [PdfObjSpec.EPage w h] ++ PdfObjSpec.events (Some n) (S n) ops).
    rewrite on_app, on_here, filter_app, IH. destruct (n =? i)%nat; reflexivity.
  - apply IH.
  - rewrite on_app, filter_app, IH, flat_map_app. f_equal. destruct cur as [j|]; [|reflexivity]. rewrite on_here. destruct (j =? i)%nat; [|reflexivity].
    cbn [flat_map op_events]. rewrite app_nil_r. apply text_events_pages.
  - rewrite on_app, filter_app, IH, flat_map_app. f_equal. destruct cur as [j|]; [|reflexivity]. rewrite on_here. destruct (j =? i)%nat; reflexivity.
  - apply IH.
Qed.
Lemma shows_pages es : PdfObjSpec.shows (filter not_page es) = PdfObjSpec.shows es.
Proof. unfold PdfObjSpec.shows. induction es as [|e es IH]; [reflexivity|]. destruct e; cbn [filter not_page]; now rewrite ?IH. Qed.
Lemma links_pages es : PdfObjSpec.links (filter not_page es) = PdfObjSpec.links es.
Proof. unfold PdfObjSpec.links. induction es as [|e es IH]; [reflexivity|]. destruct e; cbn [filter not_page flat_map app]; now rewrite ?IH. Qed.
Lemma shows_text t : PdfObjSpec.shows (PdfObjSpec.text_events t) = [PdfObjSpec.EText (PdfObj.tx_styles t) (PdfObj.tx_stream t)].
Proof. unfold PdfObjSpec.shows, PdfObjSpec.text_events. cbn [filter]. f_equal. apply filter_none. intros e He. apply text_event in He. destruct e; tauto. Qed.
Lemma shows_app a b : PdfObjSpec.shows (a ++ b) = PdfObjSpec.shows a ++ PdfObjSpec.shows b.
Proof. apply filter_app. Qed.
Lemma links_app a b : PdfObjSpec.links (a ++ b) = PdfObjSpec.links a ++ PdfObjSpec.links b.
Proof. apply flat_map_app. Qed.

Section Page.
Variable round3 : Q -> Q.
Variable loads : str -> res (Z * str * str).
Notation adds := (adds round3 loads).
Lemma adds_put ps os : Forall2 adds ps os -> Forall2 (put round3) ps (PdfObjSpec.shows (flat_map op_events os)).
Proof.
  induction 1 as [|p o ps os H _ IH]; [constructor|]. cbn [flat_map]. rewrite shows_app. change (p :: ps) with ([p] ++ ps). apply Forall2_app; [|exact IH].
  destruct p as [x y d|l|nm w h x y], o as [| |t|nm' ob w' h' x' y'|]; cbn [LinkFile.adds] in H; try contradiction; cbn [op_events]; rewrite ?shows_text;
    (constructor; [|constructor]); cbn [put]; tauto.
Qed.
Lemma put_on i ops ps : Forall2 adds ps (ops_on i ops) -> Forall2 (put round3) ps (PdfObjSpec.shows (PdfObjSpec.on i (PdfObjSpec.history ops))).
Proof. intros H. rewrite <- shows_pages. unfold PdfObjSpec.history. rewrite on_ops. exact (adds_put _ _ H). Qed.

(** ** Ids *)
Definition flat (g : list (str * list PdfObj.rect)) : list (str * PdfObj.rect) := flat_map (fun kr => map (pair (fst kr)) (snd kr)) g.
Definition grow (g : list (str * list PdfObj.rect)) (ir : str * PdfObj.rect) := dset (fst ir) (match dget (fst ir) g with Some rs => rs | None => [] end ++ [snd ir]) g.
Lemma grow_flat g ir : Permutation (flat (grow g ir)) (flat g ++ [ir]).
Proof.
  destruct ir as [k r]. unfold grow. cbn [fst snd]. induction g as [|[k' rs] g IH]; cbn [dget dset]; [reflexivity|]. destruct (str_eqb k k') eqn:E.
  - apply str_eqb_eq in E. subst k'. unfold flat. cbn [flat_map fst snd]. rewrite map_app, <- !app_assoc. apply Permutation_app_head. apply Permutation_app_comm.
  - unfold flat in *. cbn [flat_map fst snd]. rewrite <- app_assoc. apply Permutation_app_head. exact IH.
Qed.
Lemma ids_dict_snoc l a : ids_dict (l ++ [a]) = grow (ids_dict l) a.
Proof. unfold ids_dict. rewrite fold_left_app. reflexivity. Qed.
Lemma ids_dict_perm l : Permutation (flat (ids_dict l)) l.
Proof.
  induction l as [|a l IH] using rev_ind; [reflexivity|]. rewrite ids_dict_snoc. rewrite grow_flat. apply Permutation_app_tail. exact IH.
Qed.
Definition rects_of (k : str) (l : list (str * PdfObj.rect)) : list PdfObj.rect := map snd (filter (fun ir => str_eqb k (fst ir)) l).
Lemma rects_snoc k l k0 r0 : rects_of k (l ++ [(k0, r0)]) = rects_of k l ++ if str_eqb k k0 then [r0] else [].
Proof. unfold rects_of. rewrite filter_app, map_app. cbn [filter fst]. now destruct (str_eqb k k0). Qed.
Lemma ids_dict_get l : NoDup (keys (ids_dict l)) /\ forall k, dget k (ids_dict l) = match rects_of k l with [] => None | rs => Some rs end.
Proof.
  induction l as [|[k0 r0] l [IH1 IH2]] using rev_ind; [split; [constructor|reflexivity]|]. rewrite ids_dict_snoc. unfold grow. cbn [fst snd]. split; [apply nodup_dset, IH1|].
  intros k. rewrite rects_snoc. destruct (str_eqb k k0) eqn:E.
  - apply str_eqb_eq in E. subst k0. rewrite dget_dset_same, IH2. destruct (rects_of k l); reflexivity.
  - apply str_eqb_neq in E. rewrite dget_dset_other by exact E. rewrite IH2. now rewrite app_nil_r.
Qed.

Lemma after_spec p : forall s, after p s = if startswith p s then Some (skipn (List.length p) s) else None.
Proof.
  unfold startswith. induction p as [|a p IH]; intros s; [reflexivity|]. destruct s as [|b s]; [reflexivity|]. cbn [after List.length firstn skipn]. rewrite IH.
  cbn [str_eqb]. rewrite N.eqb_sym. destruct (b =? a); reflexivity.
Qed.
Definition links_of (x y : Q) (k : PdfObj.idk * list PdfObj.rect) : list (PdfObjSpec.link * (Q * Q * PdfObj.rect)) := PdfObjSpec.links (PdfObjSpec.id_events x y (fst k) (snd k)).
Lemma map_links k x y rs : PdfObjSpec.links (map (PdfObjSpec.ELink k x y) rs) = map (fun r => (k, (x, y, r))) rs.
Proof. induction rs as [|r rs IH]; [reflexivity|]. cbn [map]. unfold PdfObjSpec.links in *. cbn [flat_map app]. now f_equal. Qed.
Lemma kind_links x y id k rs : id_kind loads id = Ok k ->
  flat_map (links_of x y) (match k with Some k => [(k, rs)] | None => [] end) = match link_of id with Some k => map (fun r => (k, (x, y, r))) rs | None => [] end.
Proof.
  unfold id_kind, link_of. rewrite !after_spec. intros H.
  assert (L : startswith (lit "$label:") id = true -> startswith (lit "$ref:") id = false /\ startswith (lit "$uri:") id = false).
  { intros E. apply str_eqb_eq in E. assert (X : id = lit "$label:" ++ skipn 7 id) by (rewrite <- (firstn_skipn 7 id) at 1; now f_equal). rewrite X. split; reflexivity. }
  destruct (startswith (lit "$label:") id) eqn:E1.
  - injection H as <-. destruct (L eq_refl) as [-> ->]. unfold links_of. cbn [flat_map fst snd app]. destruct rs; reflexivity.
  - destruct (startswith (lit "$ref:") id) eqn:E2.
    + injection H as <-. unfold links_of. cbn [flat_map fst snd app]. rewrite app_nil_r. change (List.length (lit "$ref:")) with 5%nat. destruct rs as [|r rs]; [reflexivity|]. apply map_links.
    + destruct (startswith (lit "$uri:") id) eqn:E3.
      * injection H as <-. unfold links_of. cbn [flat_map fst snd app]. rewrite app_nil_r. change (List.length (lit "$uri:")) with 5%nat. destruct rs as [|r rs]; [reflexivity|]. apply map_links.
      * destruct (startswith (lit "$outline:") id).
        -- destruct (loads (skipn 9 id)) as [[[lv t] l]|]; [|discriminate]. cbn [bind] in H. injection H as <-. unfold links_of. cbn [flat_map fst snd app]. destruct rs; reflexivity.
        -- injection H as <-. reflexivity.
Qed.
Definition pair_link (x y : Q) (ir : str * PdfObj.rect) : list (PdfObjSpec.link * (Q * Q * PdfObj.rect)) :=
  match link_of (fst ir) with Some k => [(k, (x, y, snd ir))] | None => [] end.
Lemma kinds_links x y : forall g ks, id_kinds loads g = Ok ks -> flat_map (links_of x y) ks = flat_map (pair_link x y) (flat g).
Proof.
  induction g as [|[id rs] g IH]; intros ks; cbn [id_kinds]; [intros H; injection H as <-; reflexivity|].
  destruct (id_kind loads id) as [k|] eqn:Ek; [|discriminate]. cbn [bind]. destruct (id_kinds loads g) as [ks'|] eqn:Eg; [|discriminate]. cbn [bind]. intros H. injection H as <-.
  rewrite flat_map_app, (kind_links x y id k rs Ek), (IH _ eq_refl). unfold flat. cbn [flat_map fst snd]. rewrite flat_map_app. f_equal.
  unfold pair_link. clear. induction rs as [|r rs IH]; cbn [map flat_map fst snd]; destruct (link_of id); try reflexivity; [cbn [app]; now f_equal|exact IH].
Qed.
Lemma text_links t : PdfObjSpec.links (PdfObjSpec.text_events t) = flat_map (links_of (PdfObj.tx_x t) (PdfObj.tx_y t)) (PdfObj.tx_ids t).
Proof.
  unfold PdfObjSpec.text_events, PdfObjSpec.links. cbn [flat_map]. rewrite flat_map_app. cbn [app].
  assert (A : forall l, flat_map (fun e => match e with PdfObjSpec.ELink k x y r => [(k, (x, y, r))] | _ => [] end) (map PdfObjSpec.EUse l) = []) by (induction l as [|a l IH]; [reflexivity|exact IH]).
  rewrite A. cbn [app]. induction (PdfObj.tx_ids t) as [|k l IH]; [reflexivity|]. cbn [flat_map]. rewrite flat_map_app, IH. reflexivity.
Qed.

(** ** The links of a page *)
Variable text_w : fkey -> str -> Q.
Variable space_w : fkey -> Q.
Variable fref : fkey -> str.
Hypothesis round3_proper : forall x y, (x == y)%Q -> (round3 x == round3 y)%Q.
Definition boxed (w : PdfObjSpec.link * (Q * Q * spot)) (l : PdfObjSpec.link * (Q * Q * PdfObj.rect)) : Prop :=
  let '(k, (x, y, s)) := w in let '(k', (x', y', r)) := l in k = k' /\ x = x' /\ y = y' /\ is_box round3 s r.
Lemma made_ids c x y d : WholeMade.made round3 text_w space_w fref (Whole.DPar c x y d) -> c_list c = None ->
  Forall2 (box_of round3) (wanted_boxes (line_spots text_w space_w c [] (combine (d_lines d) (d_marks d)))) (e_ids (d_em d)).
Proof.
  intros (ds & d0 & w & h & Hb & E) Hl.
  destruct (C59_marks_at_text round3 text_w space_w fref round3_proper c ds d0 w h d page_reader Hl Hb eq_refl E) as [H _]. exact H.
Qed.
Lemma boxes_links x y ws es : Forall2 (box_of round3) ws es ->
  Forall2 boxed (flat_map (fun w => match link_of (fst w) with Some k => [(k, (x, y, snd w))] | None => [] end) ws) (flat_map (pair_link x y) es).
Proof.
  induction 1 as [|w e ws es [H1 H2] _ IH]; [constructor|]. cbn [flat_map]. apply Forall2_app; [|exact IH]. destruct e as [ie re], w as [iw sw]. unfold pair_link. cbn [fst snd] in *. subst ie. destruct (link_of iw); [|constructor].
  constructor; [|constructor]. cbn. auto.
Qed.
Lemma spots_links x y ss : flat_map spot_links (map (fun s => (x, y, s)) ss) =
  flat_map (fun w => match link_of (fst w) with Some k => [(k, (x, y, snd w))] | None => [] end) (wanted_boxes ss).
Proof.
  unfold wanted_boxes. induction ss as [|s ss IH]; [reflexivity|]. cbn [map flat_map]. rewrite flat_map_app, IH. f_equal. unfold spot_links. cbn [snd].
  induction (lp_ids (sp_of s)) as [|id l IH2]; [reflexivity|]. cbn [flat_map map fst snd]. now rewrite IH2.
Qed.
Lemma page_links ps os its : Forall2 adds ps os -> holds_items ps its -> Forall (WholeMade.made round3 text_w space_w fref) its ->
  (forall c x y d, In (Whole.DPar c x y d) its -> c_list c = None) ->
  exists l, Permutation (PdfObjSpec.links (flat_map op_events os)) l /\ Forall2 boxed (wanted_links text_w space_w its) l.
Proof.
  unfold holds_items. intros H. revert its. induction H as [|p o ps os H _ IH]; intros its Hi Hm Hl.
  - cbn in Hi. inversion Hi; subst. exists []. split; constructor.
  - cbn [flat_map]. rewrite links_app. cbn [filter] in Hi.
    destruct p as [x y d|l|nm w h x y], o as [| |t|nm' ob w' h' x' y'|]; cbn [LinkFile.adds] in H; try contradiction; cbn [is_graphics negb] in Hi; cbn [op_events].
    + inversion Hi as [|? it ? its' Hs Hi']; subst. destruct it as [c x' y' d'|]; cbn [same_thing] in Hs; [|contradiction]. destruct Hs as (<- & <- & <-).
      apply Forall_cons_iff in Hm as [Hm1 Hm2]. destruct (IH its' Hi' Hm2) as (l & L1 & L2); [intros; eapply Hl; right; eassumption|].
      destruct H as (Hx & Hy & Hk & _). exists (flat_map (pair_link x y) (e_ids (d_em d)) ++ l). split.
      * apply Permutation_app; [|exact L1]. rewrite text_links, Hx, Hy, (kinds_links _ _ _ _ Hk). apply Permutation_flat_map. apply ids_dict_perm.
      * unfold wanted_links. cbn [flat_map par_spots]. apply Forall2_app; [|exact L2]. rewrite spots_links. apply boxes_links. apply (made_ids c x y d Hm1). eapply Hl. left. reflexivity.
    + destruct H as [H _]. rewrite text_links, H. cbn [flat_map app]. exact (IH its Hi Hm Hl).
    + inversion Hi as [|? it ? its' Hs Hi']; subst. destruct it as [|]; cbn [same_thing] in Hs; [contradiction|].
      apply Forall_cons_iff in Hm as [Hm1 Hm2]. destruct (IH its' Hi' Hm2) as (l & L1 & L2); [intros; eapply Hl; right; eassumption|]. exists l. split; [exact L1|exact L2].
Qed.
Lemma Forall2_perm {A B} (P : A -> B -> Prop) a b b' : Permutation b b' -> Forall2 P a b -> exists a', Permutation a a' /\ Forall2 P a' b'.
Proof.
  intros H. revert a. induction H as [|z b b' H IH|u v b|b b1 b2 H1 IH1 H2 IH2]; intros a F.
  - inversion F; subst. exists []. split; constructor.
  - inversion F as [|x ? a' ? Hx Fa]; subst. destruct (IH _ Fa) as (a1 & A1 & A2). exists (x :: a1). split; constructor; assumption.
  - inversion F as [|x1 ? a1 ? X1 F1]; subst. inversion F1 as [|x2 ? a2 ? X2 F2]; subst. exists (x2 :: x1 :: a2). split; [constructor|]. repeat (constructor; try assumption).
  - destruct (IH1 _ F) as (a1 & A1 & A2). destruct (IH2 _ A2) as (a2 & B1 & B2). exists a2. split; [now transitivity a1|exact B2].
Qed.
Lemma links_in_file num file ans h i ps its ops : Forall2 (FileSpec.link_at num round3 file) ans (PdfObjSpec.links (PdfObjSpec.on i h)) -> h = PdfObjSpec.history ops ->
  Forall2 adds ps (ops_on i ops) -> holds_items ps its -> Forall (WholeMade.made round3 text_w space_w fref) its -> (forall c x y d, In (Whole.DPar c x y d) its -> c_list c = None) ->
  exists l, Permutation ans l /\ Forall2 (covers round3 num file) (wanted_links text_w space_w its) l.
Proof.
  intros F -> Ha Hi Hm Hl. rewrite <- links_pages in F. unfold PdfObjSpec.history in F. rewrite on_ops in F.
  destruct (page_links ps _ its Ha Hi Hm Hl) as (l & L1 & L2). destruct (Forall2_perm _ _ _ _ L1 F) as (a & A1 & A2). exists a. split; [exact A1|].
  clear - L2 A2. revert a A2. induction L2 as [|w k ws ks H _ IH]; intros a A2; inversion A2 as [|z ? a' ? Z1 Z2]; subst; constructor; [|exact (IH _ Z2)].
  destruct w as [k1 [[x y] s]], k as [k2 [[x' y'] r]]. cbn in H. destruct H as (-> & -> & -> & H). exists r. auto.
Qed.

(** ** The labels of a page *)
Lemma last_label_in l h : match PdfObjSpec.last_label l h with
  | Some (i, (x, y, r)) => In (i, PdfObjSpec.ELabel l x y r) h
  | None => forall i x y r, ~ In (i, PdfObjSpec.ELabel l x y r) h
  end.
Proof.
  induction h as [|[j e] h IH] using rev_ind; [intros i x y r []|]. rewrite PdfObjProofs.last_label_snoc.
  assert (K : (forall x y r, e <> PdfObjSpec.ELabel l x y r) -> match PdfObjSpec.last_label l h with
    | Some (i, (x, y, r)) => In (i, PdfObjSpec.ELabel l x y r) (h ++ [(j, e)]) | None => forall i x y r, ~ In (i, PdfObjSpec.ELabel l x y r) (h ++ [(j, e)]) end).
  { intros Hne. destruct (PdfObjSpec.last_label l h) as [[i [[x y] r]]|]; [apply in_or_app; now left|].
    intros i x y r H. apply in_app_or in H as [H|[H|[]]]; [exact (IH _ _ _ _ H)|]. injection H as _ H. exact (Hne _ _ _ H). }
  destruct e; try (apply K; discriminate). destruct (str_eqb l l0) eqn:E.
  - apply str_eqb_eq in E. subst l0. apply in_or_app. right. now left.
  - apply str_eqb_neq in E. apply K. congruence.
Qed.
Lemma in_on i e h : In e (PdfObjSpec.on i h) <-> In (i, e) h.
Proof.
  unfold PdfObjSpec.on. rewrite in_map_iff. split.
  - intros ([j e'] & <- & H). apply filter_In in H as [H E]. cbn in E. apply Nat.eqb_eq in E. now subst j.
  - intros H. exists (i, e). split; [reflexivity|]. apply filter_In. split; [exact H|apply Nat.eqb_refl].
Qed.
Lemma in_ops i e ops : not_page e = true -> (In (i, e) (PdfObjSpec.history ops) <-> exists o, In o (ops_on i ops) /\ In e (op_events o)).
Proof.
  intros He. rewrite <- in_flat_map. unfold ops_on. rewrite <- (on_ops i ops None 0), filter_In, in_on. tauto.
Qed.
Lemma label_event l x y r t : In (PdfObjSpec.ELabel l x y r) (PdfObjSpec.text_events t) <->
  x = PdfObj.tx_x t /\ y = PdfObj.tx_y t /\ exists rs, In (PdfObj.ILabel l, r :: rs) (PdfObj.tx_ids t).
Proof.
  unfold PdfObjSpec.text_events. split.
  - intros [H|H]; [discriminate|]. apply in_app_or in H as [H|H]; [apply in_map_iff in H as (q & H & _); discriminate|]. apply in_flat_map in H as ([k rs] & Hk & H). cbn [fst snd] in H.
    destruct rs as [|r0 rs]; [destruct H|]. destruct k; cbn [PdfObjSpec.id_events] in H; try (apply in_map_iff in H as (q & H & _); discriminate); destruct H as [H|[]]; [|discriminate].
    injection H as <- <- <- <-. split; [reflexivity|]. split; [reflexivity|]. now exists rs.
  - intros (-> & -> & rs & H). right. apply in_or_app. right. apply in_flat_map. exists (PdfObj.ILabel l, r :: rs). split; [exact H|]. now left.
Qed.
Lemma kind_label id l : id_kind loads id = Ok (Some (PdfObj.ILabel l)) <-> id = lit "$label:" ++ l.
Proof.
  unfold id_kind. split.
  - destruct (startswith (lit "$label:") id) eqn:E1.
    + intros H. injection H as <-. apply str_eqb_eq in E1. rewrite <- (firstn_skipn 7 id) at 1. now f_equal.
    + destruct (startswith (lit "$ref:") id); [discriminate|]. destruct (startswith (lit "$uri:") id); [discriminate|]. destruct (startswith (lit "$outline:") id); [|discriminate].
      destruct (loads (skipn 9 id)) as [[[lv t] l']|]; discriminate.
  - intros ->. reflexivity.
Qed.
Lemma in_kinds k rs : forall g ks, id_kinds loads g = Ok ks -> (In (k, rs) ks <-> exists id, In (id, rs) g /\ id_kind loads id = Ok (Some k)).
Proof.
  induction g as [|[id0 rs0] g IH]; intros ks; cbn [id_kinds]; [intros H; injection H as <-; split; [intros []|intros (id & [] & _)]|].
  destruct (id_kind loads id0) as [k0|] eqn:Ek; [|discriminate]. cbn [bind]. destruct (id_kinds loads g) as [ks'|] eqn:Eg; [|discriminate]. cbn [bind]. intros H. injection H as <-.
  specialize (IH _ eq_refl). rewrite in_app_iff. split.
  - intros [H|H].
    + destruct k0 as [k0|]; [|destruct H]. destruct H as [H|[]]. injection H as -> ->. exists id0. split; [now left|exact Ek].
    + apply IH in H as (id & H1 & H2). exists id. split; [now right|exact H2].
  - intros (id & [H|H] & H2).
    + injection H as -> ->. rewrite Ek in H2. injection H2 as ->. left. now left.
    + right. apply IH. now exists id.
Qed.
Definition has (id : str) (s : spot) : bool := existsb (str_eqb id) (lp_ids (sp_of s)).
Lemma rects_app k a b : rects_of k (a ++ b) = rects_of k a ++ rects_of k b.
Proof. unfold rects_of. now rewrite filter_app, map_app. Qed.
Lemma first_box id : forall ss E, Forall2 (box_of round3) (wanted_boxes ss) E ->
  match rects_of id E with r :: _ => exists s, find (has id) ss = Some s /\ is_box round3 s r | [] => find (has id) ss = None end.
Proof.
  induction ss as [|s ss IH]; intros E F; [inversion F; subst; reflexivity|]. cbn [wanted_boxes flat_map] in F. apply Forall2_app_inv_l in F as (E1 & E2 & F1 & F2 & ->).
  specialize (IH E2 F2). rewrite rects_app. cbn [find].
  assert (A : match rects_of id E1 with r :: _ => has id s = true /\ is_box round3 s r | [] => has id s = false end).
  { unfold has. clear - F1. revert E1 F1. induction (lp_ids (sp_of s)) as [|i l IH]; intros E1 F1; cbn [map] in F1; inversion F1 as [|? [ie re] ? E1' [G1 G2] F1']; subst; [reflexivity|].
    cbn [fst snd] in G1, G2. subst ie. unfold rects_of. cbn [filter fst existsb]. destruct (str_eqb id i); cbn [map orb snd]; [auto|]. exact (IH _ F1'). }
  destruct (rects_of id E1) as [|r rs]; cbn [app].
  - rewrite A. exact IH.
  - destruct A as [-> A]. exists s. auto.
Qed.
Lemma find_map {A B} (f : A -> B) p l : find p (map f l) = option_map f (find (fun a => p (f a)) l).
Proof. induction l as [|a l IH]; [reflexivity|]. cbn [map find]. destruct (p (f a)); [reflexivity|exact IH]. Qed.
(** The rectangles that a paragraph has for a label. *)
Lemma par_label l c x y d ks : WholeMade.made round3 text_w space_w fref (Whole.DPar c x y d) -> c_list c = None -> paragraph_ids loads d = Ok ks ->
  match label_spot text_w space_w l (Whole.DPar c x y d) with
  | Some (x', y', s) => x' = x /\ y' = y /\ exists r rs, is_box round3 s r /\ In (PdfObj.ILabel l, r :: rs) ks
  | None => forall rs, ~ In (PdfObj.ILabel l, rs) ks
  end /\
  (forall r rs, In (PdfObj.ILabel l, r :: rs) ks -> exists s, label_spot text_w space_w l (Whole.DPar c x y d) = Some (x, y, s) /\ is_box round3 s r).
Proof.
  intros Hm Hl Hk. unfold label_spot. cbn [par_spots]. rewrite find_map. cbn [snd].
  pose proof (first_box (lit "$label:" ++ l) _ _ (made_ids c x y d Hm Hl)) as H. unfold has in H.
  set (o := find _ _) in H |- *. unfold paragraph_ids in Hk. destruct (ids_dict_get (e_ids (d_em d))) as [G1 G2]. specialize (G2 (lit "$label:" ++ l)).
  assert (K : forall rs, In (PdfObj.ILabel l, rs) ks <-> dget (lit "$label:" ++ l) (ids_dict (e_ids (d_em d))) = Some rs).
  { intros rs. rewrite (in_kinds _ rs _ _ Hk). split.
    - intros (id & I1 & I2). apply kind_label in I2. subst id. exact (PdfObjRun.dget_nodup_in _ _ _ G1 I1).
    - intros Hd. exists (lit "$label:" ++ l). split; [exact (dget_in _ _ _ Hd)|]. now apply kind_label. }
  rewrite G2 in K. destruct (rects_of (lit "$label:" ++ l) (e_ids (d_em d))) as [|r rs].
  - rewrite H. cbn [option_map]. split; [intros rs I; apply K in I; discriminate|]. intros r rs I. apply K in I. discriminate.
  - destruct H as (s & -> & Hs). cbn [option_map]. split; [split; [reflexivity|]; split; [reflexivity|]; exists r, rs; split; [exact Hs|now apply K]|].
    intros r' rs' I. apply K in I. injection I as <- <-. exists s. auto.
Qed.
Lemma item_op ps os its : Forall2 adds ps os -> holds_items ps its ->
  (forall c x y d, In (Whole.DPar c x y d) its -> exists t, In (PdfObj.OpText t) os /\ PdfObj.tx_x t = x /\ PdfObj.tx_y t = y /\ paragraph_ids loads d = Ok (PdfObj.tx_ids t)) /\
  (forall t, In (PdfObj.OpText t) os -> PdfObj.tx_ids t = [] \/
     exists c x y d, In (Whole.DPar c x y d) its /\ PdfObj.tx_x t = x /\ PdfObj.tx_y t = y /\ paragraph_ids loads d = Ok (PdfObj.tx_ids t)).
Proof.
  unfold holds_items. intros H. revert its. induction H as [|p o ps os H _ IH]; intros its Hi; cbn [filter] in Hi.
  - inversion Hi; subst. split; [intros c x y d []|intros t []].
  - destruct p as [x y d|l|nm w h x y], o as [| |t|nm' ob w' h' x' y'|]; cbn [LinkFile.adds] in H; try contradiction; cbn [is_graphics negb] in Hi.
    + inversion Hi as [|? it ? its' Hs Hi']; subst. destruct it as [c x' y' d'|]; cbn [same_thing] in Hs; [|contradiction]. destruct Hs as (<- & <- & <-).
      destruct (IH its' Hi') as [I1 I2]. destruct H as (Hx & Hy & Hk & _). split.
      * intros c' x' y' d' [E|E]; [injection E as <- <- <- <-; exists t; split; [now left|auto]|]. destruct (I1 _ _ _ _ E) as (t' & T1 & T2). exists t'. split; [now right|exact T2].
      * intros t' [E|E]; [injection E as <-; right; exists c, x, y, d; split; [now left|auto]|]. destruct (I2 _ E) as [E2|(c' & x' & y' & d' & E1 & E2)]; [now left|].
        right. exists c', x', y', d'. split; [now right|exact E2].
    + destruct (IH its Hi) as [I1 I2]. split.
      * intros c' x' y' d' E. destruct (I1 _ _ _ _ E) as (t' & T1 & T2). exists t'. split; [now right|exact T2].
      * intros t' [E|E]; [injection E as <-; left; apply H|exact (I2 _ E)].
    + inversion Hi as [|? it ? its' Hs Hi']; subst. destruct it as [|]; cbn [same_thing] in Hs; [contradiction|]. destruct (IH its' Hi') as [I1 I2]. split.
      * intros c' x2 y2 d' [E|E]; [discriminate|]. destruct (I1 _ _ _ _ E) as (t' & T1 & T2). exists t'. split; [now right|exact T2].
      * intros t' [E|E]; [discriminate|]. destruct (I2 _ E) as [E2|(c' & x2 & y2 & d' & E1 & E2)]; [now left|]. right. exists c', x2, y2, d'. split; [now right|exact E2].
Qed.
Lemma page_label l i ps its ops : Forall2 adds ps (ops_on i ops) -> holds_items ps its ->
  Forall (WholeMade.made round3 text_w space_w fref) its -> (forall c x y d, In (Whole.DPar c x y d) its -> c_list c = None) ->
  (forall x y r, In (i, PdfObjSpec.ELabel l x y r) (PdfObjSpec.history ops) -> exists it s, In it its /\ label_spot text_w space_w l it = Some (x, y, s) /\ is_box round3 s r) /\
  ((forall x y r, ~ In (i, PdfObjSpec.ELabel l x y r) (PdfObjSpec.history ops)) -> forall it, In it its -> label_spot text_w space_w l it = None).
Proof.
  intros Ha Hi Hm Hn. destruct (item_op _ _ _ Ha Hi) as [I1 I2]. rewrite Forall_forall in Hm. split.
  - intros x y r H. apply in_ops in H as (o & O1 & O2); [|reflexivity].
    destruct o as [| |t|nm ob w h x' y'|]; cbn [op_events] in O2; try contradiction; [|destruct O2 as [O2|[O2|[]]]; discriminate].
    apply label_event in O2 as (-> & -> & rs & O2). destruct (I2 _ O1) as [E|(c & x & y & d & E1 & <- & <- & E2)]; [rewrite E in O2; destruct O2|].
    destruct (par_label l c _ _ d _ (Hm _ E1) (Hn _ _ _ _ E1) E2) as [_ K]. destruct (K _ _ O2) as (s & S1 & S2). exists (Whole.DPar c (PdfObj.tx_x t) (PdfObj.tx_y t) d), s. auto.
  - intros Hno it Hit. destruct it as [c x y d|]; [|reflexivity]. destruct (I1 _ _ _ _ Hit) as (t & T1 & T2 & T3 & T4).
    destruct (par_label l c x y d _ (Hm _ Hit) (Hn _ _ _ _ Hit) T4) as [K _]. destruct (label_spot text_w space_w l (Whole.DPar c x y d)) as [[[x' y'] s]|]; [|reflexivity].
    destruct K as (_ & _ & r & rs & _ & K). exfalso. apply (Hno x y r). apply in_ops; [reflexivity|]. exists (PdfObj.OpText t). split; [exact T1|]. cbn [op_events]. apply label_event.
    split; [now symmetry|]. split; [now symmetry|]. now exists rs.
Qed.
End Page.
